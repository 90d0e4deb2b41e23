(** Specification vocabulary for keyboards whose keys all act at once (C70): ordinary
    keys, callback keys, layer keys of every kind, one-shot ("sticky") modifiers,
    caps word, and layered keys of these. *)
From Verif Require Import Base Output Types Scheduler Keymap SimpleKeys Sticky Layered Composite SpecKeymap SpecPlain SpecLayer SpecMods.
Local Open Scope N_scope.

(** What a key means from its press to its release. *)
Inductive tmeaning :=
| TSends (ko : key_output)           (* an ordinary key *)
| TSwitches (m : layer_modifier)     (* a layer key *)
| TCalls (cb : callback)             (* a callback key *)
| TCapsWord                          (* the caps word key *)
| TOneShot (m : modifiers).          (* one-shot modifiers *)
(** The meaning of a key while the layers [on] are active and [default] is the
    default layer (as in C62). *)
Inductive tmeans (d : key_data) (on : N -> bool) (default : option N) : ref -> tmeaning -> Prop :=
| tm_sends r ko : plain_key d r ko -> tmeans d on default r (TSends ko)
| tm_switches i m : nth_error (kd_layer_mods d) (N.to_nat i) = Some m -> tmeans d on default (RLayered (LyModifier i)) (TSwitches m)
| tm_calls i cb : nth_error (kd_callback d) (N.to_nat i) = Some cb -> tmeans d on default (RCallback i) (TCalls cb)
| tm_caps : tmeans d on default RCapsWord TCapsWord
| tm_oneshot i k : nth_error (kd_sticky d) (N.to_nat i) = Some k -> tmeans d on default (RSticky i) (TOneShot (sk_mods k))
| tm_layered i k r m : nth_error (kd_layered d) (N.to_nat i) = Some k ->
    acts_as k (fun l => on l = true) default r -> tmeans d on default r m ->
    tmeans d on default (RLayered (LyLayered i)) m.

(** A layer is off, on, or on for one key. *)
Inductive layer_mode := LOff | LOn | LOnce.
Definition mode_on (m : layer_mode) : bool := match m with LOff => false | _ => true end.

(** The keyboard: what is down, in the order it went down (keys with their meaning
    and whether they were used together with another key; virtual keys with their
    output); the mode of layers 1, 2, ...; the default layer; the key that uses the
    one-key layer; caps word; the modifiers latched, and the key that uses them; the
    callbacks asked for. *)
Definition thing : Type := u16 * tmeaning * bool + key_output.
Record tboard := mkT {
  tb_down : list thing;
  tb_layers : list layer_mode;
  tb_default : option N;
  tb_once_by : option u16;
  tb_caps : bool;
  tb_latched : list modifiers;
  tb_latched_by : option u16;
  tb_calls : list callback
}.
Definition tboard_new (n : nat) : tboard := mkT [] (repeat LOff n) None None false [] None [].
Definition mode_of (b : tboard) (l : N) : layer_mode :=
  if 1 <=? l then nth (N.to_nat (l - 1)) (tb_layers b) LOff else LOff.
Definition tb_on (b : tboard) (l : N) : bool := mode_on (mode_of b l).
Definition down_with (b : tboard) l : tboard :=
  mkT l (tb_layers b) (tb_default b) (tb_once_by b) (tb_caps b) (tb_latched b) (tb_latched_by b) (tb_calls b).
Definition layers_with (b : tboard) ls by_ : tboard :=
  mkT (tb_down b) ls (tb_default b) by_ (tb_caps b) (tb_latched b) (tb_latched_by b) (tb_calls b).
Definition latched_with (b : tboard) ms by_ : tboard :=
  mkT (tb_down b) (tb_layers b) (tb_default b) (tb_once_by b) (tb_caps b) ms by_ (tb_calls b).

Definition key_is (i : u16) (x : thing) : bool := match x with inl (j, _, _) => i =? j | inr _ => false end.
Definition virtual_is (ko : key_output) (x : thing) : bool := match x with inl _ => false | inr ko' => ko_eqb ko ko' end.
Definition key_down (i : u16) (b : tboard) : bool := existsb (key_is i) (tb_down b).

(** *** What an input sets off, to be carried out once the input has been taken *)
Inductive effect :=
| ELayer (e : layer_event)     (* switch layers *)
| ECall (cb : callback)        (* ask for a callback *)
| ECaps (on : bool)            (* turn caps word on or off *)
| ELatch (m : modifiers)       (* latch modifiers for the next key *)
| EDown (ko : key_output)      (* a virtual key goes down *)
| EUp (ko : key_output).       (* a virtual key goes up *)

(** The left shift that caps word holds. *)
Definition caps_shift : key_output := mkKO (Keyboard 0) 2.

Definition put (l : N) (m : layer_mode) (ls : list layer_mode) : list layer_mode :=
  if 1 <=? l then set_nth ls (N.to_nat (l - 1)) m else ls.
Definition opposite (m : layer_mode) : layer_mode := match m with LOff => LOn | _ => LOff end.
(** Layer [l], [l + 1], ... are on if their bit is set, off if not; 31 layers. *)
Fixpoint put_all (bits : N) (l : N) (ls : list layer_mode) : list layer_mode :=
  match ls with
  | [] => []
  | m :: t => (if l <=? 31 then if N.testbit bits l then LOn else LOff else m) :: put_all bits (l + 1) t
  end.
Definition switch_layers (e : layer_event) (b : tboard) : tboard :=
  match e with
  | LeActivated l => layers_with b (put l LOn (tb_layers b)) (tb_once_by b)
  | LeDeactivated l => layers_with b (put l LOff (tb_layers b)) (tb_once_by b)
  | LeToggled l => layers_with b (put l (opposite (mode_of b l)) (tb_layers b)) (tb_once_by b)
  | LeStickyActivated l => layers_with b (put l LOnce (tb_layers b)) None
  | LeSet bits => layers_with b (put_all bits 1 (tb_layers b)) (tb_once_by b)
  | LeSetDefault l =>
      mkT (tb_down b) (tb_layers b) (if l =? 0 then None else Some l) (tb_once_by b) (tb_caps b) (tb_latched b) (tb_latched_by b) (tb_calls b)
  end.
Definition goes_down (ko : key_output) (b : tboard) : tboard := down_with b (tb_down b ++ [inr ko]).
Definition goes_up (ko : key_output) (b : tboard) : tboard := down_with b (remove_first (virtual_is ko) (tb_down b)).
Definition caps_with (on : bool) (b : tboard) : tboard :=
  mkT (tb_down b) (tb_layers b) (tb_default b) (tb_once_by b) on (tb_latched b) (tb_latched_by b) (tb_calls b).
(** Carrying out: caps word holds a shift; at most four modifiers are latched. *)
Definition carry (b : tboard) (e : effect) : tboard :=
  match e with
  | ELayer e => switch_layers e b
  | ECall cb => mkT (tb_down b) (tb_layers b) (tb_default b) (tb_once_by b) (tb_caps b) (tb_latched b) (tb_latched_by b) (tb_calls b ++ [cb])
  | ECaps true => goes_down caps_shift (caps_with true b)
  | ECaps false => goes_up caps_shift (caps_with false b)
  | ELatch m => if (length (tb_latched b) <? 4)%nat then latched_with b (tb_latched b ++ [m]) (tb_latched_by b) else b
  | EDown ko => goes_down ko b
  | EUp ko => goes_up ko b
  end.
Definition carry_out (es : list effect) (b : tboard) : tboard := fold_left carry es b.

(** *** How what is down notices an input *)

(** A one-key layer key held while another key is pressed is a held layer key from
    then on. *)
Definition notice (ie : input_event) (x : thing) : thing :=
  match ie, x with
  | Press _, inl (i, TSwitches (LmSticky l), _) => inl (i, TSwitches (LmSticky l), true)
  | _, _ => x
  end.
(** What a key of some meaning sets off when released. *)
Definition at_release (m : tmeaning) (used : bool) : list effect :=
  match m with
  | TSwitches lm => match release_effect lm used with Some e => [ELayer e] | None => [] end
  | TOneShot ms => if used then [] else [ELatch ms; EDown (mods_key ms)]
  | _ => []
  end.
Definition reacts (ie : input_event) (x : thing) : list effect :=
  match ie, x with
  | Press _, inl (_, TSwitches (LmSticky l), false) => [ELayer (LeActivated l)]
  | Release i, inl (j, m, used) => if i =? j then at_release m used else []
  | _, _ => []
  end.

(** The lowest layer that is on for one key. *)
Fixpoint once_from (l : N) (ls : list layer_mode) : option N :=
  match ls with
  | [] => None
  | LOnce :: _ => Some l
  | _ :: t => once_from (l + 1) t
  end.
(** It is used by the first key pressed, and left at the release of that key or at
    the next press. *)
Definition layers_hear (ie : input_event) (b : tboard) : tboard :=
  match once_from 1 (tb_layers b) with
  | None => b
  | Some l =>
      let leave := layers_with b (put l LOff (tb_layers b)) None in
      match ie, tb_once_by b with
      | Press i, None => layers_with b (tb_layers b) (Some i)
      | Press _, Some _ => leave
      | Release i, Some j => if i =? j then leave else b
      | _, _ => b
      end
  end.
(** Latched modifiers are let go when the key that uses them is released, and, when
    configured so, at the next press. *)
Definition mods_hear (sr : sticky_release) (ie : input_event) (b : tboard) : tboard * list effect :=
  let let_go := (latched_with b [] None, map (fun m => EUp (mods_key m)) (tb_latched b)) in
  match ie, tb_latched_by b, sr with
  | Press _, Some _, OnNextKeyPress => let_go
  | Release i, Some j, _ => match tb_latched b with [] => (b, []) | _ => if i =? j then let_go else (b, []) end
  | _, _, _ => (b, [])
  end.
Definition hear (sr : sticky_release) (ie : input_event) (b : tboard) : tboard * list effect :=
  let '(b', es) := mods_hear sr ie (layers_hear ie (down_with b (map (notice ie) (tb_down b)))) in
  (b', flat_map (reacts ie) (tb_down b) ++ es).

(** *** A key goes down *)

(** The HID usage codes typed within a word (C28). *)
Definition in_word (ko : key_output) : bool :=
  match ko_usage ko with
  | Keyboard kc => ((4 <=? kc) && (kc <=? 29)) || ((30 <=? kc) && (kc <=? 39) && negb (shift_held (ko_mods ko)))
                   || existsb (N.eqb kc) [42; 45; 76; 225; 229; 0]
  | _ => true
  end.
(** One-shot modifiers held while an ordinary key goes down are held modifiers from
    then on. *)
Definition used_together (x : thing) : thing :=
  match x with inl (i, TOneShot m, _) => inl (i, TOneShot m, true) | _ => x end.
(** An ordinary key: it ends caps word unless typed within a word, and uses the
    latched modifiers. *)
Definition typed (i : u16) (ko : key_output) (b : tboard) : tboard * list effect :=
  (mkT (map used_together (tb_down b)) (tb_layers b) (tb_default b) (tb_once_by b) (tb_caps b && in_word ko)
       (tb_latched b) (match tb_latched b with [] => tb_latched_by b | _ => Some i end) (tb_calls b),
   if tb_caps b && negb (in_word ko) then [EUp caps_shift] else []).
Definition key_goes_down (i : u16) (m : tmeaning) (b : tboard) : tboard * list effect :=
  let b1 := down_with b (tb_down b ++ [inl (i, m, false)]) in
  match m with
  | TSends ko => typed i ko b1
  | TSwitches lm => (b1, [ELayer (press_effect lm)])
  | TCalls cb => (b1, [ECall cb])
  | TCapsWord => (b1, [ECaps (negb (tb_caps b))])
  | TOneShot _ => (b1, [])
  end.

(** *** One input *)
Inductive tstep (sr : sticky_release) (refs : list ref) (d : key_data) (b : tboard) : input_event -> tboard -> Prop :=
| t_again i : key_down i b = true ->
    tstep sr refs d b (Press i) (let '(b1, es) := hear sr (Press i) b in carry_out es b1)
| t_press i r m : key_down i b = false -> nth_error refs (N.to_nat i) = Some r ->
    tmeans d (tb_on (fst (hear sr (Press i) b))) (tb_default b) r m ->
    tstep sr refs d b (Press i) (let '(b1, es) := hear sr (Press i) b in
                                 let '(b2, es2) := key_goes_down i m b1 in carry_out (es ++ es2) b2)
| t_release i :
    tstep sr refs d b (Release i) (let '(b1, es) := hear sr (Release i) b in
                                   carry_out es (down_with b1 (remove_first (key_is i) (tb_down b1))))
| t_vpress ko : tstep sr refs d b (VirtualKeyPress ko) (goes_down ko b)
| t_vrelease ko : tstep sr refs d b (VirtualKeyRelease ko) (goes_up ko b).

(** A history of inputs. *)
Inductive trun (sr : sticky_release) (n : nat) (refs : list ref) (d : key_data) : list input_event -> tboard -> Prop :=
| trun_start : trun sr n refs d [] (tboard_new n)
| trun_input h b ie b' : trun sr n refs d h b -> tstep sr refs d b ie b' -> trun sr n refs d (h ++ [ie]) b'.

(** What it sends: the ordinary keys, the modifiers held like ordinary ones, the
    virtual keys. *)
Definition tboard_output (b : tboard) : list key_output :=
  filter_map (fun x => match x with
                       | inl (_, TSends ko, _) => Some ko
                       | inl (_, TOneShot m, true) => Some (mods_key m)
                       | inl _ => None
                       | inr ko => Some ko
                       end) (tb_down b).

(** *** The keymaps concerned *)
Definition tmodifier_ok (n : nat) (m : layer_modifier) : Prop :=
  match m with
  | LmHold l | LmToggle l | LmSticky l => 1 <= l <= N.of_nat n
  | LmDefault l => l <= N.of_nat n
  | LmSetActiveLayers _ => True
  end.
Inductive tkey (n : nat) (d : key_data) : nat -> ref -> Prop :=
| tk_plain h r ko : plain_key d r ko -> tkey n d h r
| tk_modifier h i m : nth_error (kd_layer_mods d) (N.to_nat i) = Some m -> tmodifier_ok n m ->
    tkey n d h (RLayered (LyModifier i))
| tk_callback h i cb : nth_error (kd_callback d) (N.to_nat i) = Some cb -> tkey n d h (RCallback i)
| tk_caps h : tkey n d h RCapsWord
| tk_sticky h i k : nth_error (kd_sticky d) (N.to_nat i) = Some k -> tkey n d h (RSticky i)
| tk_layered h i k : nth_error (kd_layered d) (N.to_nat i) = Some k -> length (lk_layered k) = n ->
    tkey n d h (lk_base k) -> (forall r, In (Some r) (lk_layered k) -> tkey n d h r) ->
    tkey n d (S h) (RLayered (LyLayered i)).

(** *** Room
    Pressing a key, and a virtual key, needs a place among 16; 16 things are down
    at most; the chord context can track the keys. *)
Definition room_for (b : tboard) (ie : input_event) (b' : tboard) : Prop :=
  (length (tb_down b') <= 16)%nat
  /\ match ie with
     | Press i => key_down i b = true \/ (length (tb_down b) <= 15)%nat
     | _ => True
     end.
Definition keys_of (b : tboard) : list u16 := filter_map (fun x => match x with inl (i, _, _) => Some i | inr _ => None end) (tb_down b).
Definition tfits (sr : sticky_release) (n : nat) (refs : list ref) (d : key_data) (max_tracked : nat) (h : list input_event) : Prop :=
  (forall i, In (Press i) h -> (N.to_nat i < length refs)%nat)
  /\ forall h1 ie h2 b b', h = h1 ++ ie :: h2 -> trun sr n refs d h1 b -> tstep sr refs d b ie b' ->
       room_for b ie b' /\ (max_tracked = O \/ (length (keys_of b') <= max_tracked)%nat).

(** A keyboard at rest: nothing down or latched, caps word off, no one-key layer. *)
Definition at_rest (b : tboard) : Prop :=
  tb_down b = [] /\ tb_latched b = [] /\ tb_latched_by b = None /\ tb_caps b = false
  /\ forall l, mode_of b l <> LOnce.

(** How many things a history can put down. *)
Definition adds (ie : input_event) : nat := match ie with Press _ => 2 | VirtualKeyPress _ => 1 | _ => 0 end.
Definition added (h : list input_event) : nat := fold_right (fun ie a => (adds ie + a)%nat) O h.
