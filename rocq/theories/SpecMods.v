(** Specification vocabulary for caps word and sticky modifiers (C27, C28). *)
From Verif Require Import Base Output Types Keymap Sticky CapsWord Composite.
Local Open Scope N_scope.

(** *** Caps word *)

(** Left shift is bit 1 and right shift bit 5 of the modifier byte. *)
Definition shift_held (m : modifiers) : bool := N.testbit m 1 || N.testbit m 5.
(** The HID usage codes typed within a word: letters, digits without shift,
    backspace, minus (underscore), delete, the shift keys, and no code at all (what
    modifier keys have). *)
Definition word_code (kc : u8) (m : modifiers) : Prop :=
  (4 <= kc <= 29) \/ (30 <= kc <= 39 /\ shift_held m = false) \/ In kc [42; 45; 76; 225; 229; 0].
Definition word_output (ko : key_output) : Prop :=
  match ko_usage ko with Keyboard kc => word_code kc (ko_mods ko) | _ => True end.
(** A virtual left shift. *)
Definition left_shift : key_output := mkKO (Keyboard 0) 2.

(** What happens to caps word: its key is pressed, a key types something, or
    anything else. *)
Inductive caps_action :=
| CapsKey (i : u16)
| Typed (i : u16) (ko : key_output)
| Elsewhere (ev : event cev).
Definition not_caps (ev : event cev) : Prop :=
  match ev with EvKey _ (CeCapsWord _) | EvKeymap (KmResolvedKeyOutput _ _) => False | _ => True end.
Definition caps_actions_ok (l : list caps_action) : Prop :=
  forall ev, In (Elsewhere ev) l -> not_caps ev.

(** Feeding them to the model: the caps word key emits its event, which is then
    handled.  Collects the events emitted by the caps word context. *)
Definition caps_events (c : capsword_ctx) (a : caps_action) : list (event cev) :=
  match a with
  | CapsKey i => map se_event (ke_map CeCapsWord (snd (@cw_new_pressed_key ref cpks cks c i)))
  | Typed i ko => [EvKeymap (KmResolvedKeyOutput i ko)]
  | Elsewhere ev => [ev]
  end.
Fixpoint caps_feed (c : capsword_ctx) (evs : list (event cev)) : capsword_ctx * list (event cev) :=
  match evs with
  | [] => (c, [])
  | ev :: t => let '(c1, kes) := step_caps_word c ev in
               let '(c2, out) := caps_feed c1 t in (c2, map se_event kes ++ out)
  end.
Fixpoint caps_play (c : capsword_ctx) (l : list caps_action) : capsword_ctx * list (event cev) :=
  match l with
  | [] => (c, [])
  | a :: t => let '(c1, o1) := caps_feed c (caps_events c a) in
              let '(c2, o2) := caps_play c1 t in (c2, o1 ++ o2)
  end.

(** What is expected: on or off after each action ... *)
Inductive caps_run : bool -> list caps_action -> bool -> list (event cev) -> Prop :=
| cr_done on : caps_run on [] on []
(** the key turns it on, pressing the shift, *)
| cr_on i l fin out : caps_run true l fin out ->
    caps_run false (CapsKey i :: l) fin (EvInput (VirtualKeyPress left_shift) :: out)
(** or off, releasing it, *)
| cr_off i l fin out : caps_run false l fin out ->
    caps_run true (CapsKey i :: l) fin (EvInput (VirtualKeyRelease left_shift) :: out)
(** typing something else than a word ends it, *)
| cr_end i ko l fin out : ~ word_output ko -> caps_run false l fin out ->
    caps_run true (Typed i ko :: l) fin (EvInput (VirtualKeyRelease left_shift) :: out)
(** and nothing else changes anything. *)
| cr_word i ko l fin out : word_output ko -> caps_run true l fin out -> caps_run true (Typed i ko :: l) fin out
| cr_idle i ko l fin out : caps_run false l fin out -> caps_run false (Typed i ko :: l) fin out
| cr_else on ev l fin out : caps_run on l fin out -> caps_run on (Elsewhere ev :: l) fin out.

(** *** Sticky modifiers *)

(** Modifiers activated by the events. *)
Fixpoint activated (h : list (event cev)) : list modifiers :=
  match h with
  | [] => []
  | EvKey _ (CeSticky (ActivateModifiers m)) :: t => m :: activated t
  | _ :: t => activated t
  end.
(** Virtual keys released by emitted events. *)
Fixpoint vreleases {E} (kes : list (sched_event E)) : list key_output :=
  match kes with
  | [] => []
  | se :: t => match se_event se with EvInput (VirtualKeyRelease ko) => ko :: vreleases t | _ => vreleases t end
  end.
(** Feeding events to the sticky context; collects the virtual keys it releases. *)
Fixpoint sticky_run (c : sticky_ctx) (h : list (event cev)) : res (sticky_ctx * list key_output) :=
  match h with
  | [] => Ok (c, [])
  | ev :: t => let! (c1, kes) := step_sticky c ev in
               let! (c2, rel) := sticky_run c1 t in Ok (c2, vreleases kes ++ rel)
  end.
(** A virtual key with just the modifiers. *)
Definition mods_key (m : modifiers) : key_output := mkKO (Keyboard 0) m.

(** No modifier is activated while four are waiting. *)
Definition at_most_four (cf : sticky_config) (h : list (event cev)) : Prop :=
  forall h1 j m h2 c rel, h = h1 ++ EvKey j (CeSticky (ActivateModifiers m)) :: h2 ->
    sticky_run (st_ctx_new cf) h1 = Ok (c, rel) -> (length (activated h1) < length rel + 4)%nat.

(** Some key's output becomes known (it types something). *)
Definition types (ev : event cev) : Prop := match ev with EvKeymap (KmResolvedKeyOutput _ _) => True | _ => False end.
Definition presses_some (ev : event cev) : Prop := match ev with EvInput (Press _) => True | _ => False end.

(** Feeding events to a held key of the composite system; collects what it emits. *)
Fixpoint held_run (d : key_data) (r : ref) (ki : u16) (s : cks) (h : list (cctx * event cev))
  : res (cks * key_events cev) :=
  match h with
  | [] => Ok (s, [])
  | (c, ev) :: t => let! (s1, k1) := c_update_state d s r c ki ev in
                    let! (s2, k2) := held_run d r ki s1 t in Ok (s2, k1 ++ k2)
  end.
