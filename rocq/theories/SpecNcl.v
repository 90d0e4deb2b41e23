(** Vocabulary of C63-C65: what a keymap.ncl says, and what generated tables
    mean.  Nothing here refers to the functions of Ncl.v and NclCodegen.v; only
    the data types of their inputs and results are used. *)
From Coq Require Import String Ascii Permutation.
From Verif Require Import Base Output Types SimpleKeys TapHold TapDance Sticky Layered Automation Chorded
  Composite Ncl NclCodegen.
Import List.
Local Open Scope string_scope.
Local Open Scope N_scope.
Local Open Scope list_scope.

(** ** Keys *)

(** A key as its author thinks of it.  [M] is what a macro key carries. *)
Inductive ukey (M : Type) :=
| UCode (code : u8)                          (* a keyboard key *)
| UMods (mods : u8)                          (* modifiers, one bit each *)
| UCodeMods (code mods : u8)                 (* a key with modifiers *)
| UConsumer (code : u8)
| UCustom (code : u8)
| UMouse (m : mouse_ref)
| UCallback (c : callback)
| UCapsWord
| USticky (mods : u8)
| ULayer (l : layer_modifier)
| UMacro (x : M)
| UTapHold (tap hold : ukey M)
| UTapDance (first : ukey M) (more : list (ukey M))
| ULayered (base : ukey M) (layers : list (option (ukey M)))
| UChorded (chords : list (N * ukey M)) (pass : ukey M)
| UAux (pass : ukey M).
Arguments UCode {M}. Arguments UMods {M}. Arguments UCodeMods {M}. Arguments UConsumer {M}.
Arguments UCustom {M}. Arguments UMouse {M}. Arguments UCallback {M}. Arguments UCapsWord {M}.
Arguments USticky {M}. Arguments ULayer {M}. Arguments UMacro {M}. Arguments UTapHold {M}.
Arguments UTapDance {M}. Arguments ULayered {M}. Arguments UChorded {M}. Arguments UAux {M}.

(** A macro: the instructions for the press, to repeat while the key is held,
    and for the release. *)
Record macro := mkMacro {
  mc_press : list instruction;
  mc_while : list instruction;
  mc_release : list instruction
}.

(** ** How keys are written *)

(** The eight modifiers and their bits. *)
Definition modifier_bits : list (string * N) :=
  [("left_ctrl", 0); ("left_shift", 1); ("left_alt", 2); ("left_gui", 3);
   ("right_ctrl", 4); ("right_shift", 5); ("right_alt", 6); ("right_gui", 7)].

(** The record [fs] of booleans names exactly the modifiers of [m]. *)
Definition modifiers_written (fs : list (string * val)) (m : u8) : Prop :=
  NoDup (map fst fs) /\
  (forall f v, In (f, v) fs -> In f (map fst modifier_bits) /\ exists b, v = VBool b) /\
  m < 256 /\
  (forall f i, In (f, i) modifier_bits -> (N.testbit m i = true <-> In (f, VBool true) fs)).

Definition mouse_value (m : mouse_ref) : val :=
  match m with
  | MsButton b => VRec [("Button", VNum b)]
  | MsCursorUp => VStr "CursorUp"
  | MsCursorDown => VStr "CursorDown"
  | MsCursorLeft => VStr "CursorLeft"
  | MsCursorRight => VStr "CursorRight"
  | MsWheelUp => VStr "WheelUp"
  | MsWheelDown => VStr "WheelDown"
  | MsWheelLeft => VStr "WheelLeft"
  | MsWheelRight => VStr "WheelRight"
  end.
Definition mouse_in_range (m : mouse_ref) : Prop := match m with MsButton b => b <= 255 | _ => True end.

Definition callback_value (c : callback) : val :=
  match c with
  | CbReset => VStr "Reset"
  | CbResetToBootloader => VStr "ResetToBootloader"
  | CbBluetooth BtDisconnect => VRec [("Bluetooth", VStr "Disconnect")]
  | CbBluetooth BtClear => VRec [("Bluetooth", VStr "Clear")]
  | CbBluetooth BtClearAll => VRec [("Bluetooth", VStr "ClearAll")]
  | CbBluetooth BtPrevious => VRec [("Bluetooth", VStr "Previous")]
  | CbBluetooth BtNext => VRec [("Bluetooth", VStr "Next")]
  | CbBluetooth (BtSelect i) => VRec [("Bluetooth", VRec [("Select", VNum i)])]
  | CbCustom i j => VRec [("Custom", VArr [VNum i; VNum j])]
  end.
Definition callback_in_range (c : callback) : Prop :=
  match c with CbBluetooth (BtSelect i) => i <= 255 | CbCustom i j => i <= 255 /\ j <= 255 | _ => True end.

(** The layer keys.  A key for a set of layers lists them, each once. *)
Inductive layer_written : string -> val -> layer_modifier -> Prop :=
| lw_default : forall l, l < 2 ^ 32 -> layer_written "default_" (VNum l) (LmDefault l)
| lw_hold : forall l, l < 2 ^ 32 -> layer_written "hold" (VNum l) (LmHold l)
| lw_sticky : forall l, l < 2 ^ 32 -> layer_written "sticky" (VNum l) (LmSticky l)
| lw_toggle : forall l, 0 < l -> l < 2 ^ 32 -> layer_written "toggle" (VNum l) (LmToggle l)
| lw_set : forall ls b,
    ls <> [] -> NoDup ls -> b < 2 ^ 32 ->
    (forall l, N.testbit b l = true <-> In l ls) ->
    layer_written "set_active_layers_to" (VArr (map VNum ls)) (LmSetActiveLayers b).

(** Instructions of macros. *)
Inductive usage_written : val -> key_usage -> Prop :=
| uw_keyboard : forall c, c <= 255 -> usage_written (VRec [("Keyboard", VNum c)]) (Keyboard c)
| uw_consumer : forall c, c <= 255 -> usage_written (VRec [("Consumer", VNum c)]) (Consumer c)
| uw_custom : forall c, c <= 255 -> usage_written (VRec [("Custom", VNum c)]) (Custom c)
| uw_mouse : forall fs b x y vs hs,
    b <= 255 -> x <= 127 -> y <= 127 -> vs <= 127 -> hs <= 127 ->
    Permutation fs [("pressed_buttons", VNum b); ("x", VNum x); ("y", VNum y);
                    ("vertical_scroll", VNum vs); ("horizontal_scroll", VNum hs)] ->
    usage_written (VRec [("MouseOutput", VRec fs)])
      (Mouse (mkMouse b (Z.of_N x) (Z.of_N y) (Z.of_N vs) (Z.of_N hs))).
Inductive output_written : val -> key_output -> Prop :=
| ow_usage : forall v u, usage_written v u -> output_written (VRec [("key_code", v)]) (ko_from_usage u)
| ow_mods : forall m, m <= 255 ->
    output_written (VRec [("key_modifiers", VNum m)]) (ko_from_key_modifiers m)
| ow_both : forall fs v u m, usage_written v u -> m <= 255 ->
    Permutation fs [("key_code", v); ("key_modifiers", VNum m)] ->
    output_written (VRec fs) (ko_from_usage_with_modifiers u m).
Inductive instruction_written : val -> instruction -> Prop :=
| iw_noop : instruction_written (VStr "NoOp") InNoOp
| iw_press : forall v k, output_written v k -> instruction_written (VRec [("Press", v)]) (InPress k)
| iw_release : forall v k, output_written v k -> instruction_written (VRec [("Release", v)]) (InRelease k)
| iw_tap : forall v k, output_written v k -> instruction_written (VRec [("Tap", v)]) (InTap k)
| iw_wait : forall t, t <= 65535 -> instruction_written (VRec [("Wait", VNum t)]) (InWait t).

(** One of the three parts of a macro: an array, or left out. *)
Definition part_written (f : string) (fs : list (string * val)) (is : list instruction) : Prop :=
  match get f fs with
  | None => is = []
  | Some v => exists vs, v = VArr vs /\ Forall2 instruction_written vs is
  end.
Definition macro_written (v : val) (x : macro) : Prop :=
  exists fs, v = VRec fs /\ NoDup (map fst fs) /\
    (forall f, In f (map fst fs) -> In f ["on_press"; "while_pressed"; "on_release"]) /\
    part_written "on_press" fs (mc_press x) /\
    part_written "while_pressed" fs (mc_while x) /\
    part_written "on_release" fs (mc_release x).

(** The fields of a key that is not made of other keys. *)
Inductive core_written {M} (mw : val -> M -> Prop) : list (string * val) -> ukey M -> Prop :=
| cw_code : forall c, c <= 255 -> core_written mw [("key_code", VNum c)] (UCode c)
| cw_mods : forall fs m, modifiers_written fs m -> core_written mw [("modifiers", VRec fs)] (UMods m)
| cw_code_mods : forall c fs m, c <= 255 -> modifiers_written fs m ->
    core_written mw [("key_code", VNum c); ("modifiers", VRec fs)] (UCodeMods c m)
| cw_consumer : forall c, c <= 255 -> core_written mw [("consumer_code", VNum c)] (UConsumer c)
| cw_custom : forall c, c <= 255 -> core_written mw [("custom", VNum c)] (UCustom c)
| cw_mouse : forall m, mouse_in_range m -> core_written mw [("mouse", mouse_value m)] (UMouse m)
| cw_callback : forall c, callback_in_range c ->
    core_written mw [("keymap_callback", callback_value c)] (UCallback c)
| cw_sticky : forall fs m, modifiers_written fs m ->
    core_written mw [("sticky_modifiers", VRec fs)] (USticky m)
| cw_layer : forall f v l, layer_written f v l ->
    core_written mw [("layer_modifier", VRec [(f, v)])] (ULayer l)
| cw_macro : forall v x, mw v x -> core_written mw [("automation_instructions", v)] (UMacro x).

(** A key with [hold], [tap_dances] and [layered] besides its own fields:
    layers go first, then taps, then the hold. *)
Definition with_hold {M} (h : option (val * ukey M)) (k : ukey M) : ukey M :=
  match h with Some (_, hk) => UTapHold k hk | None => k end.
Definition with_dances {M} (t : option (list val * list (ukey M))) (k : ukey M) : ukey M :=
  match t with Some (_, ks) => UTapDance k ks | None => k end.
Definition with_layers {M} (l : option (list val * list (option (ukey M)))) (k : ukey M) : ukey M :=
  match l with Some (_, ks) => ULayered k ks | None => k end.
Definition hold_field {M} (h : option (val * ukey M)) : list (string * val) :=
  match h with Some (v, _) => [("hold", v)] | None => [] end.
Definition dances_field {M} (t : option (list val * list (ukey M))) : list (string * val) :=
  match t with Some (vs, _) => [("tap_dances", VArr vs)] | None => [] end.
Definition layers_field {M} (l : option (list val * list (option (ukey M)))) : list (string * val) :=
  match l with Some (vs, _) => [("layered", VArr vs)] | None => [] end.

(** A key of a layer, or [null] where the layer is transparent. *)
Inductive null_or {M} (P : val -> ukey M -> Prop) : val -> option (ukey M) -> Prop :=
| no_null : null_or P VNull None
| no_key : forall v k, P v k -> null_or P v (Some k).

(** The value [v] writes the key [k]; [n] bounds the nesting.  The order of the
    fields of a record does not matter. *)
Inductive written {M} (mw : val -> M -> Prop) : nat -> val -> ukey M -> Prop :=
| w_caps_word : forall n, written mw (S n) (VStr "ToggleCapsWord") UCapsWord
| w_record : forall n fs cf c h t l,
    core_written mw cf c ->
    (forall v k, h = Some (v, k) -> written mw n v k) ->
    (forall vs ks, t = Some (vs, ks) -> Forall2 (written mw n) vs ks) ->
    (forall vs ks, l = Some (vs, ks) -> Forall2 (null_or (written mw n)) vs ks) ->
    Permutation fs (cf ++ hold_field h ++ dances_field t ++ layers_field l) ->
    written mw (S n) (VRec fs) (with_layers l (with_dances t (with_hold h c)))
| w_chorded : forall n fs vs cs pv pk,
    Forall2 (fun v e => exists kv, v = VArr [VNum (fst e); kv] /\ written mw n kv (snd e)) vs cs ->
    written mw n pv pk ->
    Permutation fs [("chords", VArr vs); ("passthrough", pv)] ->
    written mw (S n) (VRec fs) (UChorded cs pk)
| w_aux : forall n pv pk,
    written mw n pv pk ->
    written mw (S n) (VRec [("passthrough", pv)]) (UAux pk).

(** ** Where macros may be *)

(** No macro inside the key. *)
Inductive macro_free {M} : ukey M -> Prop :=
| mf_code : forall c, macro_free (UCode c)
| mf_mods : forall m, macro_free (UMods m)
| mf_code_mods : forall c m, macro_free (UCodeMods c m)
| mf_consumer : forall c, macro_free (UConsumer c)
| mf_custom : forall c, macro_free (UCustom c)
| mf_mouse : forall m, macro_free (UMouse m)
| mf_callback : forall c, macro_free (UCallback c)
| mf_caps : macro_free UCapsWord
| mf_sticky : forall m, macro_free (USticky m)
| mf_layer : forall l, macro_free (ULayer l)
| mf_hold : forall t h, macro_free t -> macro_free h -> macro_free (UTapHold t h)
| mf_dance : forall k ks, macro_free k -> Forall macro_free ks -> macro_free (UTapDance k ks)
| mf_layered : forall b ls, macro_free b -> (forall k, In (Some k) ls -> macro_free k) ->
    macro_free (ULayered b ls)
| mf_chorded : forall cs p, (forall e, In e cs -> macro_free (snd e)) -> macro_free p ->
    macro_free (UChorded cs p)
| mf_aux : forall p, macro_free p -> macro_free (UAux p).

(** The keys that a key is directly made of. *)
Definition parts {M} (k : ukey M) : list (ukey M) :=
  match k with
  | UTapHold t h => [t; h]
  | UTapDance k ks => k :: ks
  | ULayered b ls => b :: flat_map (fun o => match o with Some k => [k] | None => [] end) ls
  | UChorded cs p => map snd cs ++ [p]
  | UAux p => [p]
  | _ => []
  end.
(** Macros are keys of their own or parts of keys, not parts of parts. *)
Definition macros_near {M} (k : ukey M) : Prop :=
  forall p, In p (parts k) -> (exists x, p = UMacro x) \/ macro_free p.

(** ** What generated tables mean *)

(** Pairing two lists element by element. *)
Definition all2 {A B} (R : A -> B -> Prop) : list A -> list B -> Prop :=
  fix go (l : list A) (m : list B) : Prop :=
    match l, m with
    | [], [] => True
    | x :: l', y :: m' => R x y /\ go l' m'
    | _, _ => False
    end.

(** Entry [i] of a table. *)
Definition entry {A} (l : list A) (i : u8) (x : A) : Prop := nth_error l (N.to_nat i) = Some x.

(** The reference [r] into the tables [d] is the key [k]; [md] says when an
    entry of the automation table is a macro. *)
Fixpoint denotes {M} (md : automation_key -> M -> Prop) (d : key_data) (k : ukey M) (r : ref) : Prop :=
  match k with
  | UCode c => r = RKeyboard (KbKeyCode c)
  | UMods m => r = RKeyboard (KbModifiers m)
  | UCodeMods c m => exists i, r = RKeyboard (KbKeyCodeAndModifier i) /\
                               entry (kd_keyboard d) i (mkKeyboardKey c m)
  | UConsumer c => r = RConsumer (CnUsageCode c)
  | UCustom c => r = RCustom (CsCode c)
  | UMouse m => r = RMouse m
  | UCallback c => exists i, r = RCallback i /\ entry (kd_callback d) i c
  | UCapsWord => r = RCapsWord
  | USticky m => exists i, r = RSticky i /\ entry (kd_sticky d) i (mkStickyKey m)
  | ULayer l => exists i, r = RLayered (LyModifier i) /\ entry (kd_layer_mods d) i l
  | UMacro x => exists i a, r = RAutomation i /\ entry (kd_automation d) i a /\ md a x
  | UTapHold t h => exists i rt rh, r = RTapHold i /\ entry (kd_tap_hold d) i (mkTapHold rt rh) /\
                                    denotes md d t rt /\ denotes md d h rh
  | UTapDance k ks => exists i r0 rs n, r = RTapDance i /\
                                 entry (kd_tap_dance d) i (map Some (r0 :: rs) ++ repeat None n) /\
                                 denotes md d k r0 /\ all2 (denotes md d) ks rs
  | ULayered b ls => exists i rb rs n, r = RLayered (LyLayered i) /\
                             entry (kd_layered d) i (mkLayeredKey rb (rs ++ repeat None n)) /\
                             denotes md d b rb /\
                             all2 (fun o ro => match o, ro with
                                               | Some k, Some r => denotes md d k r
                                               | None, None => True
                                               | _, _ => False
                                               end) ls rs
  | UChorded cs p => exists i rs rp, r = RChorded (ChChorded i) /\
                             entry (kd_chorded d) i (mkChordedKey rs rp) /\
                             all2 (fun e f => match e, f with
                                              | (n, k), (n', r) => n = n' /\ denotes md d k r
                                              end) cs rs /\
                             denotes md d p rp
  | UAux p => exists i rp, r = RChorded (ChAuxiliary i) /\
                           entry (kd_chorded_aux d) i (mkChordedAux rp) /\ denotes md d p rp
  end.

(** The part of the instructions [is] that an execution names, all of it inside. *)
Definition names_part (is : list instruction) (e : execution) (l : list instruction) : Prop :=
  exists before after, is = before ++ l ++ after /\
    ex_start e = N.of_nat (length before) /\ ex_length e = N.of_nat (length l).
Definition is_macro (is : list instruction) (a : automation_key) (x : macro) : Prop :=
  names_part is (ak_on_press a) (mc_press x) /\
  names_part is (ak_while_pressed a) (mc_while x) /\
  names_part is (ak_on_release a) (mc_release x).

(** ** Layers *)

(** White space, and strings of words between white space. *)
Definition white (c : ascii) : Prop := In (nat_of_ascii c) [9; 10; 11; 12; 13; 32]%nat.
Fixpoint chars (s : string) : list ascii :=
  match s with EmptyString => [] | String c s' => c :: chars s' end.
Definition blank (s : string) : Prop := Forall white (chars s).
Definition word (s : string) : Prop := s <> EmptyString /\ Forall (fun c => ~ white c) (chars s).
Inductive spells : string -> list string -> Prop :=
| sp_end : forall s, blank s -> spells s []
| sp_word : forall s w, blank s -> word w -> spells (s ++ w)%string [w]
| sp_more : forall s w t w' ws, blank s -> word w -> blank t -> t <> EmptyString ->
    spells w' ws ->
    spells (s ++ w ++ t ++ w')%string (w :: ws).

(** The source of a layer gives these values: an array, or a string of names. *)
Inductive layer_values (K : list (string * val)) : layer_src -> list val -> Prop :=
| lv_keys : forall vs, layer_values K (LKeys vs) vs
| lv_string : forall s ws vs, spells s ws -> Forall2 (fun w v => get w K = Some v) ws vs ->
    layer_values K (LString s) vs.

(** A keyboard as its author lays it out: the keys of the base layer, those of
    the layers above it ([None] where a layer is transparent), and the chords. *)
Record layout := mkLayout {
  lo_base : list (ukey macro);
  lo_uppers : list (list (option (ukey macro)));
  lo_chords : list (list N * ukey macro)
}.

(** The key at one position of the layers. *)
Definition column {A} (ls : list (list (option A))) (i : nat) : list (option A) :=
  map (fun l => nth i l None) ls.
Definition transparent {A} (l : list (option A)) : bool :=
  forallb (fun o => match o with None => true | Some _ => false end) l.
Definition stacked (lo : layout) (i : nat) (b : ukey macro) : ukey macro :=
  if transparent (column (lo_uppers lo) i) then b else ULayered b (column (lo_uppers lo) i).

(** The chords of which position [i] is the first key, and whether it is part of
    a chord at all; chords are numbered from 0. *)
Definition first_in (i : nat) (c : list N * ukey macro) : bool :=
  match fst c with j :: _ => j =? N.of_nat i | [] => false end.
Definition part_of (i : nat) (c : list N * ukey macro) : bool :=
  existsb (fun j => j =? N.of_nat i) (fst c).
Fixpoint led_by (i : nat) (n : N) (cs : list (list N * ukey macro)) : list (N * ukey macro) :=
  match cs with
  | [] => []
  | c :: cs' => if first_in i c then (n, snd c) :: led_by i (n + 1) cs' else led_by i (n + 1) cs'
  end.
Definition position (lo : layout) (i : nat) (b : ukey macro) : ukey macro :=
  match led_by i 0 (lo_chords lo) with
  | [] => if existsb (part_of i) (lo_chords lo) then UAux (stacked lo i b) else stacked lo i b
  | cs => UChorded cs (stacked lo i b)
  end.
(** All positions. *)
Fixpoint positions_from (lo : layout) (i : nat) (bs : list (ukey macro)) : list (ukey macro) :=
  match bs with [] => [] | b :: bs' => position lo i b :: positions_from lo (S i) bs' end.
Definition positions (lo : layout) : list (ukey macro) := positions_from lo 0 (lo_base lo).

(** The keymap.ncl [s] writes the layout [lo]. *)
Definition writes (n : nat) (s : keymap_src) (lo : layout) : Prop :=
  exists bl bvs uls uvss,
    ks_layers s = bl :: uls /\
    layer_values (ks_names s) bl bvs /\
    Forall2 (written macro_written n) bvs (lo_base lo) /\
    Forall2 (layer_values (ks_names s)) uls uvss /\
    Forall2 (Forall2 (null_or (written macro_written n))) uvss (lo_uppers lo) /\
    Forall2 (fun c e => cs_indices c = fst e /\ written macro_written n (cs_key c) (snd e))
      (ks_chords s) (lo_chords lo).

(** What the pipeline asks of a layout: there is a key; the layers above are as
    long as the base layer; chords are not empty; no key is itself made of chords; a
    key under another layer's key is written as a record without layers of its
    own; and macros are not nested deeper than one level. *)
Definition is_caps {M} (k : ukey M) : bool := match k with UCapsWord => true | _ => false end.
Definition is_layered {M} (k : ukey M) : bool := match k with ULayered _ _ => true | _ => false end.
Inductive chord_free {M} : ukey M -> Prop :=
| cf_leaf : forall k, parts k = [] -> chord_free k
| cf_hold : forall t h, chord_free t -> chord_free h -> chord_free (UTapHold t h)
| cf_dance : forall k ks, chord_free k -> Forall chord_free ks -> chord_free (UTapDance k ks)
| cf_layered : forall b ls, chord_free b -> (forall k, In (Some k) ls -> chord_free k) ->
    chord_free (ULayered b ls).
Definition sound (lo : layout) : Prop :=
  lo_base lo <> [] /\
  Forall (fun l => (length (lo_base lo) <= length l)%nat) (lo_uppers lo) /\
  Forall (fun c => fst c <> []) (lo_chords lo) /\
  Forall chord_free (lo_base lo) /\
  Forall (Forall (fun o => forall k, o = Some k -> chord_free k)) (lo_uppers lo) /\
  Forall (fun c => chord_free (snd c)) (lo_chords lo) /\
  (forall i b, nth_error (lo_base lo) i = Some b -> transparent (column (lo_uppers lo) i) = false ->
     is_caps b = false /\ is_layered b = false) /\
  Forall macros_near (positions lo).

(** ** Room in the tables

    A reference has one byte for its index, so each table holds 256 keys. *)
Fixpoint all_parts {M} (k : ukey M) : list (ukey M) :=
  k :: match k with
       | UTapHold t h => all_parts t ++ all_parts h
       | UTapDance k ks => all_parts k ++ flat_map all_parts ks
       | ULayered b ls => all_parts b ++ flat_map (fun o => match o with Some k => all_parts k | None => [] end) ls
       | UChorded cs p => flat_map (fun e => match e with (_, k) => all_parts k end) cs ++ all_parts p
       | UAux p => all_parts p
       | _ => []
       end.
Inductive table := TKeyboard | TCallback | TSticky | TLayerMods | TAutomation | TTapHold | TTapDance
                 | TLayered | TChorded | TAux.
Definition table_of {M} (k : ukey M) : option table :=
  match k with
  | UCodeMods _ _ => Some TKeyboard
  | UCallback _ => Some TCallback
  | USticky _ => Some TSticky
  | ULayer _ => Some TLayerMods
  | UMacro _ => Some TAutomation
  | UTapHold _ _ => Some TTapHold
  | UTapDance _ _ => Some TTapDance
  | ULayered _ _ => Some TLayered
  | UChorded _ _ => Some TChorded
  | UAux _ => Some TAux
  | _ => None
  end.
Definition table_eqb (a b : table) : bool :=
  match a, b with
  | TKeyboard, TKeyboard | TCallback, TCallback | TSticky, TSticky | TLayerMods, TLayerMods
  | TAutomation, TAutomation | TTapHold, TTapHold | TTapDance, TTapDance | TLayered, TLayered
  | TChorded, TChorded | TAux, TAux => true
  | _, _ => false
  end.
Definition in_table {M} (t : table) (k : ukey M) : bool :=
  match table_of k with Some t' => table_eqb t t' | None => false end.
Definition room (ks : list (ukey macro)) : Prop :=
  (forall t, (length (filter (in_table t) (flat_map all_parts ks)) <= 256)%nat) /\
  (* the instructions of all macros have positions of 16 bits *)
  N.of_nat (length (flat_map (fun k => match k with
                                       | UMacro x => mc_press x ++ mc_while x ++ mc_release x
                                       | _ => []
                                       end) (flat_map all_parts ks))) <= 65535.
(** Chords are numbered with a byte, and their positions with 16 bits. *)
Definition chords_in_range (lo : layout) : Prop :=
  (length (lo_chords lo) <= 256)%nat /\
  Forall (fun c => Forall (fun i => i <= 65535) (fst c)) (lo_chords lo).

(** The options are numbers of 16 bits. *)
Definition options_in_range (o : options) : Prop :=
  forall n, In (Some n) [op_instruction_duration o; op_chord_idle o; op_chord_timeout o;
                         op_dance_timeout o; op_hold_timeout o; op_hold_idle o] -> n <= 65535.

(** ** The configuration *)

(** [x] is what the option says, or else the default. *)
Definition given {A} (o : option A) (default x : A) : Prop :=
  match o with Some y => x = y | None => x = default end.
Definition configured (o : options) (chords : list (list N)) (c : config) : Prop :=
  given (op_instruction_duration o) 10 (auc_duration (cf_automation c)) /\
  given (op_chord_timeout o) 200 (chc_timeout (cf_chorded c)) /\
  chc_required_idle (cf_chorded c) = op_chord_idle o /\
  given (op_sticky_release o) OnModifiedKeyRelease (stc_release (cf_sticky c)) /\
  given (op_dance_timeout o) 200 (tdc_timeout (cf_tap_dance c)) /\
  given (op_hold_timeout o) 200 (thc_timeout (cf_tap_hold c)) /\
  given (op_hold_interrupt o) IrIgnore (thc_interrupt (cf_tap_hold c)) /\
  thc_required_idle (cf_tap_hold c) = op_hold_idle o /\
  chc_chords (cf_chorded c) = chords.
(** The sizes are large enough for the chords: all of them, each of them, and two
    of them held at once. *)
Definition chords_fit (chords : list (list N)) (c : config) : Prop :=
  (length chords <= chc_max_chords (cf_chorded c))%nat /\
  (forall ch, In ch chords -> (length ch <= chc_max_chord_size (cf_chorded c))%nat) /\
  (forall ch ch', In ch chords -> In ch' chords ->
     (length ch + length ch' <= chc_max_pressed (cf_chorded c))%nat) /\
  (* a keymap without chords keeps no track of keys *)
  (chords = [] -> chc_max_pressed (cf_chorded c) = 0%nat).
(** Every key with layers has an entry for each layer of the keyboard. *)
Definition layers_fit (d : key_data) (c : config) : Prop :=
  forall k, In k (kd_layered d) -> length (lk_layered k) = cf_layer_count c.
(** The number of layers is that of the key with most layers (0 without such keys). *)
Definition layers_counted (ks : list (ukey macro)) (c : config) : Prop :=
  (forall k b ls, In k ks -> In (ULayered b ls) (all_parts k) -> (length ls <= cf_layer_count c)%nat) /\
  (cf_layer_count c = 0%nat \/
   exists k b ls, In k ks /\ In (ULayered b ls) (all_parts k) /\ length ls = cf_layer_count c).
