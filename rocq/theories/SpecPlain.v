(** Specification vocabulary for keymaps of plain keys (C38). *)
From Verif Require Import Base Output Types Scheduler Keymap SimpleKeys Composite SpecKeymap.
Local Open Scope N_scope.

(** What is down: keys of the keyboard, by index, and virtual keys, by output;
    in the order they went down. *)
Definition down := list (u16 + key_output).
Definition is_key (i : u16) (x : u16 + key_output) : bool :=
  match x with inl j => i =? j | inr _ => false end.
Definition is_virtual (ko : key_output) (x : u16 + key_output) : bool :=
  match x with inl _ => false | inr ko' => ko_eqb ko ko' end.
Definition down_step (l : down) (ie : input_event) : down :=
  match ie with
  | Press i => if existsb (is_key i) l then l else l ++ [inl i]
  | Release i => remove_first (is_key i) l
  | VirtualKeyPress ko => l ++ [inr ko]
  | VirtualKeyRelease ko => remove_first (is_virtual ko) l
  end.
Definition down_after (h : list input_event) : down := fold_left down_step h [].
Definition keys_down (l : down) : list u16 := filter_map (fun x => match x with inl i => Some i | inr _ => None end) l.

(** A plain key, with its output. *)
Definition plain_key (d : key_data) (r : ref) (ko : key_output) : Prop :=
  match r with
  | RKeyboard (KbKeyCode kc) => ko = ko_from_key_code kc
  | RKeyboard (KbModifiers m) => ko = ko_from_key_modifiers m
  | RKeyboard (KbKeyCodeAndModifier i) =>
      exists k, nth_error (kd_keyboard d) (N.to_nat i) = Some k /\ ko = ko_from_key_code_with_modifiers (kk_code k) (kk_mods k)
  | RConsumer (CnUsageCode c) => ko = ko_from_consumer_code c
  | RCustom (CsCode c) => ko = ko_from_custom_code c
  | RMouse m => mouse_key_output m = Ok ko
  | _ => False
  end.
(** The output of each thing that is down. *)
Definition out_of (outs : list key_output) (x : u16 + key_output) : key_output :=
  match x with inl i => nth (N.to_nat i) outs ko_none | inr ko => ko end.

(** Calls without callbacks or jumps in time. *)
Definition plain_op (o : op) : bool :=
  match o with OpInput _ | OpTick | OpReport | OpSetMs _ => true | _ => false end.

(** Inputs a keymap of [nkeys] keys has room for: presses name its keys, at most
    16 things are down at a time, and no more keys than the chord context can
    track (a configuration without chords tracks none). *)
Definition fits (nkeys max_tracked : nat) (h : list input_event) : Prop :=
  (forall i, In (Press i) h -> (N.to_nat i < nkeys)%nat)
  /\ forall n, let l := down_after (firstn n h) in
       (length l <= 16)%nat /\ (max_tracked = O \/ (length (keys_down l) <= max_tracked)%nat).
