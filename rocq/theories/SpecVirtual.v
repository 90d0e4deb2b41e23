(** Specification vocabulary for the virtual keys of caps word and sticky modifiers
    (C50, C51). *)
From Verif Require Import Base Output Types Scheduler Keymap Sticky Automation Composite SpecKeymap SpecReport.
Local Open Scope N_scope.

(** How many times a virtual key is pressed. *)
Definition is_virtual (ko : key_output) (x : u16 * ref + key_output) : bool :=
  match x with inr y => ko_eqb ko y | inl _ => false end.
Definition times_pressed (ko : key_output) (k : ckeymap) : nat := length (filter (is_virtual ko) (pressed_shape k)).

(** Nothing but caps word and sticky keys presses or releases the virtual key: the
    caller does not, and neither does a macro some key runs. *)
Definition caller_leaves (ko : key_output) (ops : list op) : Prop :=
  forall x, x = VirtualKeyPress ko \/ x = VirtualKeyRelease ko ->
  ~ In (OpInput x) ops /\ forall t, ~ In (OpInputAfter t x) ops.
Definition macros_leave (refs : list ref) (d : key_data) (code : list instruction) (ko : key_output) : Prop :=
  forall i k e, offers refs d (RAutomation i) -> nth_error (kd_automation d) (N.to_nat i) = Some k -> macro_of k e ->
  forall x, x = InPress ko \/ x = InTap ko \/ x = InRelease ko -> ~ in_macro code e x.
(** Some sticky key of the keymap presses it. *)
Definition sticky_for (refs : list ref) (d : key_data) (ko : key_output) : Prop :=
  exists i k, offers refs d (RSticky i) /\ nth_error (kd_sticky d) (N.to_nat i) = Some k /\ mods_output (sk_mods k) = ko.

(** How many times it should be pressed: once for caps word, if it is caps word's
    left shift, and once for each time its sticky key was tapped without another key
    having used it up. *)
Definition caps_share (ko : key_output) (on : bool) : nat :=
  if ko_eqb ko (mods_output 2) then if on then 1%nat else 0%nat else 0%nat.
Definition sticky_share (ko : key_output) (active : list modifiers) : nat :=
  length (filter (fun m => ko_eqb ko (mods_output m)) active).
(** Releases of the virtual key that have been sent but wait behind other inputs or
    behind an undecided key. *)
Definition is_release_of (ko : key_output) (x : input_event) : bool :=
  match x with VirtualKeyRelease y => ko_eqb ko y | _ => false end.
Definition releases_waiting (ko : key_output) (k : ckeymap) : nat :=
  length (filter (is_release_of ko) (km_inq k))
  + match km_pending k with
    | Some p => length (filter (fun ev => match ev with EvInput x => is_release_of ko x | _ => false end) (pd_queued p))
    | None => 0
    end.
