(** Specification vocabulary for C32: keymaps whose macro keys are never
    undecided, and histories that give macros time. *)
From Verif Require Import Base Output Types Scheduler Keymap TapHold TapDance Layered Automation Chorded Composite
  SpecKeymap SpecComposite SpecKinds SpecMacro.
Local Open Scope N_scope.

(** What a key may turn into: what a layered key stands for, what tap-hold,
    tap-dance and chorded keys are decided to be. *)
Inductive leads (d : key_data) : ref -> ref -> Prop :=
| leads_layered i k r :
    nth_error (kd_layered d) (N.to_nat i) = Some k -> In r (layered_refs k) -> leads d (RLayered (LyLayered i)) r
| leads_tap_hold i k r :
    nth_error (kd_tap_hold d) (N.to_nat i) = Some k -> r = th_tap k \/ r = th_hold k -> leads d (RTapHold i) r
| leads_tap_dance i k r :
    nth_error (kd_tap_dance d) (N.to_nat i) = Some k -> In (Some r) k -> leads d (RTapDance i) r
| leads_chorded i k r :
    nth_error (kd_chorded d) (N.to_nat i) = Some k -> r = chk_pass k \/ In r (map snd (chk_chords k)) ->
    leads d (RChorded (ChChorded i)) r
| leads_auxiliary i k :
    nth_error (kd_chorded_aux d) (N.to_nat i) = Some k -> leads d (RChorded (ChAuxiliary i)) (cha_pass k).
Inductive reaches (d : key_data) (r : ref) : ref -> Prop :=
| reaches_self : reaches d r r
| reaches_more r1 r2 : reaches d r r1 -> leads d r1 r2 -> reaches d r r2.
(** A key that never turns into a macro key. *)
Definition no_macro (d : key_data) (r : ref) : Prop := forall i, ~ reaches d r (RAutomation i).
(** Every key of the keymap is decided when pressed or never turns into a macro
    key. *)
Definition undisturbed (d : key_data) (refs : list ref) : Prop :=
  forall r, In r refs -> plain d r \/ no_macro d r.

(** The keys' macros lie within the instruction array. *)
Definition keys_in_range (d : key_data) (c : automation_config) : Prop :=
  forall k, In k (kd_automation d) ->
    exec_in_range c (ak_on_press k) /\ exec_in_range c (ak_while_pressed k) /\ exec_in_range c (ak_on_release k).
(** No instruction takes longer than [D] milliseconds. *)
Definition takes_at_most (D : N) (c : automation_config) : Prop :=
  auc_duration c <= D /\ forall t, In (InWait t) (auc_instructions c) -> t <= D.

(** The macros waiting, and the instructions executed, after the events a keymap
    has handled. *)
Definition macros_waiting (c : automation_config) (l : list (event cev)) : waiting :=
  fst (plays [] (map (request_of c) l)).
Definition executed_in (c : automation_config) (l : list (event cev)) : list instruction :=
  instructions_of (snd (plays [] (map (request_of c) l))).

(** A continuation of a macro. *)
Definition next_instruction (ev : event cev) : bool :=
  match ev with EvKey _ (CeAutomation AuNextInstruction) => true | _ => false end.
(** The continuations on their way. *)
Definition continuations {R Ctx PKS KS} (k : keymap R Ctx cev PKS KS) : nat :=
  length (filter (fun en => en_live en && next_instruction (en_event en)) (sc_scheduled (km_sched k))).

(** [n] times over, more than [D] milliseconds pass, and then 32 ticks. *)
Definition is_tick (o : op) : bool := match o with OpTick => true | _ => false end.
Inductive patient (D : N) : nat -> clocks -> list op -> Prop :=
| patient_done c ops : patient D 0 c ops
| patient_more n c a b rest :
    ck_now c + D < ck_now (fold_left clocks_step a c) ->
    (32 <= length (filter is_tick b))%nat ->
    patient D n (fold_left clocks_step (a ++ b) c) rest ->
    patient D (S n) c (a ++ b ++ rest).
