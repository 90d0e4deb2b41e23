(** Specification vocabulary for the whole keyboard with the C firmware (C67). *)
From Verif Require Import Base Output Types Split Scheduler Keymap SpecOutput SpecKeymap SpecLayer Composite SpecBoard CApi CFirmware SpecCFirmware CReport SpecCReport CCalls SpecCCalls CKeyboard.
Local Open Scope N_scope.

(** The switches as the scans of a schedule find them. *)
Definition switches (l : list fw_step) : list (nat -> nat -> bool) :=
  flat_map (fun a => match a with FwTimer closed => [closed] | _ => [] end) l.
(** Every scan finds the switches as [closed] says. *)
Definition steady (rows cols : nat) (closed : nat -> nat -> bool) (l : list fw_step) : Prop :=
  Forall (fun closed' => forall r c, (r < rows)%nat -> (c < cols)%nat -> closed' r c = closed r c) (switches l).

(** The presses and releases that a sequence of scans amounts to: one for each change
    of what a key counts as ([settled], C54).  A key without a switch counts as up. *)
Definition typed (rows cols keys : nat) (idx : nat -> nat -> option nat) (scans : list (nat -> nat -> bool)) (h : list input_event) : Prop :=
  exists counts_as : nat -> nat -> bool,
    (forall r c i n, (r < rows)%nat -> (c < cols)%nat -> idx r c = Some i -> (n <= length scans)%nat ->
       settled (switch_readings (firstn n scans) r c) (counts_as i n))
    /\ (forall i n, (i < keys)%nat -> (forall r c, (r < rows)%nat -> (c < cols)%nat -> idx r c <> Some i) ->
         (n <= length scans)%nat -> counts_as i n = false)
    /\ h = flat_map (fun n => map meant (changes keys (fun i => counts_as i n) (fun i => counts_as i (S n)))) (seq 0 (length scans)).

(** Key [i] has a switch, and it is closed. *)
Definition key_closed (rows cols : nat) (idx : nat -> nat -> option nat) (closed : nat -> nat -> bool) (i : nat) : Prop :=
  exists r c, (r < rows)%nat /\ (c < cols)%nat /\ idx r c = Some i /\ closed r c = true.
(** Key [i] is down on the keyboard. *)
Definition key_is_down (b : board) (i : nat) : Prop := exists m, In (inl (N.of_nat i, m)) (bd_down b).

(** The calls into the keymap, in terms of the Rust interface. *)
Definition call_ops (c : c_call) : list op :=
  match c with CallEvent e => [OpInput (meant e)] | CallTick => [OpTick; OpReport] end.
Definition inputs (ops : list op) : list input_event :=
  filter_map (fun o => match o with OpInput e => Some e | _ => None end) ops.

Section Spec.
Context {R Ctx Ev PKS KS : Type}.
Variable conf : kconf R Ctx Ev PKS KS.
Variable fuel : nat.
Variables rows cols : nat.
Variable idx : nat -> nat -> option nat.
Local Notation fw := (@fw R Ctx Ev PKS KS).

Definition fw_ops (s : fw) : list op := flat_map call_ops (rl_calls (fw_loop s)).
(** The inputs passed to the keymap, and those that found room in its queue. *)
Definition fw_inputs (s : fw) : list input_event := inputs (fw_ops s).
Definition fw_accepted (s : fw) : list input_event := accepted (fw_ops s).
(** The number of reports made, and whether the device is enumerated. *)
Definition reports (s : fw) : nat := length (rl_made (fw_loop s)).
Definition enumerated (s : fw) : Prop := rl_enum (fw_loop s) = true.

(** The last keyboard packet and the last consumer packet that the host received say
    that the outputs [kos] are pressed.  At the start the host takes nothing to be
    pressed. *)
Definition host_sees (kos : list key_output) (s : fw) : Prop :=
  last (received ChKb (fw_loop s)) (repeat 0 8) = as_hid_boot_keyboard_report kos
  /\ length (last (received ChCon (fw_loop s)) (repeat 0 4)) = 4%nat
  /\ forall j, (j < 4)%nat -> nth j (last (received ChCon (fw_loop s)) (repeat 0 4)) 0 = nth j (consumer_codes kos) 0.

(** Interrupts come at harmless moments ([rl_calm], C57). *)
Definition fw_calm (s : fw) (a : fw_step) : Prop :=
  match a with
  | FwTimer _ => rl_calm (fw_loop s) (RlTimer [])
  | FwMain => True
  | FwHost c => rl_calm (fw_loop s) (RlHost c)
  | FwEnumerate => True
  | FwReset => rl_calm (fw_loop s) RlReset
  end.
Fixpoint fw_all_calm (l : list fw_step) (s : fw) : Prop :=
  match l with
  | [] => True
  | a :: t => fw_calm s a /\ match fw_do conf fuel rows cols idx s a with Ok s' => fw_all_calm t s' | _ => True end
  end.
End Spec.
