(** Specification vocabulary for automation keys (C31, C32): a queue of macros,
    each a list of instructions. *)
From Verif Require Import Base Output Types Keymap Automation Composite SpecKinds.
Local Open Scope N_scope.

Definition macro := list instruction.
(** The instructions an execution stands for. *)
Definition macro_of (c : automation_config) (e : execution) : macro :=
  firstn (N.to_nat (ex_length e)) (skipn (N.to_nat (ex_start e)) (auc_instructions c)).

(** What is asked of the macro player. *)
Inductive request := RqStart (m : macro) | RqNext | RqNothing.
Definition request_of (c : automation_config) (ev : event cev) : request :=
  match ev with
  | EvKey _ (CeAutomation (AuEnqueue e)) => RqStart (macro_of c e)
  | EvKey _ (CeAutomation AuNextInstruction) => RqNext
  | _ => RqNothing
  end.

(** The macros with instructions left, the running one first. *)
Definition waiting := list macro.
(** One step of the player: the instruction executed, whether it was its macro's
    last, and whether another macro is waiting then. *)
Definition executed := option (instruction * bool * bool).
Definition play_one (q : waiting) : waiting * executed :=
  match q with
  | [i] :: t => (t, Some (i, true, match t with [] => false | _ => true end))
  | (i :: rest) :: t => (rest :: t, Some (i, false, match t with [] => false | _ => true end))
  | _ => (q, None)
  end.
(** A macro starts at once if none is running; it waits if fewer than eight are
    there, and is dropped otherwise.  The next instruction is that of the first. *)
Definition player (q : waiting) (r : request) : waiting * executed :=
  match r with
  | RqStart [] | RqNothing => (q, None)
  | RqStart m => match q with
                 | [] => play_one [m]
                 | _ => if (length q <? 8)%nat then (q ++ [m], None) else (q, None)
                 end
  | RqNext => play_one q
  end.
Fixpoint plays (q : waiting) (rs : list request) : waiting * list executed :=
  match rs with
  | [] => (q, [])
  | r :: t => let '(q1, x) := player q r in let '(q2, xs) := plays q1 t in (q2, x :: xs)
  end.

(** What executing an instruction does, at once and after a delay.  [ki] is the
    key, [d] the duration of an instruction. *)
Definition instruction_effect (d : u16) (ki : u16) (x : executed) : key_events cev :=
  match x with
  | None => []
  | Some (i, last, more) =>
      let pause := match i with InWait t => t | _ => d end in
      match i with
      | InNoOp | InWait _ => []
      | InPress ko => [mkSE Immediate (EvInput (VirtualKeyPress ko))]
      | InRelease ko => [mkSE Immediate (EvInput (VirtualKeyRelease ko))]
      | InTap ko => [mkSE Immediate (EvInput (VirtualKeyPress ko)); mkSE (After d) (EvInput (VirtualKeyRelease ko))]
      end
      ++ [mkSE (After pause) (EvKey ki (CeAutomation (if last then AuExecutionFinished else AuNextInstruction)))]
      ++ (if last && more then [mkSE (After d) (EvKey ki (CeAutomation AuNextInstruction))] else [])
  end.
Definition event_key (ev : event cev) : u16 := match ev with EvKey i _ => i | _ => 0 end.

(** Feeding events to the automation context; what it emits for each. *)
Fixpoint macro_run (c : automation_ctx) (h : list (event cev)) : res (automation_ctx * list (key_events cev)) :=
  match h with
  | [] => Ok (c, [])
  | ev :: t => let! (c1, kes) := step_automation c ev in
               let! (c2, outs) := macro_run c1 t in Ok (c2, kes :: outs)
  end.

(** The macros accepted by the player, in order. *)
Fixpoint accepted (q : waiting) (rs : list request) : list macro :=
  match rs with
  | [] => []
  | r :: t =>
      let q1 := fst (player q r) in
      match r with
      | RqStart (i :: m) => if (length q <? 8)%nat then (i :: m) :: accepted q1 t else accepted q1 t
      | _ => accepted q1 t
      end
  end.
Fixpoint instructions_of (xs : list executed) : list instruction :=
  match xs with
  | [] => []
  | Some (i, _, _) :: t => i :: instructions_of t
  | None :: t => instructions_of t
  end.
