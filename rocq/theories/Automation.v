(** Automation (macro) keys.  Models /repo/src/key/automation.rs. *)
From Verif Require Import Base Output Types.
Local Open Scope N_scope.

(** automation.rs 10: [EXECUTION_QUEUE_SIZE]. *)
Definition EXECUTION_QUEUE_SIZE : nat := 8.

(** automation.rs 14-42 [Execution], [EMPTY], [is_empty], [incr].
    [start] cannot overflow: it indexed the instruction array just before. *)
Record execution := mkExec { ex_start : u16; ex_length : u16 }.
Definition exec_empty : execution := mkExec 0 0.
Definition exec_is_empty (e : execution) : bool := ex_length e =? 0.
Definition exec_incr (e : execution) : execution :=
  if 0 <? ex_length e then mkExec (ex_start e + 1) (ex_length e - 1) else e.

(** automation.rs 46-61 [KeyInstructions], [Key]. *)
Record automation_key := mkAutoKey {
  ak_on_press : execution;
  ak_while_pressed : execution;
  ak_on_release : execution
}.

(** automation.rs 64-77 [Instruction]. *)
Inductive instruction :=
| InNoOp
| InPress (ko : key_output)
| InRelease (ko : key_output)
| InTap (ko : key_output)
| InWait (ticks : u16).

(** automation.rs 80-92 [Config]. *)
Record automation_config := mkAutoConfig {
  auc_instructions : list instruction;
  auc_duration : u16
}.
Definition automation_config_new (n : nat) : automation_config :=
  mkAutoConfig (repeat InNoOp n) 10.

(** automation.rs 132-150 [instructions]: pads with [NoOp]. *)
Fixpoint pad_instructions (n : nat) (l : list instruction) : list instruction :=
  match n with
  | O => []
  | S n' => match l with
            | [] => InNoOp :: pad_instructions n' []
            | x :: t => x :: pad_instructions n' t
            end
  end.
Definition instructions (count : nat) (l : list instruction) : res (list instruction) :=
  if (length l <=? count)%nat then Ok (pad_instructions count l) else Panic.

(** automation.rs 216-244 [Context]: a queue array of 8 executions. *)
Record automation_ctx := mkAutoCtx {
  aux_config : automation_config;
  aux_queue : list execution
}.
Definition auto_ctx_new (c : automation_config) : automation_ctx :=
  mkAutoCtx c (repeat exec_empty EXECUTION_QUEUE_SIZE).

(** automation.rs 325-332 [Event]. *)
Inductive auto_event :=
| AuEnqueue (e : execution)
| AuNextInstruction
| AuExecutionFinished.

(** automation.rs 255-260: store into the first empty slot; a full queue
    drops the execution. *)
Fixpoint fill_slot (q : list execution) (e : execution) : list execution :=
  match q with
  | [] => []
  | x :: t => if exec_is_empty x then e :: t else x :: fill_slot t e
  end.
(** automation.rs 248-263 [enqueue] (the returned slot number is not used). *)
Definition auto_enqueue (q : list execution) (e : execution) : list execution :=
  if exec_is_empty e then q else fill_slot q e.

(** automation.rs 336-405 [key_events_for]. *)
Definition key_events_for (c : automation_config) (ki : u16) (e : execution)
  : res (key_events auto_event) :=
  let! ins := index (auc_instructions c) (N.to_nat (ex_start e)) in
  let next := EvKey ki (if 1 <? ex_length e then AuNextInstruction else AuExecutionFinished) in
  let d := auc_duration c in
  Ok (match ins with
      | InNoOp => [after d next]
      | InPress ko => [immediate (EvInput (VirtualKeyPress ko)); after d next]
      | InRelease ko => [immediate (EvInput (VirtualKeyRelease ko)); after d next]
      | InTap ko => [immediate (EvInput (VirtualKeyPress ko));
                     after d (EvInput (VirtualKeyRelease ko)); after d next]
      | InWait t => [after t next]
      end).

(** automation.rs 265-287 [execute_head].  The array never has length 0. *)
Definition execute_head (c : automation_ctx) (ki : u16)
  : res (automation_ctx * key_events auto_event) :=
  match aux_queue c with
  | [] => Panic
  | h :: t =>
      let! kes := key_events_for (aux_config c) ki h in
      let h' := exec_incr h in
      if exec_is_empty h'
      then let q := t ++ [exec_empty] in
           match q with
           | [] => Panic
           | h2 :: _ =>
               if exec_is_empty h2 then Ok (mkAutoCtx (aux_config c) q, kes)
               else let! kes' := ke_add kes (after (auc_duration (aux_config c))
                                                   (EvKey ki AuNextInstruction)) in
                    Ok (mkAutoCtx (aux_config c) q, kes')
           end
      else Ok (mkAutoCtx (aux_config c) (h' :: t), kes)
  end.

(** automation.rs 293-321 [handle_event]. *)
Definition auto_head_empty (c : automation_ctx) : bool :=
  match aux_queue c with [] => true | h :: _ => exec_is_empty h end.
Definition auto_handle_event (c : automation_ctx) (ev : event auto_event)
  : res (automation_ctx * key_events auto_event) :=
  match ev with
  | EvKey ki (AuEnqueue e) =>
      if exec_is_empty e then Ok (c, [])
      else let c' := mkAutoCtx (aux_config c) (auto_enqueue (aux_queue c) e) in
           if auto_head_empty c then execute_head c' ki else Ok (c', [])
  | EvKey ki AuNextInstruction =>
      if auto_head_empty c then Ok (c, []) else execute_head c ki
  | _ => Ok (c, [])
  end.

(** automation.rs 443-473 [System::new_pressed_key]; the key state is empty. *)
Definition auto_new_pressed_key {R PKS} (keys : list automation_key) (ki : u16) (i : u8)
  : res (pressed_key_result R PKS unit * key_events auto_event) :=
  let! k := index keys (N.to_nat i) in
  let e := ak_on_press k in
  Ok (PkResolved tt,
      [immediate (EvKey ki (if exec_is_empty e then AuExecutionFinished else AuEnqueue e))]).

(** automation.rs 486-534 [System::update_state]. *)
Definition auto_update_state (keys : list automation_key) (i : u8) (ki : u16) (ev : event auto_event)
  : res (key_events auto_event) :=
  match ev with
  | EvKey k AuExecutionFinished =>
      if ki =? k
      then let! key := index keys (N.to_nat i) in
           Ok [immediate (EvKey ki (AuEnqueue (ak_while_pressed key)))]
      else Ok []
  | EvInput (Release k) =>
      if ki =? k
      then let! key := index keys (N.to_nat i) in
           Ok [immediate (EvKey ki (AuEnqueue (ak_on_release key)))]
      else Ok []
  | _ => Ok []
  end.
