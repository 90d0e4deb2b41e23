(** Specification vocabulary for the serial link of the C firmware (C55, C56). *)
From Verif Require Import Base Output Types Split CApi CSplit.
Local Open Scope N_scope.

(** The events for which [keyboard_split_write] returned 0, and with the one it has
    put into the queue but not returned for yet. *)
Definition tx_accepted (s : tx) : list c_event := map fst (filter snd (tx_log s)).
Definition tx_given (s : tx) : list c_event :=
  tx_accepted s ++ match tx_call_at s with TcKick ev => [ev] | _ => [] end.

(** The bytes of a list of events. *)
Inductive wire_of : list c_event -> list u8 -> Prop :=
| wo_nil : wire_of [] []
| wo_cons ev bytes evs rest : keymap_serialize_event ev = Ok bytes -> wire_of evs rest ->
    wire_of (ev :: evs) (bytes ++ rest).

(** Nothing more can happen by itself: no call is running, the DMA is done, no
    interrupt is waiting. *)
Definition tx_quiet (s : tx) : Prop := tx_call_at s = TcNone /\ tx_left s = O /\ tx_tc s = false.

(** A key of the first 128, pressed or released. *)
Definition sendable (ev : c_event) : Prop :=
  (ce_type ev = CPress \/ ce_type ev = CRelease) /\ ce_value ev < 128.
Definition tx_calls (l : list tx_step) : list c_event :=
  filter_map (fun a => match a with TxCall ev => Some ev | _ => None end) l.

(** Every step of the schedule does something. *)
Fixpoint tx_effective (l : list tx_step) (s : tx) : Prop :=
  match l with
  | [] => True
  | a :: t => match tx_do s a with Ok s' => s' <> s /\ tx_effective t s' | _ => True end
  end.

(** The bytes that arrive in a schedule. *)
Definition rx_bytes (l : list rx_step) : list u8 :=
  filter_map (fun a => match a with RxByte b => Some b | _ => None end) l.

(** The interrupts are served in time: no byte arrives between the USART handler's
    reading of the counter and its switch of buffers, nor when the current buffer is
    full, nor fills the next buffer before the DMA handler is done. *)
Definition rx_in_time (s : rx) (a : rx_step) : Prop :=
  match a with
  | RxByte _ => match rx_at s with
                | RhNone => (0 < rx_cntr s)%nat
                | RhUsart _ => False
                | RhDma _ => (1 < rx_cntr s)%nat
                end
  | _ => True
  end.
Fixpoint rx_all_in_time (l : list rx_step) (s : rx) : Prop :=
  match l with
  | [] => True
  | a :: t => rx_in_time s a /\ match rx_do s a with Ok s' => rx_all_in_time t s' | _ => True end
  end.

(** No byte is waiting in a buffer and no handler is running. *)
Definition rx_quiet (s : rx) : Prop := rx_cntr s = RX_BUFFER_SIZE /\ rx_at s = RhNone.
