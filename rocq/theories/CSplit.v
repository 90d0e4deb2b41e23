(** The serial link between the halves of a split keyboard in the C firmware.
    Models, in /repo/firmware/ch32x035-usb-device-compositekm-c/keyboard,
    keyboard_split_tx_dma.c 15-53, 100-142 and keyboard_split_rx_dma.c 15-85.

    Both sides run concurrently with the DMA controller and with interrupts, so
    they are step functions: a list of steps is a schedule.  A step that is not
    possible in a state changes nothing. *)
From Verif Require Import Base Output Types Split CApi.
Local Open Scope N_scope.

(** *** Sending *)

(** tx_dma.c 17 [TX_QUEUE_SIZE]; lib.rs 41 [MESSAGE_BUFFER_LEN]. *)
Definition TX_QUEUE_SIZE : nat := 16.
Definition MESSAGE_BUFFER_LEN : nat := 4.

(** Where a running call of [keyboard_split_write] is. *)
Inductive tx_call :=
| TcNone                               (* no call is running *)
| TcStore (ev : c_event) (next : u8)   (* before line 112 *)
| TcHead (ev : c_event) (next : u8)    (* before line 113 *)
| TcKick (ev : c_event).               (* before line 116 *)

(** tx_dma.c 23-29: the variables; [tx_left] is the DMA's data counter, [tx_tc] its
    transfer-complete flag, [tx_wire] the bytes that left, [tx_log] the arguments and
    results of the calls that returned ([true] for 0, [false] for -1). *)
Record tx := mkTx {
  tx_queue : list c_event;
  tx_head : u8;
  tx_tail : u8;
  tx_busy : bool;
  tx_buffer : list u8;
  tx_left : nat;
  tx_tc : bool;
  tx_wire : list u8;
  tx_call_at : tx_call;
  tx_log : list (c_event * bool)
}.
Definition tx_new : tx :=
  mkTx (repeat (mkCEvent CPress 0) TX_QUEUE_SIZE) 0 0 false (repeat 0 MESSAGE_BUFFER_LEN) 0 false [] TcNone [].

(** [(i + 1) & (TX_QUEUE_SIZE - 1)]. *)
Definition tx_next (i : u8) : u8 := N.land (i + 1) 15.

(** tx_dma.c 39-46 and 124-134: take an event off the queue and start the DMA.  The
    interrupt handler does not set the address again: it is still the buffer's. *)
Definition tx_start (s : tx) : res tx :=
  let! ev := index (tx_queue s) (N.to_nat (tx_tail s)) in
  let! bytes := keymap_serialize_event ev in
  Ok (mkTx (tx_queue s) (tx_head s) (tx_next (tx_tail s)) true bytes MESSAGE_BUFFER_LEN (tx_tc s) (tx_wire s)
           (tx_call_at s) (tx_log s)).

Definition tx_set_call (s : tx) (c : tx_call) : tx :=
  mkTx (tx_queue s) (tx_head s) (tx_tail s) (tx_busy s) (tx_buffer s) (tx_left s) (tx_tc s) (tx_wire s) c (tx_log s).
Definition tx_return (s : tx) (ev : c_event) (r : bool) : tx :=
  mkTx (tx_queue s) (tx_head s) (tx_tail s) (tx_busy s) (tx_buffer s) (tx_left s) (tx_tc s) (tx_wire s) TcNone
       (tx_log s ++ [(ev, r)]).

(** tx_dma.c 100-109: the call up to the check for a full queue.  Only calls write
    the head and there is one at a time, so that reading head and tail is one step. *)
Definition tx_do_call (ev : c_event) (s : tx) : tx :=
  match tx_call_at s with
  | TcNone => if tx_next (tx_head s) =? tx_tail s then tx_return s ev false
              else tx_set_call s (TcStore ev (tx_next (tx_head s)))
  | _ => s
  end.

(** tx_dma.c 112, 113, 116-141: one more step of the running call.  From line 116 to
    line 139 interrupts are disabled: one step. *)
Definition tx_do_step (s : tx) : res tx :=
  match tx_call_at s with
  | TcNone => Ok s
  | TcStore ev next =>
      let! q := update_index (tx_queue s) (N.to_nat (tx_head s)) ev in
      Ok (mkTx q (tx_head s) (tx_tail s) (tx_busy s) (tx_buffer s) (tx_left s) (tx_tc s) (tx_wire s)
               (TcHead ev next) (tx_log s))
  | TcHead ev next =>
      Ok (mkTx (tx_queue s) next (tx_tail s) (tx_busy s) (tx_buffer s) (tx_left s) (tx_tc s) (tx_wire s)
               (TcKick ev) (tx_log s))
  | TcKick ev =>
      let! s' := if negb (tx_busy s) && negb (tx_head s =? tx_tail s) then tx_start s else Ok s in
      Ok (tx_return s' ev true)
  end.

(** The DMA moves one byte of the buffer to the wire; after the last one it sets the
    transfer-complete flag. *)
Definition tx_do_byte (s : tx) : res tx :=
  match tx_left s with
  | O => Ok s
  | S n =>
      let! b := index (tx_buffer s) (MESSAGE_BUFFER_LEN - tx_left s) in
      Ok (mkTx (tx_queue s) (tx_head s) (tx_tail s) (tx_busy s) (tx_buffer s) n
               (match n with O => true | S _ => tx_tc s end) (tx_wire s ++ [b]) (tx_call_at s) (tx_log s))
  end.

(** tx_dma.c 32-53, the interrupt handler. *)
Definition tx_do_irq (s : tx) : res tx :=
  if tx_tc s then
    let s1 := mkTx (tx_queue s) (tx_head s) (tx_tail s) (tx_busy s) (tx_buffer s) (tx_left s) false (tx_wire s)
                   (tx_call_at s) (tx_log s) in
    if negb (tx_head s1 =? tx_tail s1) then tx_start s1
    else Ok (mkTx (tx_queue s1) (tx_head s1) (tx_tail s1) false (tx_buffer s1) (tx_left s1) false (tx_wire s1)
                  (tx_call_at s1) (tx_log s1))
  else Ok s.

Inductive tx_step := TxCall (ev : c_event) | TxStep | TxByte | TxIrq.
Definition tx_do (s : tx) (a : tx_step) : res tx :=
  match a with
  | TxCall ev => Ok (tx_do_call ev s)
  | TxStep => tx_do_step s
  | TxByte => tx_do_byte s
  | TxIrq => tx_do_irq s
  end.
Definition tx_run (l : list tx_step) (s : tx) : res tx := fold_res tx_do l s.

(** *** Receiving *)

(** rx_dma.c 15 [RX_BUFFER_SIZE]. *)
Definition RX_BUFFER_SIZE : nat := 16.

(** Where a running interrupt handler is; the two handlers have the same priority
    and do not interrupt each other.  The DMA's interrupt has the lower number
    (ncl/keyboard/keyboard_split.ncl 63-71, sdk/Peripheral/inc/ch32x035.h 54, 66): if both are
    waiting it is the one served. *)
Inductive rx_handler :=
| RhNone
| RhUsart (len : nat)    (* the USART handler after line 46 *)
| RhDma (old : bool).    (* the DMA handler after line 78 *)

(** rx_dma.c 17-25: the variables; [rx_current] is the index of the current buffer.
    [rx_cntr] is the DMA's data counter, [rx_to] the buffer it writes to; [rx_tc] and
    [rx_idle] are the interrupt flags, [rx_events] the events registered. *)
Record rx := mkRx {
  rx_current : bool;
  rx_buf : bool -> list u8;
  rx_cntr : nat;
  rx_to : bool;
  rx_tc : bool;
  rx_idle : bool;
  rx_msg : list u8;
  rx_at : rx_handler;
  rx_events : list c_event
}.
Definition rx_new : rx :=
  mkRx false (fun _ => repeat 0 RX_BUFFER_SIZE) RX_BUFFER_SIZE false false false (repeat 0 MESSAGE_BUFFER_LEN) RhNone [].

(** rx_dma.c 31-42 [keymap_split_receive_bytes], on the bytes. *)
Fixpoint receive_bytes (msg : list u8) (bytes : list u8) : res (list u8 * list c_event) :=
  match bytes with
  | [] => Ok (msg, [])
  | b :: t =>
      let '(msg1, r) := keymap_message_buffer_receive_byte msg b in
      let! o := r in
      let! (msg2, evs) := receive_bytes msg1 t in
      Ok (msg2, match o with Some e => e :: evs | None => evs end)
  end.

(** A byte arrives: the DMA stores it, unless the transfer is complete, and then it
    is lost. *)
Definition rx_do_byte (b : u8) (s : rx) : res rx :=
  match rx_cntr s with
  | O => Ok s
  | S n =>
      let! buf := update_index (rx_buf s (rx_to s)) (RX_BUFFER_SIZE - rx_cntr s) b in
      Ok (mkRx (rx_current s) (fun i => if eqb i (rx_to s) then buf else rx_buf s i) n (rx_to s)
               (match n with O => true | S _ => rx_tc s end) (rx_idle s) (rx_msg s) (rx_at s) (rx_events s))
  end.
Definition rx_do_idle (s : rx) : rx :=
  mkRx (rx_current s) (rx_buf s) (rx_cntr s) (rx_to s) (rx_tc s) true (rx_msg s) (rx_at s) (rx_events s).

(** rx_dma.c 44-46: the USART handler reads the counter. *)
Definition rx_do_usart (s : rx) : rx :=
  match rx_at s with
  | RhNone => if rx_idle s && negb (rx_tc s)
              then mkRx (rx_current s) (rx_buf s) (rx_cntr s) (rx_to s) (rx_tc s) (rx_idle s) (rx_msg s)
                        (RhUsart (RX_BUFFER_SIZE - rx_cntr s)) (rx_events s)
              else s
  | _ => s
  end.
(** rx_dma.c 65-78: the DMA handler switches buffers. *)
Definition rx_do_dma (s : rx) : rx :=
  match rx_at s with
  | RhNone => if rx_tc s
              then mkRx (negb (rx_current s)) (rx_buf s) RX_BUFFER_SIZE (negb (rx_current s)) (rx_tc s) (rx_idle s) (rx_msg s)
                        (RhDma (rx_current s)) (rx_events s)
              else s
  | _ => s
  end.
(** The rest of the running handler, rx_dma.c 47-62 or 80-83.  What it reads after
    switching is not written by the DMA, so that it is one step. *)
Definition rx_do_finish (s : rx) : res rx :=
  match rx_at s with
  | RhNone => Ok s
  | RhUsart len =>
      let! (msg, evs) := receive_bytes (rx_msg s) (firstn len (rx_buf s (rx_current s))) in
      Ok (mkRx (negb (rx_current s)) (rx_buf s) RX_BUFFER_SIZE (negb (rx_current s)) (rx_tc s) false msg RhNone
               (rx_events s ++ evs))
  | RhDma old =>
      let! (msg, evs) := receive_bytes (rx_msg s) (firstn RX_BUFFER_SIZE (rx_buf s old)) in
      Ok (mkRx (rx_current s) (rx_buf s) (rx_cntr s) (rx_to s) false (rx_idle s) msg RhNone (rx_events s ++ evs))
  end.

Inductive rx_step := RxByte (b : u8) | RxIdle | RxUsart | RxDma | RxFinish.
Definition rx_do (s : rx) (a : rx_step) : res rx :=
  match a with
  | RxByte b => rx_do_byte b s
  | RxIdle => Ok (rx_do_idle s)
  | RxUsart => Ok (rx_do_usart s)
  | RxDma => Ok (rx_do_dma s)
  | RxFinish => rx_do_finish s
  end.
Definition rx_run (l : list rx_step) (s : rx) : res rx := fold_res rx_do l s.
