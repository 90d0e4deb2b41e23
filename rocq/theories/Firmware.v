(** The firmware around the keymap: matrix scanning and the loops that carry
    key events to the keymap and reports to the host.
    Models /repo/keyberon-smart-keyboard/src/matrix.rs 40-153,
    /repo/keyberon-smart-keyboard/src/input.rs 24-40,
    /repo/keyberon-smart-keyboard/src/split.rs 5-11,
    /repo/stm32-embassy-smart-keyboard/src/main.rs 187-261 (and the split variant
    examples/minif4_36-rev2021_5-lhs.rs 345-450),
    /repo/rp2040-rtic-smart-keyboard/src/main.rs 198-279 (the same loop as
    /repo/stm32f4-rtic-smart-keyboard/src/main.rs 166-243). *)
From Verif Require Import Base Output Types Scheduler Reporter DistinctReports Keymap Observed.
Local Open Scope N_scope.

(** *** The switch matrix *)

(** The electrical side.  [mx_low] lists, row by row, whether the row pin is
    driven low.  Not modelled: the delays and the analogue behaviour of pins. *)
Record matrix := mkMatrix { mx_low : list bool }.

(** A pin access either succeeds or returns an error ([Result<_, E>]). *)
Inductive pin_res (A : Type) := PinOk (a : A) | PinErr.
Arguments PinOk {A} a.
Arguments PinErr {A}.

Section Matrix.
(** [rows], [cols]: the array sizes.  [closed r c]: the switch at row [r], column
    [c] is closed.  [fails n]: the [n]-th pin access of the scan fails. *)
Variables rows cols : nat.
Variable closed : nat -> nat -> bool.
Variable fails : nat -> bool.

(** A pulled-up column pin is low iff a closed switch connects it to a row that
    is driven low (a diode per switch: no path through other switches). *)
Definition col_is_low (m : matrix) (c : nat) : bool :=
  existsb (fun r => nth r (mx_low m) false && closed r c) (seq 0 rows).

(** [set_low] / [set_high] of a row pin, as access number [n]; a failed access
    leaves the pin as it was. *)
Definition set_row (n r : nat) (v : bool) (m : matrix) : pin_res matrix :=
  if fails n then PinErr else PinOk (mkMatrix (set_nth (mx_low m) r v)).
Definition read_col (n c : nat) (m : matrix) : pin_res bool :=
  if fails n then PinErr else PinOk (col_is_low m c).

(** matrix.rs 139-143: the inner loop over the columns [c], [c+1], ... *)
Fixpoint scan_cols (n c todo : nat) (m : matrix) (acc : list bool) : pin_res (list bool) :=
  match todo with
  | O => PinOk acc
  | S t =>
      match read_col n c m with
      | PinErr => PinErr
      | PinOk b => scan_cols (S n) (S c) t m (acc ++ [b])
      end
  end.

(** matrix.rs 131-152 [get]: the outer loop.  Returns the matrix in the state it
    is left in together with the result, since an error returns early. *)
Fixpoint scan_rows (n r todo : nat) (m : matrix) (acc : list (list bool))
  : matrix * pin_res (list (list bool)) :=
  match todo with
  | O => (m, PinOk acc)
  | S t =>
      match set_row n r true m with
      | PinErr => (m, PinErr)
      | PinOk m1 =>
          match scan_cols (S n) 0 cols m1 [] with
          | PinErr => (m1, PinErr)
          | PinOk row =>
              match set_row (S n + cols) r false m1 with
              | PinErr => (m1, PinErr)
              | PinOk m2 => scan_rows (S (S n) + cols) (S r) t m2 (acc ++ [row])
              end
          end
      end
  end.
Definition mx_get (m : matrix) : matrix * pin_res (list (list bool)) := scan_rows 0 0 rows m [].

(** matrix.rs 73-92, 93-102 [new], [clear]: every row pin is driven high;
    [m] is the state of the pins before. *)
Fixpoint clear_rows (n r todo : nat) (m : matrix) : pin_res matrix :=
  match todo with
  | O => PinOk m
  | S t => match set_row n r false m with
           | PinErr => PinErr
           | PinOk m' => clear_rows (S n) (S r) t m'
           end
  end.
Definition mx_new (m : matrix) : pin_res matrix := clear_rows 0 0 rows m.

(** matrix.rs 112-122 [is_boot_key_pressed]: [unwrap] panics on an error. *)
Definition mx_boot_key (m : matrix) : res (matrix * bool) :=
  match set_row 0 0 true m with
  | PinErr => Panic
  | PinOk m1 =>
      match read_col 1 0 m1 with
      | PinErr => Panic
      | PinOk b => match set_row 2 0 false m1 with
                   | PinErr => Panic
                   | PinOk m2 => Ok (m2, b)
                   end
      end
  end.
End Matrix.

(** input.rs 36-39 [events]: the debounced events are collected in a
    [heapless::Vec<Event, 8>], which panics on overflow.  The debouncer belongs
    to the keyberon crate: its events are an argument here. *)
Definition KEYBOARD_EVENTS_CAPACITY : nat := 8.
Definition kb_events (debounced : list layout_event) : res (list layout_event) :=
  push_all_cap KEYBOARD_EVENTS_CAPACITY [] debounced.

(** *** The loops *)

(** split.rs 5-11 [BackendMessage].  Whether the writes to the host that a tick
    makes succeed is part of the message here: [wr_kbd] is the outcome of the
    keyboard write, [wr_mouse] and [wr_consumer] whether these writes succeed. *)
Inductive kbd_write := KwOk | KwDuplicate | KwBlocked.
Record writes := mkWrites { wr_kbd : kbd_write; wr_mouse : bool; wr_consumer : bool }.
Inductive message := MsgEvent (ev : input_event) | MsgTick (w : writes).

Section Loops.
Context {R Ctx Ev PKS KS : Type}.
Variable conf : kconf R Ctx Ev PKS KS.
Local Notation backend := (backend R Ctx Ev PKS KS).

(** The state of a loop: the backend, [report_success], the last mouse and
    consumer reports sent, and, as ghosts, everything the host received. *)
Record firmware (Rep : Type) := mkFw {
  fw_be : backend;
  fw_ok : bool;
  fw_last_mouse : mouse_output;
  fw_last_consumer : list N;
  fw_kbd_sent : list Rep;
  fw_mouse_sent : list mouse_output;
  fw_consumer_sent : list (list N)
}.
Arguments mkFw {Rep}.
Arguments fw_be {Rep}.
Arguments fw_ok {Rep}.
Arguments fw_last_mouse {Rep}.
Arguments fw_last_consumer {Rep}.
Arguments fw_kbd_sent {Rep}.
Arguments fw_mouse_sent {Rep}.
Arguments fw_consumer_sent {Rep}.

(** Both loops, 209-211 (embassy) and 220-222 (rtic): tick unless the previous
    report is still to be sent. *)
Definition fw_maybe_tick {Rep} (fuel : nat) (s : firmware Rep) : res backend :=
  if fw_ok s then let! (b, changed) := be_tick conf fuel (fw_be s) in Ok b else Ok (fw_be s).

(** embassy main.rs 245-253: the first consumer code, or 0. *)
Definition embassy_consumer (codes : list u8) : list N :=
  [match codes with c :: _ => c | [] => 0 end].

(** embassy main.rs 209-259, one tick.  The write of the keyboard report either
    succeeds or fails ([KwDuplicate] does not occur there and counts as a
    success). *)
Definition embassy_tick (fuel : nat) (w : writes) (s : firmware report) : res (firmware report) :=
  let! b := fw_maybe_tick fuel s in
  let rep := as_hid_boot_keyboard_report (be_output b) in
  let '(ok, kbd) := match wr_kbd w with
                    | KwBlocked => (false, fw_kbd_sent s)
                    | _ => (true, fw_kbd_sent s ++ [rep])
                    end in
  let mouse := pressed_mouse_output (be_output b) in
  let '(lm, ms) := if (negb (mouse_eqb mouse (fw_last_mouse s)) || negb (mouse_eqb mouse mouse_none))
                      && wr_mouse w
                   then (mouse, fw_mouse_sent s ++ [mouse])
                   else (fw_last_mouse s, fw_mouse_sent s) in
  let! codes := pressed_consumer_codes (be_output b) in
  let consumer := embassy_consumer codes in
  let '(lc, cs) := if negb (report_eqb consumer (fw_last_consumer s)) && wr_consumer w
                   then (consumer, fw_consumer_sent s ++ [consumer])
                   else (fw_last_consumer s, fw_consumer_sent s) in
  Ok (mkFw b ok lm lc kbd ms cs).

(** embassy main.rs 187-198: the initial state. *)
Definition embassy_new (b : backend) : firmware report := mkFw b true mouse_none [0] [] [] [].

(** rtic main.rs 240-253: up to four consumer codes, padded with [Unassigned]. *)
Definition rtic_consumer (codes : list u8) : list N :=
  firstn 4 (codes ++ repeat 0 4).

(** rtic main.rs 220-277, one tick.  The keyboard report is the set of pressed
    key codes; a report equal to the previous one is refused as [Duplicate].
    Every error other than [WouldBlock] panics and is not modelled.  The mouse
    report is written every time and its outcome is ignored. *)
Definition rtic_tick (fuel : nat) (w : writes) (s : firmware (list u8)) : res (firmware (list u8)) :=
  let! b := fw_maybe_tick fuel s in
  let! rep := pressed_key_codes (be_output b) in
  let '(ok, kbd) := match wr_kbd w with
                    | KwOk => (true, fw_kbd_sent s ++ [rep])
                    | KwDuplicate => (true, fw_kbd_sent s)
                    | KwBlocked => (false, fw_kbd_sent s)
                    end in
  let! codes := pressed_consumer_codes (be_output b) in
  let consumer := rtic_consumer codes in
  let '(lc, cs) := if negb (report_eqb consumer (fw_last_consumer s)) && wr_consumer w
                   then (consumer, fw_consumer_sent s ++ [consumer])
                   else (fw_last_consumer s, fw_consumer_sent s) in
  let mouse := pressed_mouse_output (be_output b) in
  let ms := if wr_mouse w then fw_mouse_sent s ++ [mouse] else fw_mouse_sent s in
  Ok (mkFw b ok (fw_last_mouse s) lc kbd ms cs).

(** rtic main.rs 165-185: the initial state. *)
Definition rtic_new (b : backend) : firmware (list u8) :=
  mkFw b true mouse_none [0;0;0;0] [] [] [].

(** The event half of both loops (embassy main.rs 204-208, rtic main.rs 215-219). *)
Definition fw_event {Rep} (fuel : nat) (ev : input_event) (s : firmware Rep) : res (firmware Rep) :=
  let! b := be_event conf fuel ev (fw_be s) in
  Ok (mkFw b (fw_ok s) (fw_last_mouse s) (fw_last_consumer s) (fw_kbd_sent s)
           (fw_mouse_sent s) (fw_consumer_sent s)).

(** The loop over messages (minif4_36-rev2021_5-lhs.rs 365-423); one iteration of
    the single-task loops is the messages of its events, then a tick. *)
Definition embassy_step (fuel : nat) (s : firmware report) (m : message) : res (firmware report) :=
  match m with MsgEvent ev => fw_event fuel ev s | MsgTick w => embassy_tick fuel w s end.
Definition rtic_step (fuel : nat) (s : firmware (list u8)) (m : message) : res (firmware (list u8)) :=
  match m with MsgEvent ev => fw_event fuel ev s | MsgTick w => rtic_tick fuel w s end.
Definition embassy_run (fuel : nat) (ms : list message) (s : firmware report) : res (firmware report) :=
  fold_res (embassy_step fuel) ms s.
Definition rtic_run (fuel : nat) (ms : list message) (s : firmware (list u8)) : res (firmware (list u8)) :=
  fold_res (rtic_step fuel) ms s.

(** embassy main.rs 202-211: the messages of one iteration of the loop. *)
Definition scan_messages (indices : list (list (option u16))) (debounced : list layout_event) (w : writes)
  : res (list message) :=
  let! evs := kb_events debounced in
  let! ms := fold_res (fun acc ev => let! o := keymap_index_of indices ev in
                                     Ok (match o with Some e => acc ++ [MsgEvent e] | None => acc end))
                      evs [] in
  Ok (ms ++ [MsgTick w]).
End Loops.
Arguments firmware R Ctx Ev PKS KS Rep : clear implicits.
Arguments mkFw {R Ctx Ev PKS KS Rep}.
Arguments fw_be {R Ctx Ev PKS KS Rep}.
Arguments fw_ok {R Ctx Ev PKS KS Rep}.
Arguments fw_last_mouse {R Ctx Ev PKS KS Rep}.
Arguments fw_last_consumer {R Ctx Ev PKS KS Rep}.
Arguments fw_kbd_sent {R Ctx Ev PKS KS Rep}.
Arguments fw_mouse_sent {R Ctx Ev PKS KS Rep}.
Arguments fw_consumer_sent {R Ctx Ev PKS KS Rep}.
