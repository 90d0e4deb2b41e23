(** The C firmware for the CH32X: matrix scanning and debouncing.
    Models, in /repo/firmware/ch32x035-usb-device-compositekm-c/keyboard,
    matrix/col_to_row.c 13-78, matrix/row_to_col.c 13-78, keyboard.c 25-31 and keyboard_matrix.c
    14-54. *)
From Verif Require Import Base Output Types Split CApi.
Local Open Scope N_scope.

(** *** The switch matrix *)

(** One side of the matrix is driven (low while it is scanned), the other side is
    sensed through pull-ups.  [col_to_row.c] drives rows and senses columns,
    [row_to_col.c] drives columns and senses rows; apart from that they are the
    same.  Not modelled: the delays and the analogue behaviour of pins. *)
Section Lines.
(** The numbers of driven and of sensed lines; [closed d s]: the switch between
    driven line [d] and sensed line [s] is closed; [idx d s]: the entry of
    [keymap_indices] for it, [None] if that is negative. *)
Variables driven sensed : nat.
Variable closed : nat -> nat -> bool.
Variable idx : nat -> nat -> option nat.

(** [low]: whether each driven line is low.  A sensed line is low iff a closed
    switch connects it to a line driven low (a diode per switch). *)
Definition senses_low (low : list bool) (s : nat) : bool :=
  existsb (fun d => nth d low false && closed d s) (seq 0 driven).

(** col_to_row.c 13-33, row_to_col.c 13-33 [keyboard_matrix_init]: every driven
    line is set high. *)
Definition matrix_init : list bool := repeat false driven.

(** col_to_row.c 35-46 [keyboard_matrix_scan_column_for_row], row_to_col.c 35-46
    [keyboard_matrix_scan_row_for_column].  Writing outside the buffer is
    undefined in C and [Panic] here. *)
Definition scan_switch (low : list bool) (d s : nat) (buf : list bool) : res (list bool) :=
  match idx d s with
  | Some i => update_index buf i (senses_low low s)
  | None => Ok buf
  end.

(** col_to_row.c 48-63 [keyboard_matrix_scan_row], row_to_col.c 48-63
    [keyboard_matrix_scan_column]. *)
Definition scan_line (st : list bool * list bool) (d : nat) : res (list bool * list bool) :=
  let low := set_nth (fst st) d true in
  let! buf := fold_res (fun buf s => scan_switch low d s buf) (seq 0 sensed) (snd st) in
  Ok (set_nth low d false, buf).

(** col_to_row.c 65-70, row_to_col.c 65-70 [keyboard_matrix_scan_raw]. *)
Definition scan_raw (low buf : list bool) : res (list bool * list bool) :=
  fold_res scan_line (seq 0 driven) (low, buf).

(** col_to_row.c 72-78, row_to_col.c 72-78 [keyboard_matrix_is_sw_1_1_pressed]:
    the line is not set high again. *)
Definition is_sw_1_1_pressed (low : list bool) : list bool * bool :=
  let low := set_nth low 0 true in (low, senses_low low 0).
End Lines.

(** The two implementations, with switches and indices given by row and column. *)
Definition col_to_row_scan (rows cols : nat) (closed : nat -> nat -> bool) (idx : nat -> nat -> option nat) :=
  scan_raw rows cols closed idx.
Definition row_to_col_scan (rows cols : nat) (closed : nat -> nat -> bool) (idx : nat -> nat -> option nat) :=
  scan_raw cols rows (fun c r => closed r c) (fun c r => idx r c).

(** keyboard.c 25-31 [keyboard_init], as far as the matrix is concerned: the
    driven lines afterwards, and whether it resets to the bootloader. *)
Definition keyboard_init (driven : nat) (closed : nat -> nat -> bool) : list bool * bool :=
  is_sw_1_1_pressed driven closed (matrix_init driven).

(** *** Debouncing *)

(** keyboard_matrix.c 29-32: the entries of [debounced_state],
    [previous_raw_scan] and [debounce_counter] for one key. *)
Record debounce := mkDebounce { db_state : bool; db_prev : bool; db_count : u8 }.
Definition debounce_new : debounce := mkDebounce false false 0.

(** keyboard_matrix.c 37-52: the body of the loop for one key.  The counter is a
    [uint8_t].  The second result tells whether [key_state_changed] is called. *)
Definition debounce_key (d : debounce) (raw : bool) : debounce * bool :=
  if eqb raw (db_state d) then (mkDebounce (db_state d) raw 0, false)
  else
    let count := if negb (eqb raw (db_prev d)) then 0 else (db_count d + 1) mod 256 in
    if 5 <=? count then (mkDebounce raw raw count, true)
    else (mkDebounce (db_state d) raw count, false).

(** keyboard_matrix.c 14-20 [key_state_changed]: the event made; [index] is
    truncated to 16 bits. *)
Definition state_changed (i : N) (pressed : bool) : c_event :=
  mkCEvent (if pressed then CPress else CRelease) (i mod 65536).

(** keyboard_matrix.c 36-53: the loop from key [i].  The events are collected:
    nothing the loop reads depends on registering them. *)
Fixpoint debounce_from (i : N) (ds : list debounce) (raws : list bool) : list debounce * list c_event :=
  match ds, raws with
  | d :: ds, raw :: raws =>
      let '(d', changed) := debounce_key d raw in
      let '(ds', evs) := debounce_from (i + 1) ds raws in
      (d' :: ds', if changed then state_changed i raw :: evs else evs)
  | _, _ => ([], [])
  end.

(** keyboard_matrix.c 28-54 [keyboard_matrix_scan] after the raw scan. *)
Definition debounce_scan (ds : list debounce) (raws : list bool) : list debounce * list c_event :=
  debounce_from 0 ds raws.

(** The whole of [keyboard_matrix_scan], for [col_to_row.c]; the static arrays
    are the state. *)
Record kb_matrix := mkKbMatrix { kx_low : list bool; kx_raw : list bool; kx_debounce : list debounce }.
Definition kb_scan (rows cols : nat) (idx : nat -> nat -> option nat) (closed : nat -> nat -> bool) (k : kb_matrix)
  : res (kb_matrix * list c_event) :=
  let! (low, raw) := col_to_row_scan rows cols closed idx (kx_low k) (kx_raw k) in
  let '(ds, evs) := debounce_scan (kx_debounce k) raw in
  Ok (mkKbMatrix low raw ds, evs).
(** Its state after [keyboard_init], with [keys] keys. *)
Definition kb_start (rows keys : nat) (closed : nat -> nat -> bool) : kb_matrix :=
  mkKbMatrix (fst (keyboard_init rows closed)) (repeat false keys) (repeat debounce_new keys).

(** Scanning again and again while the switches change: [closeds] gives the
    switches at each scan.  The result lists the events of each scan. *)
Fixpoint kb_scans (rows cols : nat) (idx : nat -> nat -> option nat) (closeds : list (nat -> nat -> bool)) (k : kb_matrix)
  : res (kb_matrix * list (list c_event)) :=
  match closeds with
  | [] => Ok (k, [])
  | closed :: t =>
      let! (k1, evs) := kb_scan rows cols idx closed k in
      let! (k2, rest) := kb_scans rows cols idx t k1 in
      Ok (k2, evs :: rest)
  end.
