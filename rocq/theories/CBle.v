(** The C firmware for the CH58x: a Bluetooth keyboard that sleeps between key presses.
    Models, in /repo/firmware/ch58x-ble-hid-keyboard-c, keyboard/matrix/col_to_row.c
    48-83, keyboard/keyboard_matrix.c 7-49, keyboard/keyboard.c 10-67 and APP/hidkbd.c
    93-95, 188-189, 270-276, 291-521.

    TMOS, the vendor's task system, is modelled as far as it is used: an event is set at
    once or by a timer, starting a timer again restarts it, and the task handles one
    event at a time.  Not modelled: the Bluetooth stack (a report succeeds or fails, in
    any pattern), connection events, pin timing, power management. *)
From Verif Require Import Base Output Types Slice Split Scheduler Keymap CApi CFirmware CReport.
Local Open Scope N_scope.

(** *** The switch matrix *)
Section Matrix.
Variables rows cols : nat.
Variable closed : nat -> nat -> bool.
Variable idx : nat -> nat -> option nat.

(** col_to_row.c 48-59 [keyboard_matrix_scan_row_for_column].  [high]: whether each
    column is driven high.  Reading [keyboard_matrix_rows] and [keymap_indices] out of
    bounds is undefined in C and [Panic] here. *)
Definition ble_scan_switch (high : list bool) (c r : nat) (buf : list bool) : res (list bool) :=
  if (r <? rows)%nat
  then scan_switch cols (fun c r => closed r c) (fun c r => idx r c) high c r buf
  else Panic.
(** col_to_row.c 61-76 [keyboard_matrix_scan_column]; the bound of the loop over the
    rows is the number of columns. *)
Definition ble_scan_column (st : list bool * list bool) (c : nat) : res (list bool * list bool) :=
  if (c <? cols)%nat
  then
    let high := set_nth (fst st) c true in
    let! buf := fold_res (fun buf r => ble_scan_switch high c r buf) (seq 0 cols) (snd st) in
    Ok (set_nth high c false, buf)
  else Panic.
(** col_to_row.c 78-83 [keyboard_matrix_scan_raw]; the bound of the loop over the columns
    is the number of rows. *)
Definition ble_scan_raw (high buf : list bool) : res (list bool * list bool) :=
  fold_res ble_scan_column (seq 0 rows) (high, buf).
End Matrix.

(** keyboard_matrix.c 7-12: [debounced_state] and [keys_pressed_count].  The raw scans and
    the counter kept beside them have no effect. *)
Record ble_matrix := mkBm { bm_state : list bool; bm_count : u8 }.
Definition bm_new (keys : nat) : ble_matrix := mkBm (repeat false keys) 0.

(** keyboard_matrix.c 35-48: the loop from key [i], given the raw scan.  The result lists
    the entries of [new_states] that are not zero. *)
Fixpoint ble_scan_from (i : N) (states raws : list bool) (count : u8) : list bool * u8 * list (N * bool) :=
  match states, raws with
  | st :: states, raw :: raws =>
      if eqb raw st then
        let '(l, n, ch) := ble_scan_from (i + 1) states raws count in (st :: l, n, ch)
      else
        let '(l, n, ch) := ble_scan_from (i + 1) states raws ((count + (if raw then 1 else 255)) mod 256) in
        (raw :: l, n, (i, raw) :: ch)
  | _, _ => ([], count, [])
  end.
Definition ble_matrix_scan (raw : list bool) (m : ble_matrix) : ble_matrix * list (N * bool) :=
  let '(l, n, ch) := ble_scan_from 0 (bm_state m) raw (bm_count m) in (mkBm l n, ch).

(** *** The task *)

(** hidkbd.h 30-40, the events of the keyboard. *)
Inductive ble_evt := EvWake | EvScan | EvTimeout | EvReport (c : chan) | EvTick.
Definition evt_eqb (a b : ble_evt) : bool :=
  match a, b with
  | EvWake, EvWake | EvScan, EvScan | EvTimeout, EvTimeout | EvTick, EvTick => true
  | EvReport c, EvReport d => chan_eqb c d
  | _, _ => false
  end.
Definition set_evt {A} (e : ble_evt) (x : A) (f : ble_evt -> A) : ble_evt -> A := fun d => if evt_eqb d e then x else f d.

(** The fields of the report; the mouse report is the whole struct (lib.rs 137-151). *)
Definition ble_part (c : chan) (r : c_report) : list u8 :=
  match c with
  | ChKb => cr_keyboard r
  | ChCon => cr_consumer r
  | ChMouse => mouse_pack (cr_mouse r) ++ [i8_byte (mo_hscroll (cr_mouse r))]
  end.
Definition report_zero : c_report :=
  mkCReport (repeat 0 8) (repeat 0 KEYMAP_HID_REPORT_CUSTOM_LEN) (repeat 0 KEYMAP_HID_REPORT_CONSUMER_LEN) (mkMouse 0 0 0 0 0).

Definition set_chan_bytes (c : chan) (x : list u8) (f : chan -> list u8) : chan -> list u8 :=
  fun d => if chan_eqb d c then x else f d.

(** CH58xBLE_LIB.h 196-197. *)
Definition tmos_of_ms (ms : u32) : u32 := ms * 1000 mod 2 ^ 32 / 625.
Definition ms_of_tmos (t : u32) : u32 := t * 625 mod 2 ^ 32 / 1000.

(** A call into the keymap. *)
Inductive ble_call := BcAfter (delta : u32) (e : c_event) | BcEvent (e : c_event) | BcNext | BcTick.

Section Ble.
Context {R Ctx Ev PKS KS : Type}.
Variable conf : kconf R Ctx Ev PKS KS.
Variable fuel : nat.
Local Notation km := (keymap R Ctx Ev PKS KS).

(** The static variables of hidkbd.c 292-298, the keymap, whether the GPIO interrupt is
    enabled, the events set and the timers running, and the system clock.
    [bl_calls], [bl_made], [bl_sent] and [bl_scans] are the history: calls into the
    keymap, the reports it returned, what was given to [HidDev_Report] and whether it
    succeeded, and the raw scans. *)
Record ble := mkBle {
  bl_matrix : ble_matrix;
  bl_keymap : km;
  bl_hid : c_report;
  bl_prev : chan -> list u8;
  bl_time : u32;
  bl_pending : bool;
  bl_irq : bool;
  bl_set : ble_evt -> bool;
  bl_timer : ble_evt -> option N;
  bl_now : N;
  bl_calls : list ble_call;
  bl_made : list c_report;
  bl_sent : list (chan * list u8 * bool);
  bl_scans : list (list bool)
}.

(** hidkbd.c 270-276; keyboard.c 10-12. *)
Definition ble_new (keys : nat) (k : km) : ble :=
  mkBle (bm_new keys) (keymap_set_ms_per_tick (keymap_init k) 8) report_zero (fun c => ble_part c report_zero)
        0 false true (fun _ => false) (fun _ => None) 0 [] [] [] [].

Definition bl_start (e : ble_evt) (t : N) (s : ble) : ble :=
  mkBle (bl_matrix s) (bl_keymap s) (bl_hid s) (bl_prev s) (bl_time s) (bl_pending s) (bl_irq s) (bl_set s)
        (set_evt e (Some t) (bl_timer s)) (bl_now s) (bl_calls s) (bl_made s) (bl_sent s) (bl_scans s).
Definition bl_clear (e : ble_evt) (s : ble) : ble :=
  mkBle (bl_matrix s) (bl_keymap s) (bl_hid s) (bl_prev s) (bl_time s) (bl_pending s) (bl_irq s)
        (set_evt e false (bl_set s)) (bl_timer s) (bl_now s) (bl_calls s) (bl_made s) (bl_sent s) (bl_scans s).
Definition bl_set_irq (b : bool) (s : ble) : ble :=
  mkBle (bl_matrix s) (bl_keymap s) (bl_hid s) (bl_prev s) (bl_time s) (bl_pending s) b (bl_set s) (bl_timer s)
        (bl_now s) (bl_calls s) (bl_made s) (bl_sent s) (bl_scans s).
Definition bl_set_pending (b : bool) (s : ble) : ble :=
  mkBle (bl_matrix s) (bl_keymap s) (bl_hid s) (bl_prev s) (bl_time s) b (bl_irq s) (bl_set s) (bl_timer s)
        (bl_now s) (bl_calls s) (bl_made s) (bl_sent s) (bl_scans s).
Definition bl_set_time (s : ble) : ble :=
  mkBle (bl_matrix s) (bl_keymap s) (bl_hid s) (bl_prev s) (bl_now s mod 2 ^ 32) (bl_pending s) (bl_irq s) (bl_set s)
        (bl_timer s) (bl_now s) (bl_calls s) (bl_made s) (bl_sent s) (bl_scans s).
Definition bl_called (c : ble_call) (k : km) (s : ble) : ble :=
  mkBle (bl_matrix s) k (bl_hid s) (bl_prev s) (bl_time s) (bl_pending s) (bl_irq s) (bl_set s) (bl_timer s)
        (bl_now s) (bl_calls s ++ [c]) (bl_made s) (bl_sent s) (bl_scans s).
Definition bl_report (r : c_report) (s : ble) : ble :=
  mkBle (bl_matrix s) (bl_keymap s) r (bl_prev s) (bl_time s) (bl_pending s) (bl_irq s) (bl_set s) (bl_timer s)
        (bl_now s) (bl_calls s) (bl_made s ++ [r]) (bl_sent s) (bl_scans s).
(** [keyboard_matrix_scan]. *)
Definition bl_scan (raw : list bool) (s : ble) : ble * list (N * bool) :=
  let '(m, ch) := ble_matrix_scan raw (bl_matrix s) in
  (mkBle m (bl_keymap s) (bl_hid s) (bl_prev s) (bl_time s) (bl_pending s) (bl_irq s) (bl_set s) (bl_timer s)
         (bl_now s) (bl_calls s) (bl_made s) (bl_sent s) (bl_scans s ++ [raw]), ch).

(** hidkbd.c 378-395, 409-426, 499-516: start a report event for what changed, and for
    the mouse also if it is not zero. *)
Definition bl_nonzero (l : list u8) : bool := negb (bytes_eqb l (repeat 0 (length l))).
Definition bl_wants (c : chan) (s : ble) : bool :=
  let p := ble_part c (bl_hid s) in
  negb (bytes_eqb p (bl_prev s c)) || (resends c && bl_nonzero p).
Definition bl_request (s : ble) (c : chan) : ble := if bl_wants c s then bl_start (EvReport c) 1 s else s.
Definition bl_requests (s : ble) : ble := fold_left bl_request [ChKb; ChMouse; ChCon] s.

(** hidkbd.c 337-343; keyboard.c 14-18. *)
Definition bl_on_wake (s : ble) : ble := bl_start EvScan 1 (bl_set_irq false s).

(** hidkbd.c 350-367: one changed key. *)
Definition bl_after (st : ble * u32) (ch : N * bool) : res (ble * u32) :=
  let s := fst st in
  let e := state_changed (fst ch) (snd ch) in
  let delta := ms_of_tmos ((bl_now s + 2 ^ 32 - bl_time s) mod 2 ^ 32) in
  let! (k, r, t) := keymap_register_input_after_ms conf fuel delta e (bl_keymap s) in
  Ok (bl_set_time (bl_report r (bl_called (BcAfter delta e) k s)), t).
(** hidkbd.c 345-397. *)
Definition bl_on_scan (raw : list bool) (s : ble) : res ble :=
  let '(s1, ch) := bl_scan raw s in
  let! (s2, t) := fold_res bl_after ch (s1, 0) in
  let s3 := if negb (bl_pending s2) && (0 <? t) then bl_set_pending true (bl_start EvTimeout (tmos_of_ms t) s2) else s2 in
  Ok (bl_requests (bl_start EvTick 12 s3)).

(** hidkbd.c 399-428. *)
Definition bl_on_timeout (s : ble) : res ble :=
  let! (k, r, t) := keymap_next_event_timeout conf fuel (bl_keymap s) in
  let s1 := bl_set_time (bl_report r (bl_called BcNext k s)) in
  let s2 := if 0 <? t then bl_start EvTimeout (tmos_of_ms t) s1 else bl_set_pending false s1 in
  Ok (bl_requests s2).

(** hidkbd.c 430-465. *)
Definition bl_on_report (c : chan) (ok : bool) (s : ble) : ble :=
  let p := ble_part c (bl_hid s) in
  mkBle (bl_matrix s) (bl_keymap s) (bl_hid s) (if ok then set_chan_bytes c p (bl_prev s) else bl_prev s)
        (bl_time s) (bl_pending s) (bl_irq s) (bl_set s) (bl_timer s) (bl_now s) (bl_calls s) (bl_made s)
        (bl_sent s ++ [(c, p, ok)]) (bl_scans s).

(** hidkbd.c 470-481: one changed key. *)
Definition bl_event (s : ble) (ch : N * bool) : res ble :=
  let e := state_changed (fst ch) (snd ch) in
  let! k := keymap_register_input_event conf fuel e (bl_keymap s) in
  Ok (bl_called (BcEvent e) k s).
(** hidkbd.c 467-518; keyboard.c 20-29. *)
Definition bl_on_tick (raw : list bool) (s : ble) : res ble :=
  let '(s1, ch) := bl_scan raw s in
  let! s2 := fold_res bl_event ch s1 in
  let! (k, r) := keymap_tick conf fuel (bl_keymap s2) in
  let s3 := bl_set_time (bl_report r (bl_called BcTick k s2)) in
  let s4 := if keymap_requires_polling (bl_keymap s3) || (0 <? bm_count (bl_matrix s3))
            then bl_start EvTick 12 s3
            else bl_set_irq true s3 in
  Ok (bl_requests s4).

(** hidkbd.c 291-521 [HidEmu_ProcessEvent]: handle the first event set, in this order,
    and clear it. *)
Definition bl_next (s : ble) : option ble_evt :=
  find (bl_set s) [EvWake; EvScan; EvTimeout; EvReport ChKb; EvReport ChMouse; EvReport ChCon; EvTick].
Definition bl_task (raw : list bool) (ok : bool) (s : ble) : res ble :=
  match bl_next s with
  | None => Ok s
  | Some e =>
      let s := bl_clear e s in
      match e with
      | EvWake => Ok (bl_on_wake s)
      | EvScan => bl_on_scan raw s
      | EvTimeout => bl_on_timeout s
      | EvReport c => Ok (bl_on_report c ok s)
      | EvTick => bl_on_tick raw s
      end
  end.

(** A unit of TMOS time (625 microseconds) passes. *)
Definition bl_unit (s : ble) : ble :=
  mkBle (bl_matrix s) (bl_keymap s) (bl_hid s) (bl_prev s) (bl_time s) (bl_pending s) (bl_irq s)
        (fun e => match bl_timer s e with Some t => bl_set s e || (t <=? 1) | None => bl_set s e end)
        (fun e => match bl_timer s e with Some t => if t <=? 1 then None else Some (t - 1) | None => None end)
        (bl_now s + 1) (bl_calls s) (bl_made s) (bl_sent s) (bl_scans s).

(** keyboard.c 31-67, hidkbd.c 93-95: the GPIO interrupt, which can only happen while it is enabled. *)
Definition bl_gpio (s : ble) : ble :=
  if bl_irq s then
    mkBle (bl_matrix s) (bl_keymap s) (bl_hid s) (bl_prev s) (bl_time s) (bl_pending s) false (set_evt EvWake true (bl_set s))
          (bl_timer s) (bl_now s) (bl_calls s) (bl_made s) (bl_sent s) (bl_scans s)
  else s.

(** [raw]: what a scan would read; [ok]: whether a report would succeed. *)
Inductive bl_step := BlUnit | BlGpio | BlTask (raw : list bool) (ok : bool).
Definition bl_do (s : ble) (a : bl_step) : res ble :=
  match a with
  | BlUnit => Ok (bl_unit s)
  | BlGpio => Ok (bl_gpio s)
  | BlTask raw ok => bl_task raw ok s
  end.
Definition bl_run (l : list bl_step) (s : ble) : res ble := fold_res bl_do l s.
End Ble.
