(** From the keymap to the USB host in the C firmware: the timer interrupt that ticks
    the keymap, the main loop that hands reports to the USB endpoints, and the USB
    interrupts.  Models, in /repo/firmware/ch32x035-usb-device-compositekm-c/app,
    main.c 67-125, usbd_composite_km.c 48-56, 107-138 and ch32x035_usbfs_device.c
    85-103, 168-304, 357-379, 806-815.

    The main loop is interrupted anywhere; the interrupts do not interrupt each other
    where it matters (the USB interrupt does not touch what the timer interrupt
    does).  So a schedule is a list of steps: one of the main loop, or an interrupt.
    Control transfers are in CUsb.v.  Not modelled: sleep and wake-up. *)
From Verif Require Import Base Output Types Slice Split Scheduler Keymap CApi.
Local Open Scope N_scope.

(** *** One of the three reports and its endpoint *)

(** The packet last computed and the one last sent, the flag [sending_...] of main,
    the endpoint's buffer, whether it answers the host with data ([UEPn_CTRL_H] is ACK)
    and [USBFS_Endp_Busy[n]]; [ch_host] lists the packets the host received. *)
Record channel := mkCh {
  ch_pack : list u8;
  ch_prev : list u8;
  ch_sending : bool;
  ch_buf : list u8;
  ch_ack : bool;
  ch_busy : bool;
  ch_host : list (list u8)
}.
Definition ch_new (n : nat) : channel := mkCh (repeat 0 n) (repeat 0 n) false (repeat 0 n) false false [].

Definition bytes_eqb : list u8 -> list u8 -> bool := list_eqb N.eqb.

(** Where the main loop is in the code for one report, e.g. main.c 77-86. *)
Inductive stage :=
| StTest           (* before the comparison *)
| StSelect         (* before the test of [sending_...] *)
| StUp             (* in USBFS_Endp_DataUp, before line 218 *)
| StLoad (i : nat) (* before copying byte i into the endpoint's buffer, line 277 *)
| StArm            (* before line 289 *)
| StBusy           (* before line 292 *)
| StSending        (* before [sending_... = 1] *)
| StCopy (i : nat) (* before copying byte i to PREV_... *)
| StClear.         (* before [sending_... = 0] *)

(** One step of it; [None]: go on to the next report.  [resend] is the mouse's second
    condition, main.c 90-97.  The comparison is one step: a tick during it makes at
    most this pass miss the change.  [memcpy] copies a byte at a time. *)
Definition ch_step (resend : bool) (st : stage) (c : channel) : channel * option stage :=
  match st with
  | StTest =>
      (c, if negb (bytes_eqb (ch_pack c) (ch_prev c))
             || (resend && negb (bytes_eqb (ch_pack c) (repeat 0 (length (ch_pack c)))))
          then Some StSelect else None)
  | StSelect =>
      (c, if negb (ch_sending c) then Some StUp
          else if negb (ch_busy c) then Some (StCopy 0) else None)
  | StUp => (c, if negb (ch_busy c) then Some (StLoad 0) else Some StSending)
  | StLoad i =>
      (mkCh (ch_pack c) (ch_prev c) (ch_sending c) (set_nth (ch_buf c) i (nth i (ch_pack c) 0)) (ch_ack c) (ch_busy c) (ch_host c),
       if (S i <? length (ch_pack c))%nat then Some (StLoad (S i)) else Some StArm)
  | StArm => (mkCh (ch_pack c) (ch_prev c) (ch_sending c) (ch_buf c) true (ch_busy c) (ch_host c), Some StBusy)
  | StBusy => (mkCh (ch_pack c) (ch_prev c) (ch_sending c) (ch_buf c) (ch_ack c) true (ch_host c), Some StSending)
  | StSending => (mkCh (ch_pack c) (ch_prev c) true (ch_buf c) (ch_ack c) (ch_busy c) (ch_host c), None)
  | StCopy i =>
      (mkCh (ch_pack c) (set_nth (ch_prev c) i (nth i (ch_pack c) 0)) (ch_sending c) (ch_buf c) (ch_ack c) (ch_busy c) (ch_host c),
       if (S i <? length (ch_pack c))%nat then Some (StCopy (S i)) else Some StClear)
  | StClear => (mkCh (ch_pack c) (ch_prev c) false (ch_buf c) (ch_ack c) (ch_busy c) (ch_host c), None)
  end.

(** The host takes the packet, and usbfs_device.c 357-379 runs. *)
Definition ch_take (c : channel) : channel :=
  if ch_ack c then mkCh (ch_pack c) (ch_prev c) (ch_sending c) (ch_buf c) false false (ch_host c ++ [ch_buf c]) else c.
(** usbfs_device.c 94-102, on a bus reset. *)
Definition ch_reset (c : channel) : channel :=
  mkCh (ch_pack c) (ch_prev c) (ch_sending c) (ch_buf c) false false (ch_host c).
Definition ch_set_pack (p : list u8) (c : channel) : channel :=
  mkCh p (ch_prev c) (ch_sending c) (ch_buf c) (ch_ack c) (ch_busy c) (ch_host c).

(** *** The firmware *)
Inductive chan := ChKb | ChMouse | ChCon.
Definition resends (c : chan) : bool := match c with ChMouse => true | _ => false end.
(** The order in main.c; after the consumer report the loop starts again. *)
Definition after (c : chan) : option (chan * stage) :=
  match c with ChKb => Some (ChMouse, StTest) | ChMouse => Some (ChCon, StTest) | ChCon => None end.

(** usbd_composite_km.c 129-132; there is no room for horizontal scrolling. *)
Definition mouse_pack (m : mouse_output) : list u8 :=
  [mo_buttons m; i8_byte (mo_x m); i8_byte (mo_y m); i8_byte (mo_vscroll m)].

(** A call into the keymap. *)
Inductive c_call := CallEvent (e : c_event) | CallTick.

Section Report.
Context {R Ctx Ev PKS KS : Type}.
Variable conf : kconf R Ctx Ev PKS KS.
Variable fuel : nat.
Local Notation km := (keymap R Ctx Ev PKS KS).

(** [rl_enum] is [USBFS_DevEnumStatus], [rl_at] where the main loop is ([None]: at its
    beginning).  [rl_made] lists the reports [keymap_tick] returned and [rl_calls] all
    calls into the keymap. *)
Record rloop := mkRl {
  rl_chan : chan -> channel;
  rl_enum : bool;
  rl_at : option (chan * stage);
  rl_keymap : km;
  rl_made : list c_report;
  rl_calls : list c_call
}.
Definition rl_new (k : km) : rloop :=
  mkRl (fun c => ch_new (match c with ChKb => 8 | ChMouse => 4 | ChCon => KEYMAP_HID_REPORT_CONSUMER_LEN end))
       false None k [] [].

Definition chan_eqb (a b : chan) : bool :=
  match a, b with ChKb, ChKb | ChMouse, ChMouse | ChCon, ChCon => true | _, _ => false end.
Definition set_chan (c : chan) (x : channel) (f : chan -> channel) : chan -> channel :=
  fun d => if chan_eqb d c then x else f d.

(** usbd_composite_km.c 107-138 [TIM3_IRQHandler]; [evs] are the events of the scan
    (keyboard_matrix.c 14-21). *)
Definition rl_timer (evs : list c_event) (s : rloop) : res rloop :=
  let! k1 := fold_res (fun k e => keymap_register_input_event conf fuel e k) evs (rl_keymap s) in
  let calls := rl_calls s ++ map CallEvent evs in
  let same c := bytes_eqb (ch_pack (rl_chan s c)) (ch_prev (rl_chan s c)) in
  if same ChKb && same ChCon && same ChMouse then
    let! (k2, r) := keymap_tick conf fuel k1 in
    Ok (mkRl (fun c => ch_set_pack (match c with
                                    | ChKb => cr_keyboard r
                                    | ChCon => cr_consumer r
                                    | ChMouse => mouse_pack (cr_mouse r)
                                    end) (rl_chan s c))
             (rl_enum s) (rl_at s) k2 (rl_made s ++ [r]) (calls ++ [CallTick]))
  else Ok (mkRl (rl_chan s) (rl_enum s) (rl_at s) k1 (rl_made s) calls).

(** main.c 75-125: one step of the main loop. *)
Definition rl_main (s : rloop) : rloop :=
  match rl_at s with
  | None => if rl_enum s
            then mkRl (rl_chan s) (rl_enum s) (Some (ChKb, StTest)) (rl_keymap s) (rl_made s) (rl_calls s)
            else s
  | Some (c, st) =>
      let '(x, nxt) := ch_step (resends c) st (rl_chan s c) in
      mkRl (set_chan c x (rl_chan s)) (rl_enum s)
           (match nxt with Some st' => Some (c, st') | None => after c end)
           (rl_keymap s) (rl_made s) (rl_calls s)
  end.

(** The host polls an endpoint. *)
Definition rl_host (c : chan) (s : rloop) : rloop :=
  mkRl (set_chan c (ch_take (rl_chan s c)) (rl_chan s)) (rl_enum s) (rl_at s) (rl_keymap s) (rl_made s) (rl_calls s).
(** usbfs_device.c 806-815; enumeration (not modelled in detail) sets the status. *)
Definition rl_reset (s : rloop) : rloop :=
  mkRl (fun c => ch_reset (rl_chan s c)) false (rl_at s) (rl_keymap s) (rl_made s) (rl_calls s).
Definition rl_enumerate (s : rloop) : rloop :=
  mkRl (rl_chan s) true (rl_at s) (rl_keymap s) (rl_made s) (rl_calls s).

Inductive rl_step := RlTimer (evs : list c_event) | RlMain | RlHost (c : chan) | RlEnumerate | RlReset.
Definition rl_do (s : rloop) (a : rl_step) : res rloop :=
  match a with
  | RlTimer evs => rl_timer evs s
  | RlMain => Ok (rl_main s)
  | RlHost c => Ok (rl_host c s)
  | RlEnumerate => Ok (rl_enumerate s)
  | RlReset => Ok (rl_reset s)
  end.
Definition rl_run (l : list rl_step) (s : rloop) : res rloop := fold_res rl_do l s.
End Report.
