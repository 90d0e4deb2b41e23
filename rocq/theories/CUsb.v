(** The USB device of the C firmware for the CH32X: the control endpoint and what the
    interrupt handler does for the others.
    Models, in /repo/firmware/ch32x035-usb-device-compositekm-c/app, usb_desc.c 21-314,
    usb_desc.h 33-74 and ch32x035_usbfs_device.c 29-60, 85-103, 132-158, 168-304, 313-833.

    The controller raises an interrupt per completed transaction and answers nothing
    while the interrupt is pending ([USBFS_UC_INT_BUSY], line 149), so a history is a list
    of events, each with its run of the handler.  Reading or writing outside of an
    array is undefined in C and [Panic] here.  Not modelled: clocks, pins, supply
    voltage, sleeping and the wake-up signal (lines 73-76, 112-131, 823-826, 842-860). *)
From Verif Require Import Base.
Local Open Scope N_scope.

(** *** Descriptors *)

(** usb_desc.c 21-37, with usb_desc.h 23-29 for vendor, product and version. *)
Definition MyDevDescr : list u8 :=
  [18; 1; 0; 2; 0; 0; 0; 64; 134; 26; 0; 254; 0; 1; 1; 2; 3; 1].
(** usb_desc.c 42-137. *)
Definition MyCfgDescr : list u8 :=
  [9; 2; 84; 0; 3; 1; 0; 160; 50;
   9; 4; 0; 0; 1; 3; 1; 1; 0;
   9; 33; 17; 1; 0; 1; 34; 62; 0;
   7; 5; 129; 3; 8; 0; 10;
   9; 4; 1; 0; 1; 3; 1; 2; 0;
   9; 33; 16; 1; 0; 1; 34; 52; 0;
   7; 5; 130; 3; 8; 0; 1;
   9; 4; 2; 0; 1; 3; 0; 0; 0;
   9; 33; 17; 1; 0; 1; 34; 23; 0;
   7; 5; 131; 3; 4; 0; 10].
(** usb_desc.c 142-175. *)
Definition KeyRepDesc : list u8 :=
  [5; 1; 9; 6; 161; 1; 5; 7; 25; 224; 41; 231; 21; 0; 37; 1; 117; 1; 149; 8; 129; 2;
   149; 1; 117; 8; 129; 1; 149; 3; 117; 1; 5; 8; 25; 1; 41; 3; 145; 2; 149; 5; 117; 1; 145; 1;
   149; 6; 117; 8; 38; 255; 0; 5; 7; 25; 0; 41; 145; 129; 0; 192].
(** usb_desc.c 180-193. *)
Definition ConsumerRepDesc : list u8 :=
  [5; 12; 9; 1; 161; 1; 21; 0; 38; 255; 0; 25; 0; 42; 255; 0; 117; 8; 149; 4; 129; 0; 192].
(** usb_desc.c 198-227. *)
Definition MouseRepDesc : list u8 :=
  [5; 1; 9; 2; 161; 1; 9; 1; 161; 0; 5; 9; 25; 1; 41; 3; 21; 0; 37; 1; 117; 1; 149; 3; 129; 2;
   117; 5; 149; 1; 129; 1; 5; 1; 9; 48; 9; 49; 9; 56; 21; 129; 37; 127; 117; 8; 149; 3; 129; 6; 192; 192].
(** usb_desc.c 248-254, 259-260, 265-285, 290-314. *)
Definition MyLangDescr : list u8 := [4; 3; 9; 4].
Definition MyManuInfo : list u8 := [14; 3; 119; 0; 99; 0; 104; 0; 46; 0; 99; 0; 110; 0].
Definition MyProdInfo : list u8 := [18; 3; 67; 0; 72; 0; 51; 0; 50; 0; 120; 0; 48; 0; 51; 0; 53; 0].
Definition MySerNumInfo : list u8 := [22; 3; 48; 0; 49; 0; 50; 0; 51; 0; 52; 0; 53; 0; 54; 0; 55; 0; 56; 0; 57; 0].

(** usb_desc.h 33, 64-73. *)
Definition UEP0_SIZE : N := 64.
Definition byte_at (l : list u8) (i : nat) : N := nth i l 0.
Definition DEVICE_DESC_LEN : N := byte_at MyDevDescr 0.
Definition CONFIG_DESC_LEN : N := byte_at MyCfgDescr 2 + N.shiftl (byte_at MyCfgDescr 3) 8.
Definition REPORT_DESC_LEN_KB : N := 62.
Definition REPORT_DESC_LEN_MS : N := 52.
Definition REPORT_DESC_LEN_CONSUMER : N := 23.
Definition LANG_DESC_LEN : N := byte_at MyLangDescr 0.
Definition MANU_DESC_LEN : N := byte_at MyManuInfo 0.
Definition PROD_DESC_LEN : N := byte_at MyProdInfo 0.
Definition SN_DESC_LEN : N := byte_at MySerNumInfo 0.

(** *** State *)

(** What an endpoint answers, the two bits [.._RES] of its control register
    (ch32x035_usb.h 322-341; ACK is zero). *)
Inductive hs := HsAck | HsNak | HsStall.
(** [UEP0_CTRL_H]: data toggle and answer for transmission and reception.  A write
    names the bits that are set; the others become zero, that is DATA0 and ACK. *)
Record ctrl0 := mkC0 { t_tog : bool; t_res : hs; r_tog : bool; r_res : hs }.
(** An endpoint from 1 to 3: [UEPn_CTRL_H], [UEPn_TX_LEN], its buffer, [USBFS_Endp_Busy[n]]. *)
Record endpoint := mkEp { ep_tog : bool; ep_res : hs; ep_len : N; ep_buf : list u8; ep_busy : bool }.

(** Lines 33-37: the request being served, without its length. *)
Record request := mkReq { rq_type : u8; rq_code : u8; rq_value : u16; rq_index : u16 }.
(** Lines 40-47 and [KB_LED_Cur_Status]. *)
Record status := mkStat {
  st_config : u8; st_addr : u8; st_sleep : u8; st_enum : bool;
  st_idle : list u8; st_proto : list u8; st_leds : u8
}.
(** [ud_descr] is what [pUSBFS_Descr] points at, up to the end of its array;
    [ud_len] is [USBFS_SetupReqLen], [ud_address] the register [DEV_ADDR]. *)
Record usbdev := mkUd {
  ud_buf : list u8; ud_descr : list u8; ud_req : request; ud_len : u16; ud_stat : status;
  ud_address : u8; ud_tx_len : N; ud_c0 : ctrl0; ud_eps : list endpoint
}.

(** Lines 85-103 [USBFS_Device_Endp_Init]: control registers and busy flags. *)
Definition ep_init (e : endpoint) : endpoint := mkEp false HsNak (ep_len e) (ep_buf e) false.
Definition c0_init : ctrl0 := mkC0 false HsNak false HsAck.
(** Lines 132-158 [USBFS_Device_Init] on zero-initialised variables. *)
Definition usb_init : usbdev :=
  mkUd (repeat 0 64) [] (mkReq 0 0 0 0) 0 (mkStat 0 0 0 false [0; 0; 0] [0; 0; 0] 0)
       0 0 c0_init (repeat (mkEp false HsNak 0 (repeat 0 64) false) 3).

Definition set_buf (b : list u8) (d : usbdev) : usbdev :=
  mkUd b (ud_descr d) (ud_req d) (ud_len d) (ud_stat d) (ud_address d) (ud_tx_len d) (ud_c0 d) (ud_eps d).
Definition set_descr (p : list u8) (d : usbdev) : usbdev :=
  mkUd (ud_buf d) p (ud_req d) (ud_len d) (ud_stat d) (ud_address d) (ud_tx_len d) (ud_c0 d) (ud_eps d).
Definition set_req (r : request) (d : usbdev) : usbdev :=
  mkUd (ud_buf d) (ud_descr d) r (ud_len d) (ud_stat d) (ud_address d) (ud_tx_len d) (ud_c0 d) (ud_eps d).
Definition set_len (n : u16) (d : usbdev) : usbdev :=
  mkUd (ud_buf d) (ud_descr d) (ud_req d) n (ud_stat d) (ud_address d) (ud_tx_len d) (ud_c0 d) (ud_eps d).
Definition set_stat (s : status) (d : usbdev) : usbdev :=
  mkUd (ud_buf d) (ud_descr d) (ud_req d) (ud_len d) s (ud_address d) (ud_tx_len d) (ud_c0 d) (ud_eps d).
Definition set_address (a : u8) (d : usbdev) : usbdev :=
  mkUd (ud_buf d) (ud_descr d) (ud_req d) (ud_len d) (ud_stat d) a (ud_tx_len d) (ud_c0 d) (ud_eps d).
Definition set_tx_len (n : N) (d : usbdev) : usbdev :=
  mkUd (ud_buf d) (ud_descr d) (ud_req d) (ud_len d) (ud_stat d) (ud_address d) n (ud_c0 d) (ud_eps d).
Definition set_c0 (c : ctrl0) (d : usbdev) : usbdev :=
  mkUd (ud_buf d) (ud_descr d) (ud_req d) (ud_len d) (ud_stat d) (ud_address d) (ud_tx_len d) c (ud_eps d).
Definition set_eps (e : list endpoint) (d : usbdev) : usbdev :=
  mkUd (ud_buf d) (ud_descr d) (ud_req d) (ud_len d) (ud_stat d) (ud_address d) (ud_tx_len d) (ud_c0 d) e.

Definition set_config (v : u8) (s : status) := mkStat v (st_addr s) (st_sleep s) true (st_idle s) (st_proto s) (st_leds s).
Definition set_addr (v : u8) (s : status) := mkStat (st_config s) v (st_sleep s) (st_enum s) (st_idle s) (st_proto s) (st_leds s).
Definition set_sleep (v : u8) (s : status) := mkStat (st_config s) (st_addr s) v (st_enum s) (st_idle s) (st_proto s) (st_leds s).
Definition set_idle (v : list u8) (s : status) := mkStat (st_config s) (st_addr s) (st_sleep s) (st_enum s) v (st_proto s) (st_leds s).
Definition set_proto (v : list u8) (s : status) := mkStat (st_config s) (st_addr s) (st_sleep s) (st_enum s) (st_idle s) v (st_leds s).
Definition set_leds (v : u8) (s : status) := mkStat (st_config s) (st_addr s) (st_sleep s) (st_enum s) (st_idle s) (st_proto s) v.

(** [memcpy] of [n] bytes to the start of [dst]. *)
Definition memcpy (dst src : list u8) (n : N) : res (list u8) :=
  let n := N.to_nat n in
  if ((n <=? length dst) && (n <=? length src))%nat then Ok (firstn n src ++ skipn n dst) else Panic.

Definition lo8 (v : u16) : u8 := N.land v 255.
Definition hi8 (v : u16) : u8 := N.land (N.shiftr v 8) 255.

(** *** Setup *)

(** Lines 432-497, class requests; the first component is [errflag]. *)
Definition class_request (d : usbdev) : bool * usbdev :=
  let r := ud_req d in let s := ud_stat d in
  let i := N.to_nat (rq_index r) in
  match rq_code r with
  | 9 (* HID_SET_REPORT *) => (false, d)
  | 10 (* HID_SET_IDLE *) =>
      if rq_index r <=? 2 then (false, set_stat (set_idle (set_nth (st_idle s) i (hi8 (rq_value r))) s) d) else (true, d)
  | 11 (* HID_SET_PROTOCOL *) =>
      if rq_index r <=? 2 then (false, set_stat (set_proto (set_nth (st_proto s) i (lo8 (rq_value r))) s) d) else (true, d)
  | 2 (* HID_GET_IDLE *) =>
      if rq_index r <=? 2 then (false, set_buf (set_nth (ud_buf d) 0 (byte_at (st_idle s) i)) d) else (true, d)
  | 3 (* HID_GET_PROTOCOL *) =>
      if rq_index r <=? 2 then (false, set_buf (set_nth (ud_buf d) 0 (byte_at (st_proto s) i)) d) else (true, d)
  | _ => (true, d)
  end.

(** Lines 504-585: the descriptor asked for and its length. *)
Definition find_descriptor (value index : u16) : option (list u8 * N) :=
  match hi8 value with
  | 1 => Some (MyDevDescr, DEVICE_DESC_LEN)
  | 2 => Some (MyCfgDescr, CONFIG_DESC_LEN)
  | 33 => match index with
          | 0 => Some (skipn 18 MyCfgDescr, 9)
          | 1 => Some (skipn 43 MyCfgDescr, 9)
          | 2 => Some (skipn 68 MyCfgDescr, 9)
          | _ => None
          end
  | 34 => match index with
          | 0 => Some (KeyRepDesc, REPORT_DESC_LEN_KB)
          | 1 => Some (MouseRepDesc, REPORT_DESC_LEN_MS)
          | 2 => Some (ConsumerRepDesc, REPORT_DESC_LEN_CONSUMER)
          | _ => None
          end
  | 3 => match lo8 value with
         | 0 => Some (MyLangDescr, LANG_DESC_LEN)
         | 1 => Some (MyManuInfo, MANU_DESC_LEN)
         | 2 => Some (MyProdInfo, PROD_DESC_LEN)
         | 3 => Some (MySerNumInfo, SN_DESC_LEN)
         | _ => None
         end
  | _ => None
  end.

(** Lines 503-595 [USB_GET_DESCRIPTOR]. *)
Definition get_descriptor (d : usbdev) : res (bool * usbdev) :=
  let '(err, p, len) := match find_descriptor (rq_value (ud_req d)) (rq_index (ud_req d)) with
                        | Some (p, len) => (false, p, len)
                        | None => (true, ud_descr d, 0)
                        end in
  let reqlen := if len <? ud_len d then len else ud_len d in
  let len := if UEP0_SIZE <=? reqlen then UEP0_SIZE else reqlen in
  let! buf := memcpy (ud_buf d) p len in
  Ok (err, set_buf buf (set_len reqlen (set_descr (skipn (N.to_nat len) p) d))).

(** [wIndex] names one of the endpoints 1 to 3, direction IN; its place in [ud_eps]. *)
Definition endpoint_of (index : u16) : option nat :=
  match lo8 index with 129 => Some 0%nat | 130 => Some 1%nat | 131 => Some 2%nat | _ => None end.
Definition no_ep : endpoint := mkEp false HsNak 0 [] false.
Definition ep_at (d : usbdev) (i : nat) : endpoint := nth i (ud_eps d) no_ep.
Definition put_ep (i : nat) (e : endpoint) (d : usbdev) : usbdev := set_eps (set_nth (ud_eps d) i e) d.

(** Lines 617-659, 662-711 [USB_CLEAR_FEATURE], [USB_SET_FEATURE]. *)
Definition clear_feature (d : usbdev) : bool * usbdev :=
  let r := ud_req d in let to := N.land (rq_type r) 31 in
  if to =? 0 then
    if lo8 (rq_value r) =? 1 then (false, set_stat (set_sleep (N.ldiff (st_sleep (ud_stat d)) 1) (ud_stat d)) d) else (true, d)
  else if to =? 2 then
    if lo8 (rq_value r) =? 0 then
      match endpoint_of (rq_index r) with
      | Some i => let e := ep_at d i in (false, put_ep i (mkEp false HsNak (ep_len e) (ep_buf e) (ep_busy e)) d)
      | None => (true, d)
      end
    else (true, d)
  else (true, d).
Definition set_feature (d : usbdev) : bool * usbdev :=
  let r := ud_req d in let to := N.land (rq_type r) 31 in
  if to =? 0 then
    if lo8 (rq_value r) =? 1 then
      if negb (N.land (byte_at MyCfgDescr 7) 32 =? 0)
      then (false, set_stat (set_sleep (N.lor (st_sleep (ud_stat d)) 1) (ud_stat d)) d) else (true, d)
    else (true, d)
  else if to =? 2 then
    if lo8 (rq_value r) =? 0 then
      match endpoint_of (rq_index r) with
      | Some i => let e := ep_at d i in (false, put_ep i (mkEp (ep_tog e) HsStall (ep_len e) (ep_buf e) (ep_busy e)) d)
      | None => (true, d)
      end
    else (true, d)
  else (true, d).

(** Lines 726-765 [USB_GET_STATUS]. *)
Definition is_stall (h : hs) : bool := match h with HsStall => true | _ => false end.
Definition get_status (d : usbdev) : bool * usbdev :=
  let r := ud_req d in let to := N.land (rq_type r) 31 in
  let d0 := set_buf (set_nth (set_nth (ud_buf d) 0 0) 1 0) d in
  let '(err, d1) :=
    if to =? 0 then
      (false, set_buf (set_nth (ud_buf d0) 0 (if N.land (st_sleep (ud_stat d)) 1 =? 0 then 0 else 2)) d0)
    else if to =? 2 then
      match endpoint_of (rq_index r) with
      | Some i => (false, if is_stall (ep_res (ep_at d i)) then set_buf (set_nth (ud_buf d0) 0 1) d0 else d0)
      | None => (true, d0)
      end
    else (true, d0) in
  (err, if 2 <? ud_len d1 then set_len 2 d1 else d1).

(** Lines 500-771, standard requests. *)
Definition clip1 (d : usbdev) : usbdev := if 1 <? ud_len d then set_len 1 d else d.
Definition standard_request (d : usbdev) : res (bool * usbdev) :=
  let r := ud_req d in let s := ud_stat d in
  match rq_code r with
  | 6 => get_descriptor d
  | 5 => Ok (false, set_stat (set_addr (lo8 (rq_value r)) s) d)
  | 8 => Ok (false, clip1 (set_buf (set_nth (ud_buf d) 0 (st_config s)) d))
  | 9 => Ok (false, set_stat (set_config (lo8 (rq_value r)) s) d)
  | 1 => Ok (clear_feature d)
  | 3 => Ok (set_feature d)
  | 10 => Ok (false, clip1 (set_buf (set_nth (ud_buf d) 0 0) d))
  | 11 => Ok (false, d)
  | 0 => Ok (get_status d)
  | _ => Ok (true, d)
  end.

(** Lines 420-430: the setup packet, in the endpoint's buffer, little-endian. *)
Definition read_setup (d : usbdev) : usbdev :=
  let b := byte_at (ud_buf d) in
  set_len (b 6%nat + 256 * b 7%nat)
    (set_req (mkReq (b 0%nat) (b 1%nat) (b 2%nat + 256 * b 3%nat) (b 4%nat + 256 * b 5%nat))
      (set_c0 (mkC0 true HsNak true HsNak) d)).

(** Lines 773-796. *)
Definition finish_setup (err : bool) (d : usbdev) : usbdev :=
  if err then set_c0 (mkC0 true HsStall true HsStall) d
  else if negb (N.land (rq_type (ud_req d)) 128 =? 0) then
    let len := if UEP0_SIZE <? ud_len d then UEP0_SIZE else ud_len d in
    set_c0 (mkC0 true HsAck false HsAck) (set_tx_len len (set_len (ud_len d - len) d))
  else if ud_len d =? 0 then set_c0 (mkC0 true HsAck false HsAck) (set_tx_len 0 d)
  else set_c0 (mkC0 false HsAck true HsAck) d.

(** Lines 419-797, after the controller stored the setup packet.  The type of the
    request is in bits 5 and 6: 0 standard, 32 class. *)
Definition on_setup (p : list u8) (d : usbdev) : res usbdev :=
  let! buf := memcpy (ud_buf d) p 8 in
  let d := read_setup (set_buf buf d) in
  let kind := N.land (rq_type (ud_req d)) 96 in
  let! (err, d1) := if negb (kind =? 0) then Ok (if kind =? 32 then class_request d else (false, d))
                    else standard_request d in
  Ok (finish_setup err d1).

(** *** Data and status stages *)

(** Lines 326-355: the host took the packet of endpoint 0. *)
Definition on_in0 (d : usbdev) : res usbdev :=
  let d := if ud_len d =? 0 then set_c0 (mkC0 false HsAck true HsAck) d else d in
  let r := ud_req d in
  if negb (N.land (rq_type r) 96 =? 0) then Ok d
  else match rq_code r with
  | 6 =>
      let len := if UEP0_SIZE <=? ud_len d then UEP0_SIZE else ud_len d in
      let! buf := memcpy (ud_buf d) (ud_descr d) len in
      let c := ud_c0 d in
      Ok (set_c0 (mkC0 (negb (t_tog c)) (t_res c) (r_tog c) (r_res c))
           (set_tx_len len (set_descr (skipn (N.to_nat len) (ud_descr d))
             (set_len (ud_len d - len) (set_buf buf d)))))
  | 5 => Ok (set_address (N.lor (N.land (ud_address d) 128) (st_addr (ud_stat d))) d)
  | _ => Ok d
  end.
(** Lines 357-380: the host took the packet of endpoint [S i]. *)
Definition on_in (i : nat) (d : usbdev) : usbdev :=
  let e := ep_at d i in put_ep i (mkEp (negb (ep_tog e)) HsNak (ep_len e) (ep_buf e) false) d.

(** Lines 386-416: data for endpoint 0, stored by the controller; [tog_ok]: its toggle
    is the expected one. *)
Definition on_out0 (tog_ok : bool) (data : list u8) (d : usbdev) : res usbdev :=
  let! buf := memcpy (ud_buf d) data (N.of_nat (length data)) in
  let d := set_buf buf d in
  let r := ud_req d in
  let d := if tog_ok && (N.land (rq_type r) 96 =? 32) && (rq_code r =? 9)
           then set_len 0 (set_stat (set_leds (byte_at (ud_buf d) 0) (ud_stat d)) d) else d in
  Ok (if ud_len d =? 0 then set_c0 (mkC0 true HsAck false HsAck) (set_tx_len 0 d) else d).

(** Lines 806-815: bus reset. *)
Definition on_reset (d : usbdev) : usbdev :=
  let s := ud_stat d in
  set_eps (map ep_init (ud_eps d)) (set_c0 c0_init (set_address 0
    (set_stat (mkStat 0 0 0 false (st_idle s) (st_proto s) (st_leds s)) d))).
(** Lines 816-829: suspend, or the end of it. *)
Definition on_suspend (asleep : bool) (d : usbdev) : usbdev :=
  let s := ud_stat d in
  set_stat (set_sleep (if asleep then N.lor (st_sleep s) 2 else N.ldiff (st_sleep s) 2) s) d.

(** Lines 168-304 [USBFS_Endp_DataUp] as main.c 77-125 calls it, for endpoint [S i] with a copy;
    not interrupted here (C57 has the interruptions).  The buffers of endpoints 1 to 3
    are for transmission only, without double buffering (lines 86-87). *)
Definition data_up (i : nat) (data : list u8) (d : usbdev) : res usbdev :=
  let e := ep_at d i in
  if ep_busy e then Ok d
  else let! buf := memcpy (ep_buf e) data (N.of_nat (length data)) in
       Ok (put_ep i (mkEp (ep_tog e) HsAck (N.of_nat (length data)) buf true) d).

(** *** Events *)

(** What the controller answers to an IN token. *)
Inductive in_reply := InData (tog : bool) (bytes : list u8) | InNak | InStall.
Definition answer_in (e : nat) (d : usbdev) : in_reply :=
  match e with
  | O => match t_res (ud_c0 d) with
         | HsAck => InData (t_tog (ud_c0 d)) (firstn (N.to_nat (ud_tx_len d)) (ud_buf d))
         | HsNak => InNak
         | HsStall => InStall
         end
  | S i => let ep := ep_at d i in
           match ep_res ep with
           | HsAck => InData (ep_tog ep) (firstn (N.to_nat (ep_len ep)) (ep_buf ep))
           | HsNak => InNak
           | HsStall => InStall
           end
  end.

(** A setup packet; an IN transaction that the host acknowledged; an OUT transaction
    with its toggle; reset; suspend or resume; a report handed over by [main]. *)
Inductive usb_event :=
| UvSetup (p : list u8)
| UvIn (e : nat)
| UvOut (tog : bool) (data : list u8)
| UvReset
| UvSuspend (asleep : bool)
| UvReport (e : nat) (data : list u8).

(** The controller and the handler.  A transaction that the controller answers with
    NAK or STALL does not interrupt. *)
Definition usb_step (ev : usb_event) (d : usbdev) : res usbdev :=
  match ev with
  | UvSetup p => on_setup p d
  | UvIn e => match answer_in e d with
              | InData _ _ => match e with O => on_in0 d | S i => Ok (on_in i d) end
              | _ => Ok d
              end
  | UvOut tog data => match r_res (ud_c0 d) with
                      | HsAck => on_out0 (Bool.eqb tog (r_tog (ud_c0 d))) data d
                      | _ => Ok d
                      end
  | UvReset => Ok (on_reset d)
  | UvSuspend a => Ok (on_suspend a d)
  | UvReport e data => match e with O => Ok d | S i => data_up i data d end
  end.
Definition usb_run (evs : list usb_event) (d : usbdev) : res usbdev := fold_res (fun d ev => usb_step ev d) evs d.
