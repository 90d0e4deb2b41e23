(** Vocabulary of C74: control transfers as the USB and HID specifications describe
    them (USB 2.0, 8.5.3, 8.6, 9.3, 9.4; HID 1.11, 7.1, 7.2). *)
From Verif Require Import Base CUsb.
Import List.
Local Open Scope N_scope.

(** *** Requests *)
Record setup := mkSetup {
  su_in : bool;       (* data go from the device to the host *)
  su_kind : N;        (* 0 standard, 1 class, 2 vendor *)
  su_to : N;          (* 0 device, 1 interface, 2 endpoint *)
  su_request : N;
  su_value : N;
  su_index : N;
  su_length : N       (* how many bytes the host wants or sends *)
}.
Definition well_formed (s : setup) : Prop :=
  su_kind s < 4 /\ su_to s < 32 /\ su_request s < 256 /\ su_value s < 65536 /\ su_index s < 65536 /\ su_length s < 65536.
(** The eight bytes on the wire. *)
Definition packet (s : setup) : list u8 :=
  [(if su_in s then 128 else 0) + 32 * su_kind s + su_to s; su_request s;
   su_value s mod 256; su_value s / 256; su_index s mod 256; su_index s / 256; su_length s mod 256; su_length s / 256].

(** *** Descriptors *)

(** A set of descriptors, each beginning with its length and its type. *)
Fixpoint split_descriptors (fuel : nat) (l : list u8) : list (list u8) :=
  match fuel, l with
  | S f, n :: _ => firstn (N.to_nat n) l :: split_descriptors f (skipn (N.to_nat n) l)
  | _, _ => []
  end.
(** The descriptor behind that of interface [i]. *)
Fixpoint behind_interface (i : N) (ds : list (list u8)) : option (list u8) :=
  match ds with
  | a :: ((b :: _) as r) => if (byte_at a 1 =? 4) && (byte_at a 2 =? i) then Some b else behind_interface i r
  | _ => None
  end.
Definition configuration : list (list u8) := split_descriptors 100 MyCfgDescr.
Definition strings : list (list u8) := [MyLangDescr; MyManuInfo; MyProdInfo; MySerNumInfo].
Definition report_descriptors : list (list u8) := [KeyRepDesc; MouseRepDesc; ConsumerRepDesc].

(** The descriptor of type [t] and number [n]; those of HID are an interface's. *)
Inductive has_descriptor : N -> N -> N -> list u8 -> Prop :=
| hd_device n i : has_descriptor 1 n i MyDevDescr
| hd_configuration n i : has_descriptor 2 n i MyCfgDescr
| hd_string n i b : nth_error strings (N.to_nat n) = Some b -> has_descriptor 3 n i b
| hd_hid n i b : behind_interface i configuration = Some b -> has_descriptor 33 n i b
| hd_report n i b : nth_error report_descriptors (N.to_nat i) = Some b -> has_descriptor 34 n i b.

(** *** What the host has set *)
Record settings := mkSettings {
  se_address : N;
  se_configuration : N;
  se_wakeup : bool;
  se_idle : N -> N;      (* of an interface *)
  se_protocol : N -> N;
  se_leds : N
}.
Definition settings_of (d : usbdev) : settings :=
  mkSettings (ud_address d) (st_config (ud_stat d)) (N.odd (st_sleep (ud_stat d)))
    (fun i => nth (N.to_nat i) (st_idle (ud_stat d)) 0) (fun i => nth (N.to_nat i) (st_proto (ud_stat d)) 0) (st_leds (ud_stat d)).
Definition same_settings (a b : settings) : Prop :=
  se_address a = se_address b /\ se_configuration a = se_configuration b /\ se_wakeup a = se_wakeup b
  /\ (forall i, i < 3 -> se_idle a i = se_idle b i) /\ (forall i, i < 3 -> se_protocol a i = se_protocol b i) /\ se_leds a = se_leds b.
Definition with_address v a := mkSettings v (se_configuration a) (se_wakeup a) (se_idle a) (se_protocol a) (se_leds a).
Definition with_configuration v a := mkSettings (se_address a) v (se_wakeup a) (se_idle a) (se_protocol a) (se_leds a).
Definition with_wakeup v a := mkSettings (se_address a) (se_configuration a) v (se_idle a) (se_protocol a) (se_leds a).
Definition with_idle i v a := mkSettings (se_address a) (se_configuration a) (se_wakeup a) (fun x => if x =? i then v else se_idle a x) (se_protocol a) (se_leds a).
Definition with_protocol i v a := mkSettings (se_address a) (se_configuration a) (se_wakeup a) (se_idle a) (fun x => if x =? i then v else se_protocol a x) (se_leds a).
Definition with_leds v a := mkSettings (se_address a) (se_configuration a) (se_wakeup a) (se_idle a) (se_protocol a) v.
(** An endpoint is halted: it answers with STALL. *)
Definition halted (d : usbdev) (e : nat) : Prop := answer_in e d = InStall.

(** *** What a request asks for *)
Inductive answer :=
| Sends (bytes : list u8)                   (* data for the host, at most as many as it wants *)
| Does (f : settings -> settings)           (* no data *)
| Halts (e : nat) (on : bool)               (* no data *)
| Takes (f : list u8 -> settings -> settings) (* data from the host *)
| Refuses.                                  (* STALL *)

(** A standard request [code] to [to]. *)
Definition standard (s : setup) (inward : bool) (code : N) : Prop := su_kind s = 0 /\ su_in s = inward /\ su_request s = code.
Definition hid (s : setup) (inward : bool) (code : N) : Prop := su_kind s = 1 /\ su_in s = inward /\ su_request s = code.
Definition endpoint_named (s : setup) (e : nat) : Prop := su_to s = 2 /\ (1 <= e <= 3)%nat /\ su_index s mod 256 = 128 + N.of_nat e.

Inductive answers (d : usbdev) (s : setup) : answer -> Prop :=
(* GET_DESCRIPTOR *)
| an_descriptor b : standard s true 6 -> has_descriptor (su_value s / 256) (su_value s mod 256) (su_index s) b -> answers d s (Sends b)
| an_no_descriptor : standard s true 6 -> (forall b, ~ has_descriptor (su_value s / 256) (su_value s mod 256) (su_index s) b) -> answers d s Refuses
(* SET_ADDRESS *)
| an_address : standard s false 5 -> su_length s = 0 -> su_value s < 128 -> answers d s (Does (with_address (su_value s)))
(* GET_CONFIGURATION, SET_CONFIGURATION *)
| an_get_configuration : standard s true 8 -> answers d s (Sends [se_configuration (settings_of d)])
| an_set_configuration : standard s false 9 -> su_length s = 0 -> su_value s < 256 -> answers d s (Does (with_configuration (su_value s)))
(* CLEAR_FEATURE, SET_FEATURE: remote wake-up and endpoint halt *)
| an_wakeup (on : bool) : standard s false (if on then 3 else 1) -> su_to s = 0 -> su_length s = 0 -> su_value s mod 256 = 1 -> answers d s (Does (with_wakeup on))
| an_halt (on : bool) e : standard s false (if on then 3 else 1) -> endpoint_named s e -> su_length s = 0 -> su_value s mod 256 = 0 -> answers d s (Halts e on)
| an_no_feature (on : bool) : standard s false (if on then 3 else 1) -> ~ (su_to s = 0 /\ su_value s mod 256 = 1) ->
    ~ ((exists e, endpoint_named s e) /\ su_value s mod 256 = 0) -> answers d s Refuses
(* GET_INTERFACE, SET_INTERFACE: no interface has alternate settings *)
| an_get_interface : standard s true 10 -> answers d s (Sends [0])
| an_set_interface : standard s false 11 -> su_length s = 0 -> answers d s (Does (fun x => x))
(* GET_STATUS of the device and of an endpoint *)
| an_status : standard s true 0 -> su_to s = 0 -> answers d s (Sends [if se_wakeup (settings_of d) then 2 else 0; 0])
| an_halted e : standard s true 0 -> endpoint_named s e -> halted d e -> answers d s (Sends [1; 0])
| an_not_halted e : standard s true 0 -> endpoint_named s e -> ~ halted d e -> answers d s (Sends [0; 0])
(* any other standard request *)
| an_not_standard : su_kind s = 0 -> ~ In (su_request s) [0; 1; 3; 5; 6; 8; 9; 10; 11] -> answers d s Refuses
(* SET_IDLE, GET_IDLE, SET_PROTOCOL, GET_PROTOCOL of an interface; one byte is asked for *)
| an_set_idle : hid s false 10 -> su_index s < 3 -> su_length s = 0 -> answers d s (Does (with_idle (su_index s) (su_value s / 256)))
| an_get_idle : hid s true 2 -> su_index s < 3 -> su_length s <= 1 -> answers d s (Sends [se_idle (settings_of d) (su_index s)])
| an_set_protocol : hid s false 11 -> su_index s < 3 -> su_length s = 0 -> answers d s (Does (with_protocol (su_index s) (su_value s mod 256)))
| an_get_protocol : hid s true 3 -> su_index s < 3 -> su_length s <= 1 -> answers d s (Sends [se_protocol (settings_of d) (su_index s)])
| an_no_interface : su_kind s = 1 -> In (su_request s) [2; 3; 10; 11] -> 3 <= su_index s -> answers d s Refuses
(* SET_REPORT: the keyboard's LEDs *)
| an_leds : hid s false 9 -> 1 <= su_length s <= 64 -> answers d s (Takes (fun data => with_leds (hd 0 data)))
(* any other class request *)
| an_not_hid : su_kind s = 1 -> ~ In (su_request s) [2; 3; 9; 10; 11] -> answers d s Refuses.

(** *** The host *)

(** Things that go on beside a control transfer: polls of the other endpoints, reports
    for them, suspending. *)
Definition aside (ev : usb_event) : Prop :=
  match ev with UvIn (S _) | UvSuspend _ | UvReport _ _ => True | _ => False end.

(** The host reads data in packets of at most 64 bytes, alternating between DATA1 and
    DATA0.  It takes a packet with the toggle it expects and drops any other one as a
    repetition; it is done when it has all it wants, or with a packet that is not full. *)
Record reading := mkReading { rd_tog : bool; rd_got : list u8; rd_done : bool }.
Definition start_reading : reading := mkReading true [] false.
Definition take_packet (want : N) (tog : bool) (bytes : list u8) (r : reading) : reading :=
  if Bool.eqb tog (rd_tog r)
  then let got := rd_got r ++ bytes in
       mkReading (negb tog) got ((length bytes <? 64)%nat || (want <=? N.of_nat (length got)))
  else r.
(** A packet and its acknowledgement arrive; or the acknowledgement is lost, and the
    device does not know; or something happens beside.  (A lost packet changes
    nothing.) *)
Inductive read_step (want : N) : usbdev * reading -> usbdev * reading -> Prop :=
| rs_packet d r tog b d' : rd_done r = false -> answer_in 0 d = InData tog b -> usb_step (UvIn 0) d = Ok d' ->
    read_step want (d, r) (d', take_packet want tog b r)
| rs_unacknowledged d r tog b : rd_done r = false -> answer_in 0 d = InData tog b ->
    read_step want (d, r) (d, take_packet want tog b r)
| rs_beside d r ev d' : aside ev -> usb_step ev d = Ok d' -> read_step want (d, r) (d', r).
Inductive read_steps (want : N) : usbdev * reading -> usbdev * reading -> Prop :=
| rss_refl x : read_steps want x x
| rss_step x y z : read_steps want x y -> read_step want y z -> read_steps want x z.

(** The host reads on, undisturbed, up to [n] packets. *)
Fixpoint read_on (want : N) (n : nat) (d : usbdev) (r : reading) : option reading :=
  if rd_done r then Some r
  else match n with
       | O => None
       | S n => match answer_in 0 d, usb_step (UvIn 0) d with
                | InData tog b, Ok d' => read_on want n d' (take_packet want tog b r)
                | _, _ => None
                end
       end.

(** The device takes OUT packets; it answers them with STALL. *)
Definition takes_out (d : usbdev) : Prop := r_res (ud_c0 d) = HsAck.
Definition stalls_out (d : usbdev) : Prop := r_res (ud_c0 d) = HsStall.
(** The answer that ends a transfer without data: an empty DATA1. *)
Definition handshake (d : usbdev) : Prop := answer_in 0 d = InData true [].

(** Histories: eight bytes per setup packet and at most 64 per data packet; the
    firmware's reports fit their endpoints.  GET_DESCRIPTOR asks for data, and addresses
    are below 128. *)
Definition proper_event (ev : usb_event) : Prop :=
  match ev with
  | UvSetup p => exists s, well_formed s /\ p = packet s /\ (su_kind s = 0 -> su_request s = 6 -> su_in s = true)
      /\ (su_kind s = 0 -> su_request s = 5 -> su_value s < 128)
  | UvOut _ data => (length data <= 64)%nat
  | UvReport e data => (e <= 3)%nat /\ (length data <= 64)%nat
  | UvIn e => (e <= 3)%nat
  | _ => True
  end.
Definition reachable (d : usbdev) : Prop := exists evs, Forall proper_event evs /\ usb_run evs usb_init = Ok d.

(** The endpoint sends the reports it is given. *)
Definition accepts_reports (d : usbdev) (e : nat) : Prop :=
  forall data, (length data <= 64)%nat -> exists d' t, usb_step (UvReport e data) d = Ok d' /\ answer_in e d' = InData t data.
