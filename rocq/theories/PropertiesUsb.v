(** C74: the control endpoint of the USB firmware in C.  Whatever the host asks, and
    however the transfer goes, it gets the bytes of the descriptor or the setting it
    asked for; what it sets is set when the transfer ends; what the device does not know
    it refuses; and no history of requests makes it read or write outside its arrays. *)
From Verif Require Import Base BaseFacts CUsb SpecUsb UsbFacts.
Import List.
Local Open Scope N_scope.

Local Ltac mid_of R := let X := fresh in pose proof (reachable_fine _ R) as X; apply fine_iff in X as [? _].

(** No array is left, after any history of requests, data, reports and resets. *)
Theorem C74_never_out_of_bounds evs : Forall proper_event evs -> exists d, usb_run evs usb_init = Ok d.
Proof. intros P. destruct (run_fine evs _ init_fine P) as (d & E & _). eauto. Qed.

(** Data from the device.  At every point of the transfer, whatever was lost on the way
    and whatever happened beside it, what the host has got is the beginning of what it
    asked for; when it stops it has all of it; and until then reading on gets it all. *)
Theorem C74_reads d s b : reachable d -> well_formed s -> answers d s (Sends b) ->
  let wanted := firstn (N.to_nat (su_length s)) b in
  exists d0, usb_step (UvSetup (packet s)) d = Ok d0 /\
  (su_length s = 0 -> handshake d0 /\ takes_out d0) /\
  forall d1 r, 0 < su_length s -> read_steps (su_length s) (d0, start_reading) (d1, r) ->
    (exists rest, wanted = rd_got r ++ rest) /\
    (rd_done r = true -> rd_got r = wanted /\ takes_out d1) /\
    (rd_done r = false -> (exists t p, answer_in 0 d1 = InData t p) /\ exists r', read_on (su_length s) (S (length b)) d1 r = Some r' /\ rd_got r' = wanted) /\
    settings_of d1 = settings_of d.
Proof.
  intros R W A wanted. mid_of R. destruct (sends_setup s d W H b A) as (d0 & E & Nb & Sv & Hs & Es & Q). exists d0. split; [exact E|].
  fold wanted in Sv. split.
  { intros Z. pose proof (serving_answer _ _ _ _ Sv) as X. destruct (sv_c0 _ _ _ _ Sv) as (rt & Ec). unfold handshake, takes_out. rewrite Ec, X. unfold wanted. rewrite Z. split; reflexivity. }
  intros d1 r Lw St.
  assert (F0 : fine d0).
  { destruct (step_fine (UvSetup (packet s)) d (reachable_fine _ R)) as (x & Ex & Fx); [|cbn [usb_step] in Ex; congruence]. exists s. split; [exact W|]. split; [reflexivity|].
    remember (Sends b) as a. destruct A as [? K ?|K ?|K ? ?|K|K ? ?|? K ? ? ?|? ? K ? ? ?|? K ? ?|K|K ?|K ?|? K ? ?|? K ? ?|K ?|K ? ?|K ? ?|K ? ?|K ? ?|K ? ?|K ?|K ?]; try discriminate Heqa; destruct K as (K1 & K2 & K3); split; congruence. }
  assert (Lwant : length wanted = Nat.min (N.to_nat (su_length s)) (length b)) by apply firstn_length.
  assert (Hw : N.of_nat (length wanted) <= su_length s) by lia.
  assert (Hshort : N.of_nat (length wanted) < su_length s -> (length wanted mod 64 <> 0)%nat).
  { intros Z. assert (El : length wanted = length b) by lia. rewrite El. apply Hs. lia. }
  assert (Lb : (0 < length b)%nat) by (destruct b; [congruence|cbn; lia]).
  assert (R0 : reading_ok wanted (d0, start_reading)).
  { right. split; [reflexivity|]. exists 0%nat, true. split; [reflexivity|]. split; [lia|]. split; [exact Sv|]. left. auto. }
  pose proof (reading_steps (su_length s) wanted Hw Hshort _ _ R0 St) as R1.
  destruct (read_steps_quiet _ _ _ St F0 Q) as (F1 & E1 & _). cbn [fst] in F1, E1.
  split; [apply (reading_prefix wanted d1 r R1)|]. split.
  { intros Dn. destruct R1 as [(_ & G & T)|(X & _)]; [auto|congruence]. }
  split; [|congruence]. intros Dn. apply (read_on_ok (su_length s) wanted Hw Hshort (length b) d1 r); auto. lia.
Qed.

(** Requests without data: the device reports success, and the setting is made when the
    host has seen that; its address changes only then. *)
Theorem C74_does d s f : reachable d -> well_formed s -> answers d s (Does f) ->
  exists d0, usb_step (UvSetup (packet s)) d = Ok d0 /\
  forall evs d1, Forall aside evs -> usb_run evs d0 = Ok d1 ->
    handshake d1 /\ takes_out d1 /\ ud_address d1 = ud_address d /\
    exists d2, usb_step (UvIn 0) d1 = Ok d2 /\ same_settings (settings_of d2) (f (settings_of d)).
Proof.
  intros R W A. mid_of R. destruct (does_setup s d W H f A) as (d0 & E & Sh & N6 & Ea & H5 & Hn). exists d0. split; [exact E|].
  intros evs d1 As Ru. destruct (asides_frame evs d0 d1 As Ru) as (S0 & Es & Est & _). pose proof (shaking_same _ _ S0 Sh) as Sh1.
  destruct (shaking_handshake d1 Sh1) as (Hh & Ht). split; [exact Hh|]. split; [exact Ht|].
  pose proof (f_equal se_address Es) as Ead. cbn [settings_of se_address] in Ead. split; [congruence|].
  destruct S0 as (_ & _ & Er & _). assert (Std : forall k, standard_now d1 k <-> standard_now d0 k) by (intros k; unfold standard_now; now rewrite Er).
  assert (Sa : st_addr (ud_stat d0) < 128).
  { destruct (step_fine (UvSetup (packet s)) d (reachable_fine _ R)) as (x & Ex & Fx); [|cbn [usb_step] in Ex; rewrite E in Ex; injection Ex as <-; apply (fi_addr _ Fx)]. exists s. split; [exact W|]. split; [reflexivity|].
    remember (Does f) as a. destruct A as [? K ?|K ?|K ? ?|K|K ? ?|on K ? ? ?|? ? K ? ? ?|? K ? ?|K|K ?|K ?|? K ? ?|? K ? ?|K ?|K ? ?|K ? ?|K ? ?|K ? ?|K ? ?|K ?|K ?]; try discriminate Heqa; destruct K as (K1 & K2 & K3); try destruct on; split; intros; try congruence; assumption. }
  destruct (shake_end d1 Sh1) as (d2 & E2 & X5 & Xn); [rewrite Std; exact N6|rewrite Ead, Ea; apply (mi_addr _ H)|congruence|]. exists d2. split; [exact E2|].
  assert (Dec : standard_now d0 5 \/ ~ standard_now d0 5). { unfold standard_now. destruct (N.eq_dec (N.land (rq_type (ud_req d0)) 96) 0), (N.eq_dec (rq_code (ud_req d0)) 5); tauto. }
  destruct Dec as [D|D].
  - rewrite X5 by now rewrite Std. rewrite Est, Es. auto.
  - rewrite Xn by now rewrite Std. rewrite Es. auto.
Qed.

(** Halting an endpoint and ending it: only that endpoint changes, and no setting. *)
Theorem C74_halts d s e on : reachable d -> well_formed s -> answers d s (Halts e on) ->
  exists d0, usb_step (UvSetup (packet s)) d = Ok d0 /\ (halted d0 e <-> on = true) /\
  (forall x, x <> e -> x <> 0%nat -> answer_in x d0 = answer_in x d) /\ settings_of d0 = settings_of d /\
  forall evs d1, Forall aside evs -> usb_run evs d0 = Ok d1 ->
    handshake d1 /\ exists d2, usb_step (UvIn 0) d1 = Ok d2 /\ settings_of d2 = settings_of d.
Proof.
  intros R W A. mid_of R. destruct (halts_setup s d W H e on A) as (d0 & E & Sh & N6 & N5 & Es & i & -> & Li & Ee). exists d0. split; [exact E|].
  pose proof (mi_eps _ H) as Le. assert (Ei : forall j, ep_at d0 j = if (j =? i)%nat then marked d i on else ep_at d j).
  { intros j. unfold ep_at. rewrite Ee. apply nth_set_nth. lia. }
  split. { unfold halted. cbn [answer_in]. rewrite Ei, Nat.eqb_refl. destruct on; cbn; split; congruence. }
  split. { intros [|j] Nx N0; [congruence|]. cbn [answer_in]. rewrite Ei. destruct (Nat.eqb_spec j i); [congruence|reflexivity]. }
  split; [exact Es|]. intros evs d1 As Ru. destruct (asides_frame evs d0 d1 As Ru) as (S0 & Es1 & Est & _). pose proof (shaking_same _ _ S0 Sh) as Sh1.
  destruct (shaking_handshake d1 Sh1) as (Hh & _). split; [exact Hh|]. destruct S0 as (_ & _ & Er & _). assert (Std : forall k, standard_now d1 k <-> standard_now d0 k) by (intros k; unfold standard_now; now rewrite Er).
  assert (N5' : ~ standard_now d1 5) by (rewrite Std; exact N5).
  assert (X : exists d2, usb_step (UvIn 0) d1 = Ok d2).
  { unfold usb_step. unfold handshake in Hh. rewrite Hh. destruct (in0_shape d1) as [(K & C & _)|[(_ & _ & ->)|(_ & ->)]]; [|eauto|eauto]. exfalso. apply N6. rewrite <- Std. now split. }
  destruct X as (d2 & E2). exists d2. split; [exact E2|]. destruct (in0_quiet d1 d2 N5' E2) as (Z & _). congruence.
Qed.
(** An endpoint stays halted until the host ends it, resets the bus, or the firmware hands it a report. *)
Theorem C74_stays_halted d e ev d' : reachable d -> halted d e -> (1 <= e <= 3)%nat -> proper_event ev -> usb_step ev d = Ok d' ->
  ev <> UvReset -> (forall data, ev <> UvReport e data) ->
  (forall s, ev = UvSetup (packet s) -> ~ (su_kind s = 0 /\ su_request s = 1 /\ endpoint_named s e)) ->
  halted d' e.
Proof.
  intros R Hh Le P E Nr Np Ns. destruct e as [|i]; [lia|]. pose proof (reachable_fine _ R) as F. unfold halted in *.
  destruct (step_ep ev d d' i F P ltac:(lia) E) as [X|[(s & on & -> & K & C & T & X)|[(_ & t & b & X)|[X|(data & X & _)]]]].
  - cbn [answer_in] in *. now rewrite X.
  - destruct on; [|exfalso; eapply Ns; eauto]. cbn [answer_in]. rewrite X. reflexivity.
  - congruence.
  - congruence.
  - exfalso. eapply Np, X.
Qed.
(** When a halt is ended, an endpoint that takes reports sends the next one as DATA0. *)
Theorem C74_halt_ended d s e : reachable d -> well_formed s -> answers d s (Halts e false) -> accepts_reports d e ->
  exists d0, usb_step (UvSetup (packet s)) d = Ok d0 /\
  forall data, (length data <= 64)%nat -> exists d1, usb_step (UvReport e data) d0 = Ok d1 /\ answer_in e d1 = InData false data.
Proof.
  intros R W A Acc. mid_of R. destruct (halts_setup s d W H e false A) as (d0 & E & _ & _ & _ & _ & i & -> & Li & Ee). exists d0. split; [exact E|].
  pose proof (mi_eps _ H) as Le. apply (accepts_free d i (reachable_fine _ R) Li) in Acc.
  assert (Ei : ep_at d0 i = marked d i false). { unfold ep_at. rewrite Ee, nth_set_nth, Nat.eqb_refl by lia. reflexivity. }
  assert (Le0 : length (ud_eps d0) = 3%nat) by (rewrite Ee, set_nth_length; exact Le).
  intros data Ld. cbn [usb_step]. unfold data_up. rewrite Ei. cbn [marked ep_busy ep_buf ep_tog]. rewrite Acc.
  assert (Lb : length (ep_buf (ep_at d i)) = 64%nat) by (destruct (ep_buf_at d i H); [assumption|lia]). rewrite memcpy_ok; [|rewrite Lb; lia|lia]. cbn [bind]. eexists. split; [reflexivity|].
  cbn [answer_in]. rewrite ep_at_put, Nat.eqb_refl by lia. cbn [ep_res ep_tog ep_len ep_buf]. f_equal. rewrite Nnat.Nat2N.id, firstn_all. apply firstn_app_exact. reflexivity.
Qed.
(** But if a report waits there when the host ends a halt, that report is lost and the
    endpoint never sends another one, until the bus is reset. *)
Theorem C74_halt_ended_loses_endpoint d s e t b : reachable d -> well_formed s -> answers d s (Halts e false) -> answer_in e d = InData t b ->
  forall evs d', Forall proper_event evs -> ~ In UvReset evs -> usb_run (UvSetup (packet s) :: evs) d = Ok d' ->
  forall t' b', answer_in e d' <> InData t' b'.
Proof.
  intros R W A Hd evs d' P Nr Ru. mid_of R. destruct (halts_setup s d W H e false A) as (d0 & E & _ & _ & _ & _ & i & -> & Li & Ee).
  pose proof (mi_eps _ H) as Le. destruct (run_cons _ _ _ _ Ru) as (d0' & E' & Ru'). cbn [usb_step] in E'. rewrite E in E'. injection E' as <-.
  assert (Ei : ep_at d0 i = marked d i false). { unfold ep_at. rewrite Ee, nth_set_nth, Nat.eqb_refl by lia. reflexivity. }
  assert (Hbusy : ep_busy (ep_at d i) = true).
  { pose proof (mi_ep _ H) as Fe. rewrite Forall_forall in Fe. apply (Fe (ep_at d i)); [apply nth_In; lia|]. cbn [answer_in] in Hd. destruct (ep_res (ep_at d i)); [reflexivity|discriminate Hd|discriminate Hd]. }
  assert (F0 : fine d0).
  { destruct (step_fine (UvSetup (packet s)) d (reachable_fine _ R)) as (x & Ex & Fx); [|cbn [usb_step] in Ex; congruence]. exists s. split; [exact W|]. split; [reflexivity|].
    remember (Halts (S i) false) as a. destruct A as [? K ?|K ?|K ? ?|K|K ? ?|on K ? ? ?|on ? K ? ? ?|? K ? ?|K|K ?|K ?|? K ? ?|? K ? ?|K ?|K ? ?|K ? ?|K ? ?|K ? ?|K ? ?|K ?|K ?]; try discriminate Heqa; destruct K as (K1 & K2 & K3); injection Heqa as ? ->; split; congruence. }
  assert (Inv : ep_res (ep_at d0 i) <> HsAck /\ ep_busy (ep_at d0 i) = true) by (rewrite Ei; cbn; split; [discriminate|exact Hbusy]).
  clear - P Nr Ru' F0 Inv Li. revert d0 F0 Inv Ru'. induction evs as [|ev evs IH]; intros d F (I1 & I2) Ru.
  - apply run_nil in Ru. subst. intros t' b'. cbn [answer_in]. destruct (ep_res (ep_at d i)); congruence.
  - inversion P; subst. destruct (run_cons _ _ _ _ Ru) as (d1 & E & Ru'). destruct (step_fine ev d F) as (x & Ex & Fx); [assumption|]. rewrite E in Ex. injection Ex as <-.
    apply (IH ltac:(assumption) ltac:(intros X; apply Nr; now right) d1 Fx); [|exact Ru'].
    destruct (step_ep ev d d1 i F ltac:(assumption) Li E) as [X|[(s & on & _ & _ & _ & _ & X)|[(_ & t & b & X)|[X|(data & _ & X)]]]].
    + now rewrite X.
    + rewrite X. cbn. split; [destruct on; discriminate|exact I2].
    + exfalso. cbn [answer_in] in X. destruct (ep_res (ep_at d i)); congruence.
    + exfalso. apply Nr. left. auto.
    + congruence.
Qed.

(** Data for the device: SET_REPORT sets the keyboard's LEDs, and a packet that the host
    sends again changes nothing. *)
Theorem C74_takes d s f data : reachable d -> well_formed s -> answers d s (Takes f) -> N.of_nat (length data) = su_length s ->
  exists d0, usb_step (UvSetup (packet s)) d = Ok d0 /\
  forall evs d1, Forall aside evs -> usb_run evs d0 = Ok d1 -> takes_out d1 /\
  exists d2, usb_step (UvOut true data) d1 = Ok d2 /\
  forall evs' d3, Forall (fun ev => aside ev \/ ev = UvOut true data) evs' -> usb_run evs' d2 = Ok d3 ->
    handshake d3 /\ same_settings (settings_of d3) (f data (settings_of d)) /\
    exists d4, usb_step (UvIn 0) d3 = Ok d4 /\ settings_of d4 = settings_of d3.
Proof.
  intros R W A Ld. mid_of R. destruct (takes_setup s d W H f A) as (d0 & E & Hh & Es & -> & Lw). exists d0. split; [exact E|].
  assert (F0 : fine d0).
  { destruct (step_fine (UvSetup (packet s)) d (reachable_fine _ R)) as (x & Ex & Fx); [|cbn [usb_step] in Ex; congruence]. exists s. split; [exact W|]. split; [reflexivity|].
    remember (Takes (fun data => with_leds (hd 0 data))) as a. destruct A as [? K ?|K ?|K ? ?|K|K ? ?|on K ? ? ?|on ? K ? ? ?|? K ? ?|K|K ?|K ?|? K ? ?|? K ? ?|K ?|K ? ?|K ? ?|K ? ?|K ? ?|K ? ?|K ?|K ?]; try discriminate Heqa; destruct K as (K1 & K2 & K3); split; congruence. }
  intros evs d1 As Ru. destruct (asides_frame evs d0 d1 As Ru) as ((_ & _ & Er & _ & _ & Ec) & Es1 & _ & F1). specialize (F1 F0).
  destruct Hh as ((t & Hc) & Hk & Hcode). rewrite <- Er in Hk, Hcode. rewrite <- Ec in Hc. split; [unfold takes_out; now rewrite Hc|].
  apply fine_iff in F1 as (M1 & _).
  assert (Out : forall x, mid x -> r_res (ud_c0 x) = HsAck -> exists b, length b = 64%nat /\ hd 0 b = hd 0 data /\
            usb_step (UvOut true data) x = Ok (let x' := set_buf b x in let x' := if r_tog (ud_c0 x) && (N.land (rq_type (ud_req x)) 96 =? 32) && (rq_code (ud_req x) =? 9) then set_len 0 (set_stat (set_leds (hd 0 data) (ud_stat x)) x') else x' in
                if ud_len x' =? 0 then set_c0 (mkC0 true HsAck false HsAck) (set_tx_len 0 x') else x')).
  { intros x Mx Rx. exists (firstn (length data) data ++ skipn (length data) (ud_buf x)). pose proof (mi_buf _ Mx) as Lx.
    assert (Hl : length (firstn (length data) data ++ skipn (length data) (ud_buf x)) = 64%nat) by (rewrite app_length, firstn_length, skipn_length, Lx; lia). split; [exact Hl|].
    assert (Hd : hd 0 (firstn (length data) data ++ skipn (length data) (ud_buf x)) = hd 0 data) by (destruct data; [cbn in Ld; lia|reflexivity]). split; [exact Hd|].
    cbn [usb_step]. rewrite Rx. unfold on_out0. rewrite memcpy_ok; [|rewrite Lx; lia|lia]. rewrite Nnat.Nat2N.id. cbn [bind].
    assert (Hb : byte_at (firstn (length data) data ++ skipn (length data) (ud_buf x)) 0 = hd 0 data) by (destruct data; [cbn in Ld; lia|reflexivity]).
    assert (Ht : Bool.eqb true (r_tog (ud_c0 x)) = r_tog (ud_c0 x)) by (destruct (r_tog (ud_c0 x)); reflexivity). rewrite Ht.
    cbn [set_buf ud_req ud_buf ud_stat]. rewrite Hb. reflexivity. }
  destruct (Out d1 M1) as (b & Lb & Hb & E2); [now rewrite Hc|]. rewrite Hc, Hk, Hcode in E2. cbn [r_tog N.eqb Pos.eqb andb set_len set_stat set_buf ud_len] in E2. eexists. split; [exact E2|]. clear E2.
  set (d2 := set_c0 _ _).
  assert (Inv2 : mid d2 /\ shaking d2 /\ ud_req d2 = ud_req d1 /\ same_settings (settings_of d2) (with_leds (hd 0 data) (settings_of d))).
  { split; [|split; [|split]].
    - apply set_c0_mid, set_tx_mid, set_len_mid, set_stat_mid; cbn [set_leds st_idle st_proto st_addr]; try (apply (mi_idle _ M1) || apply (mi_proto _ M1) || apply (mi_addr _ M1)). now apply set_buf_mid.
    - repeat split.
    - reflexivity.
    - rewrite <- Es, <- Es1. repeat split. }
  clearbody d2. intros evs'. revert d2 Inv2. induction evs' as [|ev evs' IH]; intros d2 (M2 & Sh & Rq & Ss) d3 As' Ru'.
  - apply run_nil in Ru'. subst d3. destruct (shaking_handshake d2 Sh) as (Hs2 & _). split; [exact Hs2|]. split; [exact Ss|]. unfold usb_step. unfold handshake in Hs2. rewrite Hs2.
    assert (N : ~ standard_now d2 5) by (intros (X & _); rewrite Rq, Hk in X; discriminate X).
    destruct (in0_shape d2) as [(X & _)|[(X & _)|(_ & X)]]; [rewrite Rq, Hk in X; discriminate X|rewrite Rq, Hk in X; discriminate X|]. rewrite X. eexists. split; [reflexivity|].
    apply (in0_quiet d2 _ N). unfold usb_step. now rewrite Hs2.
  - inversion As' as [|? ? Hev As'']; subst. destruct (run_cons _ _ _ _ Ru') as (d2' & E2 & Ru''). apply (IH d2'); [|assumption|assumption]. destruct Hev as [Ha| ->].
    + destruct (aside_frame _ _ _ Ha E2) as (S0 & Es2 & _). split; [|split; [|split]].
      * assert (F2 : fine d2) by (apply fine_iff; split; [exact M2|intros X; rewrite Rq, Hk in X; discriminate X]). apply fine_iff. eapply aside_fine; eassumption.
      * eapply shaking_same; eassumption.
      * destruct S0 as (_ & _ & X & _). congruence.
      * now rewrite Es2.
    + pose proof Sh as (Sc & Stx & Sl). destruct (Out d2 M2) as (b' & Lb' & _ & E3); [now rewrite Sc|]. rewrite Sc in E3. cbn [r_tog andb set_buf ud_len] in E3. rewrite Sl in E3. change (0 =? 0) with true in E3. cbv iota zeta in E3.
      rewrite E2 in E3. injection E3 as ->. split; [|split; [|split]].
      * apply set_c0_mid, set_tx_mid. now apply set_buf_mid.
      * repeat split. exact Sl.
      * exact Rq.
      * exact Ss.
Qed.

(** A request the device does not serve is answered with STALL, for data in either
    direction, until the next request; nothing is set. *)
Theorem C74_refuses d s : reachable d -> well_formed s -> answers d s Refuses ->
  exists d0, usb_step (UvSetup (packet s)) d = Ok d0 /\
  forall evs d1, Forall (fun ev => aside ev \/ ev = UvIn 0 \/ exists t data, ev = UvOut t data) evs -> usb_run evs d0 = Ok d1 ->
    answer_in 0 d1 = InStall /\ stalls_out d1 /\ settings_of d1 = settings_of d.
Proof.
  intros R W A. mid_of R. destruct (refuses_setup s d W H A) as (d0 & E & Rf). exists d0. split; [exact E|]. clear E.
  intros evs. revert d0 Rf. induction evs as [|ev evs IH]; intros d0 (Rc & Rs) d1 As Ru.
  - apply run_nil in Ru. subst d1. unfold stalls_out. cbn [answer_in]. rewrite Rc. auto.
  - inversion As as [|? ? Hev As']; subst. destruct (run_cons _ _ _ _ Ru) as (d0' & E & Ru'). apply (IH d0'); [|assumption|assumption]. destruct Hev as [Ha|[->|(t & data & ->)]].
    + destruct (aside_frame _ _ _ Ha E) as ((_ & _ & _ & _ & _ & X) & Y & _). split; congruence.
    + cbn [usb_step answer_in] in E. rewrite Rc in E. cbn in E. injection E as <-. now split.
    + cbn [usb_step] in E. rewrite Rc in E. cbn in E. injection E as <-. now split.
Qed.

(** A bus reset: address and configuration are 0, remote wake-up is off, no endpoint is
    halted and each takes reports again; the LEDs, idle rates and protocols stay. *)
Theorem C74_reset d : reachable d -> exists d', usb_step UvReset d = Ok d' /\
  same_settings (settings_of d') (with_address 0 (with_configuration 0 (with_wakeup false (settings_of d)))) /\
  forall e, (1 <= e <= 3)%nat -> answer_in e d' = InNak /\ accepts_reports d' e.
Proof.
  intros R. pose proof (reachable_fine _ R) as F. pose proof (fi_eps _ F) as Le. destruct (step_fine UvReset d F) as (d' & E & F'); [exact Logic.I|]. exists d'. split; [exact E|].
  cbn [usb_step] in E. injection E as <-. split; [repeat split|]. intros [|i] L; [lia|]. rewrite accepts_free by (assumption || lia).
  cbn [answer_in]. unfold ep_at. cbn [on_reset set_eps ud_eps]. rewrite (nth_indep _ no_ep (ep_init no_ep)) by (rewrite map_length; lia). rewrite map_nth. split; reflexivity.
Qed.

(** The configuration descriptor agrees with what it describes: its total length, the
    number of its interfaces, and, for each interface, the HID descriptor behind it with
    the length of that interface's report descriptor; each interface has an IN endpoint
    of its own. *)
Theorem C74_configuration_consistent :
  concat configuration = MyCfgDescr
  /\ byte_at MyCfgDescr 2 + 256 * byte_at MyCfgDescr 3 = N.of_nat (length MyCfgDescr)
  /\ byte_at MyCfgDescr 4 = N.of_nat (length (filter (fun x => byte_at x 1 =? 4) configuration))
  /\ (forall i r, nth_error report_descriptors (N.to_nat i) = Some r ->
        exists h, behind_interface i configuration = Some h /\ byte_at h 1 = 33 /\ byte_at h 6 = 34
                  /\ byte_at h 7 + 256 * byte_at h 8 = N.of_nat (length r))
  /\ map (fun x => byte_at x 2) (filter (fun x => byte_at x 1 =? 5) configuration) = [129; 130; 131]
  /\ byte_at MyDevDescr 7 = 64 /\ byte_at MyDevDescr 0 = N.of_nat (length MyDevDescr).
Proof.
  split; [vm_compute; reflexivity|]. split; [vm_compute; reflexivity|]. split; [vm_compute; reflexivity|]. split; [|vm_compute; auto].
  intros i r. assert (X : i = 0 \/ i = 1 \/ i = 2 \/ 3 <= i) by lia. destruct X as [->|[->|[->|X]]].
  - intros E. vm_compute in E. injection E as <-. eexists. split; [vm_compute; reflexivity|]. vm_compute. auto.
  - intros E. vm_compute in E. injection E as <-. eexists. split; [vm_compute; reflexivity|]. vm_compute. auto.
  - intros E. vm_compute in E. injection E as <-. eexists. split; [vm_compute; reflexivity|]. vm_compute. auto.
  - intros E. assert (Z : nth_error report_descriptors (N.to_nat i) <> None) by congruence. apply nth_error_Some in Z. cbn in Z. lia.
Qed.

(** *** What does not hold *)

(** A vendor request is not refused: the device returns what lies in its buffer, here the
    host's own request. *)
Definition vendor : setup := mkSetup true 2 0 7 513 1027 8.
Lemma vendor_run : returns (usb_run [UvSetup (packet vendor)] usb_init) (fun d => answer_in 0 d = InData true (packet vendor)).
Proof. vm_compute. reflexivity. Qed.
Theorem C74_vendor_requests_refuted : exists d s, reachable d /\ well_formed s /\ su_kind s = 2 /\
  returns (usb_step (UvSetup (packet s)) d) (fun d' => answer_in 0 d' = InData true (packet s)).
Proof. exists usb_init, vendor. split; [exists []; split; [constructor|reflexivity]|]. split; [repeat split|]. split; [reflexivity|]. exact vendor_run. Qed.

(** GET_IDLE of more than one byte returns bytes that are not the idle rate. *)
Definition idle2 : setup := mkSetup true 1 1 2 0 0 2.
Lemma idle2_run : returns (usb_run [UvSetup (packet idle2)] usb_init) (fun d => answer_in 0 d = InData true [0; 2]).
Proof. vm_compute. reflexivity. Qed.
Theorem C74_get_idle_length_refuted : exists d s, reachable d /\ well_formed s /\ hid s true 2 /\ su_index s = 0 /\
  returns (usb_step (UvSetup (packet s)) d) (fun d' => exists x, answer_in 0 d' = InData true [se_idle (settings_of d) 0; x]).
Proof. exists usb_init, idle2. split; [exists []; split; [constructor|reflexivity]|]. split; [repeat split|]. split; [repeat split|]. split; [reflexivity|]. exists 2. reflexivity. Qed.

(** GET_DESCRIPTOR sent as a request with data for the device makes it read beyond the
    descriptor. *)
Definition backward : setup := mkSetup false 0 0 6 256 0 18.
Theorem C74_unrestricted_histories_refuted : exists s, well_formed s /\ usb_run [UvSetup (packet s); UvIn 0] usb_init = Panic.
Proof. exists backward. split; [repeat split|]. vm_compute. reflexivity. Qed.

(** A halt does not last: the next report from the firmware ends it. *)
Definition feature (on : bool) (e : N) : setup := mkSetup false 0 2 (if on then 3 else 1) 0 (128 + e) 0.
Lemma unhalt_run : returns (usb_run [UvSetup (packet (feature true 1)); UvIn 0] usb_init)
  (fun d => answer_in 1 d = InStall /\ returns (usb_step (UvReport 1 [0; 0; 4; 0; 0; 0; 0; 0]) d) (fun d' => answer_in 1 d' = InData false [0; 0; 4; 0; 0; 0; 0; 0])).
Proof. vm_compute. split; reflexivity. Qed.
Theorem C74_halt_lasts_refuted : exists d e data, reachable d /\ halted d e /\ returns (usb_step (UvReport e data) d) (fun d' => answer_in e d' = InData false data).
Proof.
  pose proof unhalt_run as X. destruct (usb_run [UvSetup (packet (feature true 1)); UvIn 0] usb_init) as [d| |] eqn:E; try contradiction X. cbn [returns] in X. destruct X as (X & Y).
  exists d, 1%nat, [0; 0; 4; 0; 0; 0; 0; 0]. split; [|split; [exact X|exact Y]]. exists [UvSetup (packet (feature true 1)); UvIn 0]. split; [|exact E].
  constructor; [|constructor; [|constructor]]; [|cbn; lia]. exists (feature true 1). repeat split; intros; discriminate.
Qed.

(** *** Examples *)
Lemma init_reachable : reachable usb_init.
Proof. exists []. split; [constructor|reflexivity]. Qed.

(** The host reads the configuration descriptor, 84 bytes, in two packets; it wants 255
    bytes.  The acknowledgement of the first packet is lost, so it comes twice, and a key
    is pressed in between. *)
Definition ask (n : N) : setup := mkSetup true 0 0 6 512 0 n.
Example C74_example_answers : well_formed (ask 255) /\ answers usb_init (ask 255) (Sends MyCfgDescr).
Proof. split; [repeat split|]. apply an_descriptor; [repeat split|]. apply hd_configuration. Qed.
Example C74_example_reads :
  returns (usb_run [UvSetup (packet (ask 255)); UvReport 1 [0; 0; 4; 0; 0; 0; 0; 0]] usb_init) (fun d =>
    match answer_in 0 d with
    | InData t b =>
        let r := take_packet 255 t b start_reading in
        rd_done r = false /\ length (rd_got r) = 64%nat
        /\ match read_on 255 2 d r with Some r' => rd_done r' = true /\ rd_got r' = MyCfgDescr /\ length (rd_got r') = 84%nat | None => False end
    | _ => False
    end).
Proof. vm_compute. repeat split; reflexivity. Qed.

(** The host gives the device an address. *)
Definition give_address (a : N) : setup := mkSetup false 0 0 5 a 0 0.
Example C74_example_does : well_formed (give_address 17) /\ answers usb_init (give_address 17) (Does (with_address 17)) /\
  returns (usb_run [UvSetup (packet (give_address 17)); UvSuspend false] usb_init) (fun d =>
    ud_address d = 0 /\ answer_in 0 d = InData true [] /\ returns (usb_step (UvIn 0) d) (fun d' => ud_address d' = 17)).
Proof. split; [repeat split|]. split; [apply (an_address usb_init (give_address 17)); repeat split|]. vm_compute. repeat split; reflexivity. Qed.

(** The host sets the LED of caps lock, and sends the byte twice. *)
Definition leds : setup := mkSetup false 1 1 9 512 0 1.
Example C74_example_takes : well_formed leds /\ answers usb_init leds (Takes (fun data => with_leds (hd 0 data))) /\
  returns (usb_run [UvSetup (packet leds); UvOut true [2]; UvOut true [2]] usb_init) (fun d =>
    se_leds (settings_of d) = 2 /\ answer_in 0 d = InData true []).
Proof. split; [repeat split|]. split; [apply an_leds; [repeat split|cbn; lia]|]. vm_compute. repeat split; reflexivity. Qed.

(** The host asks for a string that is not there. *)
Definition ask_string (n : N) : setup := mkSetup true 0 0 6 (768 + n) 1033 255.
Example C74_example_refuses : well_formed (ask_string 9) /\ answers usb_init (ask_string 9) Refuses /\
  returns (usb_run [UvSetup (packet (ask_string 9)); UvIn 0; UvOut true [1]] usb_init) (fun d => answer_in 0 d = InStall).
Proof.
  split; [repeat split|]. split; [apply an_no_descriptor; [repeat split|]|vm_compute; reflexivity].
  intros b X. inversion X as [? ? E|? ? E|n i b' Y E1 E2 E3|? ? ? ? E|? ? ? ? E]; vm_compute in Y; discriminate Y.
Qed.

(** A report waits on endpoint 1 when the host ends a halt there: key reports are never
    sent again. *)
Definition key_a : list u8 := [0; 0; 4; 0; 0; 0; 0; 0].
Definition no_key : list u8 := [0; 0; 0; 0; 0; 0; 0; 0].
Example C74_example_lost : well_formed (feature false 1) /\ (forall d, answers d (feature false 1) (Halts 1 false)) /\
  returns (usb_run [UvReport 1 key_a] usb_init) (fun d => answer_in 1 d = InData false key_a /\
    returns (usb_run [UvSetup (packet (feature false 1)); UvIn 0; UvReport 1 no_key; UvIn 1; UvReport 1 key_a] d) (fun d' => answer_in 1 d' = InNak)).
Proof.
  split; [repeat split|]. split; [|vm_compute; repeat split; reflexivity]. intros d. apply (an_halt d (feature false 1) false 1); repeat split; cbn; lia.
Qed.
Example C74_example_halts : returns (usb_run [UvSetup (packet (feature true 2)); UvIn 0; UvIn 2; UvReport 1 key_a] usb_init) (fun d => answer_in 2 d = InStall /\ answer_in 1 d = InData false key_a /\
    returns (usb_run [UvSetup (packet (feature false 2)); UvIn 0; UvReport 2 [1; 2; 3; 4]] d) (fun d' => answer_in 2 d' = InData false [1; 2; 3; 4])).
Proof. vm_compute. repeat split; reflexivity. Qed.
Example C74_example_reset : returns (usb_run [UvSetup (packet (give_address 17)); UvIn 0; UvSetup (packet (feature true 2)); UvReset; UvReport 2 [1; 2; 3; 4]] usb_init) (fun d =>
  ud_address d = 0 /\ answer_in 2 d = InData false [1; 2; 3; 4]).
Proof. vm_compute. repeat split; reflexivity. Qed.

Print Assumptions C74_never_out_of_bounds.
Print Assumptions C74_reads.
Print Assumptions C74_does.
Print Assumptions C74_halts.
Print Assumptions C74_stays_halted.
Print Assumptions C74_halt_ended.
Print Assumptions C74_halt_ended_loses_endpoint.
Print Assumptions C74_takes.
Print Assumptions C74_refuses.
Print Assumptions C74_reset.
Print Assumptions C74_configuration_consistent.
Print Assumptions C74_vendor_requests_refuted.
Print Assumptions C74_get_idle_length_refuted.
Print Assumptions C74_unrestricted_histories_refuted.
Print Assumptions C74_halt_lasts_refuted.
