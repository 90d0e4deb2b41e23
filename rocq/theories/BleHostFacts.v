(** Proofs about the Bluetooth keyboard from the switches to the host (C83). *)
From Verif Require Import BaseFacts Output Types Split Scheduler Reporter Keymap SpecOutput SpecReporter ReporterFacts SpecKeymap KeymapInv KeymapQueue KeymapApi SpecPlain PlainFacts
  CApi CFirmware SpecCFirmware CFirmwareFacts CReport CCalls SpecCCalls CCallsFacts SpecWrap WrapFacts PropertiesReporter CKeyboard SpecCKeyboard SpecHost HostFacts CBle SpecCBle CBleFacts SpecBleHost.
Local Open Scope N_scope.

Section Ble.
Context {R Ctx Ev PKS KS : Type}.
Variable conf : kconf R Ctx Ev PKS KS.
Variable fuel : nat.
Local Notation km := (keymap R Ctx Ev PKS KS).
Local Notation ble := (@ble R Ctx Ev PKS KS).
Implicit Types (k : km) (s : ble).

Definition as_capi (c : ble_call) : capi_call :=
  match c with BcAfter d e => CcAfter d e | BcEvent e => CcEvent e | BcNext => CcTimeout | BcTick => CcTick end.
Lemma call_capi c k k' rs : ble_call_plain conf fuel c k = Ok (k', rs) -> exists a, c_do conf fuel (as_capi c) k = Ok (k', a).
Proof.
  destruct c; cbn [ble_call_plain as_capi c_do]; intros H; inv_bind H.
  - destruct a as [[k1 r] t]. injection H as <- _. rewrite E. cbn. eauto.
  - injection H as <- _. rewrite E. cbn. eauto.
  - destruct a as [[k1 r] t]. injection H as <- _. rewrite E. cbn. eauto.
  - destruct a as [k1 r]. injection H as <- _. rewrite E. cbn. eauto.
Qed.
Lemma call_reached ctx c k k' rs : reached conf fuel ctx k -> ble_call_plain conf fuel c k = Ok (k', rs) -> reached conf fuel ctx k'.
Proof.
  intros Hk H. destruct (call_capi _ _ _ _ H) as (a & Ha). destruct (stands_total (as_capi c)) as (o & Ho).
  eapply reached_ops; [exact Hk|]. exact (proj1 (c_do_ops conf fuel ctx _ _ _ _ _ Ho Hk Ha)).
Qed.
Lemma plain_reached ctx l : forall k k' rs, reached conf fuel ctx k -> ble_plain conf fuel l k = Ok (k', rs) -> reached conf fuel ctx k'.
Proof.
  induction l as [|c l IH]; intros k k' rs Hk H; cbn [ble_plain] in H; [now injection H as <- _|].
  inv_bind H. destruct a as [k1 r1]. inv_bind H. destruct a as [k2 r2]. injection H as <- _. eapply IH; [|exact E0]. eapply call_reached; eassumption.
Qed.

(** *** Calls without inputs *)
Definition no_input (c : ble_call) : bool := match c with BcNext | BcTick => true | _ => false end.
Definition is_tick (c : ble_call) : bool := match c with BcTick => true | _ => false end.
Lemma no_inputs l : ble_events l = [] -> Forall (fun c => no_input c = true) l.
Proof. induction l as [|[d e|e| |] l IH]; intros H; cbn in H; try discriminate H; constructor; auto. Qed.
Lemma tick_n_ops n : forall k, tick_n conf fuel n k = run_ops conf fuel (repeat OpTick n) k.
Proof. induction n as [|n IH]; intros k; [reflexivity|]. unfold run_ops. cbn [tick_n repeat fold_res run_op]. destruct (km_tick conf fuel k); cbn [bind]; [apply IH|reflexivity..]. Qed.
Lemma tick_by_ops d k k' : km_tick_by conf fuel d k = Ok k' -> exists m, run_ops conf fuel (repeat OpTick m) k = Ok k'.
Proof.
  unfold km_tick_by. destruct (d =? 0).
  - intros H. exists 1%nat. unfold run_ops. cbn. now rewrite H.
  - destruct (_ =? 0); [discriminate|]. rewrite tick_n_ops. eauto.
Qed.
(** Such a call ticks, and reports. *)
Lemma call_ticks c k k' rs : no_input c = true -> ble_call_plain conf fuel c k = Ok (k', rs) ->
  exists m kt kos r, run_ops conf fuel (repeat OpTick m) k = Ok kt /\ km_report_output conf kt = Ok (k', kos) /\ c_update kos = Ok r /\ rs = [r]
    /\ (is_tick c = true -> m = 1%nat).
Proof.
  destruct c; try discriminate; intros _ H; cbn [ble_call_plain] in H; inv_bind H.
  - destruct a as [[k1 r] t]. injection H as <- <-. unfold keymap_next_event_timeout in E. inv_bind E. destruct a as [k2 nx]. inv_bind E. destruct a as [k3 kos]. inv_bind E. inv_bind E. injection E as <- <- _.
    unfold km_tick_to_next in E0. inv_bind E0. destruct a1 as [d|].
    + inv_bind E0. inv_bind E0. injection E0 as <- _. destruct (tick_by_ops _ _ _ E4) as (m & Em). exists m, a1, kos, a. repeat split; auto. discriminate.
    + injection E0 as <- _. exists 0%nat, k, kos, a. repeat split; auto. discriminate.
  - destruct a as [k1 r]. injection H as <- <-. unfold keymap_tick in E. inv_bind E. inv_bind E. destruct a0 as [k3 kos]. inv_bind E. injection E as <- <-.
    exists 1%nat, a, kos, a0. unfold run_ops. cbn. rewrite E0. repeat split; auto.
Qed.
Lemma report_same k k' kos : km_report_output conf k = Ok (k', kos) ->
  same_but_reporter k k' /\ exists l, km_pressed_keys conf k = Ok l /\ km_rep k' = rep_sent (rep_update (km_rep k) l) /\ kos = rep_reportable (km_rep k').
Proof. unfold km_report_output. intros H. inv_bind H. injection H as <- <-. split; [reflexivity|]. exists a. auto. Qed.
Lemma ticks_filter m : filter (fun o => negb (is_report o)) (repeat OpTick m) = repeat OpTick m.
Proof. induction m as [|m IH]; cbn; [reflexivity|now rewrite IH]. Qed.
(** What the keymap comes to. *)
Lemma comes_later m quiet k kt k' kos : comes_to conf fuel quiet k kos -> run_ops conf fuel (repeat OpTick m) k = Ok kt -> same_but_reporter kt k' ->
  comes_to conf fuel (quiet - m) k' kos.
Proof.
  intros H E Hs n k1 Hn E1. symmetry in Hs. destruct (run_ops_without_reports conf fuel _ _ kt _ Hs E1) as (k2 & E2 & Hs2). rewrite ticks_filter in E2.
  assert (E3 : run_ops conf fuel (repeat OpTick (m + n)) k = Ok k2) by (rewrite repeat_app; unfold run_ops in *; rewrite fold_res_app, E; exact E2).
  apply H in E3; [|lia]. unfold km_pressed_keys in *. unfold same_but_reporter in Hs2. destruct k1, k2. injection Hs2; intros; subst. exact E3.
Qed.
Lemma ticks_rep m : forall k k', run_ops conf fuel (repeat OpTick m) k = Ok k' -> km_rep k' = km_rep k.
Proof.
  induction m as [|m IH]; intros k k' H; unfold run_ops in *; cbn [repeat fold_res run_op] in H; [now injection H as <-|].
  inv_bind H. rewrite (IH _ _ H). eapply CCallsFacts.tick_rep. exact E.
Qed.
(** The calls until the keymap has come to it ... *)
Lemma calls_come l : forall quiet k k' rs kos, Forall (fun c => no_input c = true) l -> ble_plain conf fuel l k = Ok (k', rs) ->
  comes_to conf fuel quiet k kos -> comes_to conf fuel (quiet - length (filter is_tick l)) k' kos.
Proof.
  induction l as [|c l IH]; intros quiet k k' rs kos Hl H Hq; cbn [ble_plain] in H; [injection H as <- _; cbn; now rewrite Nat.sub_0_r|].
  inv_bind H. destruct a as [k1 r1]. inv_bind H. destruct a as [k2 r2]. injection H as <- _. apply Forall_cons_iff in Hl as (Hc & Hl).
  destruct (call_ticks _ _ _ _ Hc E) as (m & kt & ko & r & Em & Er & _ & _ & H1). destruct (report_same _ _ _ Er) as (Hs & _).
  pose proof (comes_later _ _ _ _ _ _ Hq Em Hs) as Hq1. pose proof (IH _ _ _ _ _ Hl E0 Hq1) as Hq2.
  intros n k3 Hn. apply Hq2. cbn [filter] in Hn. destruct (is_tick c); cbn [length] in Hn; [|lia]. rewrite (H1 eq_refl). lia.
Qed.
(** ... and from then on. *)
Lemma calls_rep l : forall k k' rs kos rops, Forall (fun c => no_input c = true) l -> ble_plain conf fuel l k = Ok (k', rs) ->
  comes_to conf fuel 0 k kos -> km_rep k = rep_run rops -> km_rep k' = rep_run (rops ++ report_times (length l) kos) /\ comes_to conf fuel 0 k' kos.
Proof.
  induction l as [|c l IH]; intros k k' rs kos rops Hl H Hq Hr; cbn [ble_plain] in H; [injection H as <- _; cbn [length report_times]; rewrite app_nil_r; auto|].
  inv_bind H. destruct a as [k1 r1]. inv_bind H. destruct a as [k2 r2]. injection H as <- _. apply Forall_cons_iff in Hl as (Hc & Hl).
  destruct (call_ticks _ _ _ _ Hc E) as (m & kt & ko & r & Em & Er & _ & _ & _). destruct (report_same _ _ _ Er) as (Hs & pl & Hp & Hrep & _).
  rewrite (Hq m kt ltac:(lia) Em) in Hp. injection Hp as <-. pose proof (comes_later _ _ _ _ _ _ Hq Em Hs) as Hq1. cbn [Nat.sub] in Hq1.
  destruct (IH k1 k2 r2 kos (rops ++ report_once kos) Hl E0 Hq1) as (A & B).
  - rewrite Hrep, (ticks_rep _ _ _ Em), Hr. unfold rep_run. rewrite fold_left_app. reflexivity.
  - split; [|exact B]. rewrite A. cbn [length report_times]. now rewrite <- app_assoc.
Qed.
(** A list with many ticks can be cut after the first [n]. *)
Lemma cut_ticks l : forall n m, (n + m <= length (filter is_tick l))%nat -> exists a b, l = a ++ b /\ length (filter is_tick a) = n /\ (m <= length (filter is_tick b))%nat.
Proof.
  induction l as [|c l IH]; intros n m H; [cbn in H; exists [], []; cbn; repeat split; lia|].
  destruct n as [|n]; [exists [], (c :: l); cbn [app]; repeat split; lia|]. cbn [filter] in H. destruct (is_tick c) eqn:Ec.
  - cbn [length] in H. destruct (IH n m ltac:(lia)) as (a & b & -> & A & B). exists (c :: a), b. cbn [app filter]. rewrite Ec. cbn [length]. repeat split; lia.
  - destruct (IH (S n) m ltac:(lia)) as (a & b & -> & A & B). exists (c :: a), b. cbn [app filter]. rewrite Ec. repeat split; lia.
Qed.
Lemma filter_len {A} (f : A -> bool) l : (length (filter f l) <= length l)%nat.
Proof. induction l as [|x l IH]; cbn; [lia|]. destruct (f x); cbn; lia. Qed.
(** After enough calls, the last report shows what the keymap puts out. *)
Lemma calls_report ctx quiet l k k' rs kos : reached conf fuel ctx k -> Forall (fun c => no_input c = true) l -> ble_plain conf fuel l k = Ok (k', rs) ->
  comes_to conf fuel quiet k kos -> (quiet + 16 <= length (filter is_tick l))%nat ->
  exists rs' r, rs = rs' ++ [r] /\ c_update kos = Ok r /\ km_pressed_keys conf k' = Ok kos.
Proof.
  intros Hk Hl H Hq Hn. destruct (cut_ticks _ _ _ Hn) as (a & b & -> & Ha & Hb). apply Forall_app in Hl as (Hla & Hlb).
  rewrite ble_plain_app in H. inv_bind H. destruct a0 as [k1 r1]. inv_bind H. destruct a0 as [k2 r2]. injection H as <- <-.
  pose proof (calls_come _ _ _ _ _ _ Hla E Hq) as Hq1. rewrite Ha, Nat.sub_diag in Hq1.
  pose proof (plain_reached _ _ _ _ _ Hk E) as Hk1. destruct Hk1 as (ops & Ho). destruct (reach_rep _ _ _ _ _ Ho) as (rops & Hrep).
  pose proof (Hq1 0%nat k1 (le_n _) eq_refl) as Hp1. apply outputs_length in Hp1. pose proof (reach_bounded _ _ _ _ _ Ho) as (Hb1 & _). unfold MAX_PRESSED_KEYS in Hb1.
  assert (Hlen : (16 <= length b)%nat) by (pose proof (filter_len is_tick b); lia).
  assert (Hb0 : b <> []) by (intros ->; cbn in Hlen; lia). destruct (exists_last Hb0) as (b0 & c & ->). rewrite app_length in Hlen. cbn [length] in Hlen.
  apply Forall_app in Hlb as (Hlb & Hc). apply Forall_inv in Hc. rewrite ble_plain_app in E0. inv_bind E0. destruct a0 as [k3 r3]. inv_bind E0. destruct a0 as [k4 r4]. injection E0 as <- <-.
  destruct (calls_rep _ _ _ _ _ _ Hlb E1 Hq1 Hrep) as (Hr3 & Hq3).
  cbn [ble_plain] in E2. inv_bind E2. destruct a0 as [k5 r5]. injection E2 as <- <-. rewrite app_nil_r.
  destruct (call_ticks _ _ _ _ Hc E0) as (m & kt & ko & r & Em & Er & Eu & -> & _). destruct (report_same _ _ _ Er) as (Hs & pl & Hp & Hrep' & Hko).
  pose proof (Hq3 m kt ltac:(lia) Em) as Hpt. rewrite Hpt in Hp. injection Hp as <-.
  exists (r1 ++ r3), r. split; [now rewrite app_assoc|]. split.
  - rewrite <- Eu, Hko, Hrep', (ticks_rep _ _ _ Em), Hr3. f_equal. symmetry.
    assert (X : rep_sent (rep_update (rep_run (rops ++ report_times (length b0) kos)) kos) = rep_run (rops ++ report_times (S (length b0)) kos))
      by (rewrite report_times_succ, app_assoc; unfold rep_run; rewrite (fold_left_app _ (rops ++ _)); reflexivity).
    rewrite X. apply C07_all_reported; lia.
  - unfold km_pressed_keys in *. unfold same_but_reporter in Hs. destruct kt, k5. injection Hs; intros; subst. exact Hpt.
Qed.

(** Calls as inputs, ticks and reports. *)
Lemma meant_of e : event_of_c e = meant e.
Proof. destruct e as [[] v]; reflexivity. Qed.
Lemma plain_ops l : forall k k' rs, ble_plain conf fuel l k = Ok (k', rs) -> exists ops, comes_from l ops /\ run_ops conf fuel ops k = Ok k'.
Proof.
  induction l as [|c l IH]; intros k k' rs H; cbn [ble_plain] in H; [injection H as <- _; exists []; split; [constructor|reflexivity]|].
  inv_bind H. destruct a as [k1 r1]. inv_bind H. destruct a as [k2 r2]. injection H as <- _. destruct (IH _ _ _ E0) as (ops & Ho & Er). clear IH E0.
  assert (X : no_input c = true -> exists m, run_ops conf fuel (repeat OpTick m ++ OpReport :: ops) k = Ok k2 /\ (is_tick c = true -> m = 1%nat)).
  { intros Hc. destruct (call_ticks _ _ _ _ Hc E) as (m & kt & ko & r & Em & Ep & _ & _ & H1). exists m. split; [|exact H1].
    unfold run_ops in *. rewrite fold_res_app, Em. cbn [bind fold_res run_op]. rewrite Ep. exact Er. }
  destruct c as [d e|e| |].
  - cbn [ble_call_plain] in E. inv_bind E. destruct a as [[k3 r] t]. injection E as <- _. unfold keymap_register_input_after_ms in E0. inv_bind E0. destruct a as [k4 nx]. inv_bind E0. destruct a as [k5 kos]. inv_bind E0. inv_bind E0. injection E0 as <- _ _.
    unfold km_handle_input_after_time in E. inv_bind E. inv_bind E. inv_bind E. assert (a2 = k4) as -> by (destruct a3; [destruct (_ && _) in E; [discriminate|]|]; now injection E).
    destruct (tick_by_ops _ _ _ E0) as (m & Em). exists (repeat OpTick m ++ OpInput (meant e) :: OpReport :: ops). split; [now constructor|].
    unfold run_ops in *. rewrite fold_res_app, Em. cbn [bind fold_res run_op]. rewrite <- meant_of, E4. cbn [bind]. rewrite E1. exact Er.
  - cbn [ble_call_plain] in E. inv_bind E. injection E as <- _. exists (OpInput (meant e) :: ops). split; [now constructor|].
    unfold run_ops, keymap_register_input_event in *. cbn [fold_res run_op]. rewrite <- meant_of, E0. exact Er.
  - destruct (X eq_refl) as (m & Em & _). eexists. split; [constructor; exact Ho|exact Em].
  - destruct (X eq_refl) as (m & Em & H1). rewrite (H1 eq_refl) in Em. eexists. split; [constructor; exact Ho|exact Em].
Qed.
(** Calls without inputs tick, and do nothing else but report. *)
Lemma calls_as_ticks l : forall k k' rs, Forall (fun c => no_input c = true) l -> ble_plain conf fuel l k = Ok (k', rs) ->
  exists m kt, run_ops conf fuel (repeat OpTick m) k = Ok kt /\ same_but_reporter kt k' /\ (length (filter is_tick l) <= m)%nat.
Proof.
  induction l as [|c l IH]; intros k k' rs Hl H; cbn [ble_plain] in H; [injection H as <- _; exists 0%nat, k; repeat split; cbn; lia|].
  inv_bind H. destruct a as [k1 r1]. inv_bind H. destruct a as [k2 r2]. injection H as <- _. apply Forall_cons_iff in Hl as (Hc & Hl).
  destruct (call_ticks _ _ _ _ Hc E) as (m & kt & ko & r & Em & Er & _ & _ & H1). destruct (report_same _ _ _ Er) as (Hs & _).
  destruct (IH _ _ _ Hl E0) as (m2 & kt2 & Em2 & Hs2 & Hm2). symmetry in Hs. destruct (run_ops_without_reports conf fuel _ _ kt _ Hs Em2) as (k3 & E3 & Hs3). rewrite ticks_filter in E3.
  exists (m + m2)%nat, k3. split; [rewrite repeat_app; unfold run_ops in *; rewrite fold_res_app, Em; exact E3|].
  split; [unfold same_but_reporter in *; congruence|]. cbn [filter]. destruct (is_tick c); cbn [length]; [rewrite (H1 eq_refl)|]; lia.
Qed.

(** *** Switches held still *)
Lemma changes_none keys f : changes keys f f = [].
Proof. unfold changes. induction (seq 0 keys) as [|i l IH]; [reflexivity|]. cbn [flat_map]. now rewrite eqb_reflx. Qed.
Lemma scan_events_app keys a : forall before b, scan_events keys before (a ++ b) = scan_events keys before a ++ scan_events keys (last a before) b.
Proof.
  induction a as [|x a IH]; intros before b; [reflexivity|]. cbn [app scan_events]. rewrite IH, <- app_assoc. do 2 f_equal. change (x :: a) with ([x] ++ a). rewrite last_app_def. reflexivity.
Qed.
Lemma scan_events_still keys raw n : scan_events keys raw (repeat raw n) = [].
Proof. induction n as [|n IH]; [reflexivity|]. cbn [repeat scan_events]. now rewrite changes_none. Qed.

(** *** How soon the keymap is ticked *)
Ltac bcbn := cbn [bl_matrix bl_keymap bl_hid bl_prev bl_time bl_pending bl_irq bl_set bl_timer bl_now bl_calls bl_made bl_sent bl_scans
  bl_start bl_clear bl_set_irq bl_set_pending bl_set_time bl_called bl_report] in *.
Lemma ticks_app s s' l : bl_calls s' = bl_calls s ++ l -> ble_ticks s' = (ble_ticks s + length (filter is_tick l))%nat.
Proof. intros H. unfold ble_ticks. fold is_tick. rewrite H, filter_app, app_length. reflexivity. Qed.
Lemma on_tick_ticks raw s s' : bl_on_tick conf fuel raw s = Ok s' -> (S (ble_ticks s) <= ble_ticks s')%nat.
Proof.
  unfold bl_on_tick. destruct (bl_scan raw s) as [s1 ch] eqn:Es. destruct (scan_worked conf fuel _ _ _ _ Es) as (W & _).
  intros H. inv_bind H. inv_bind H. destruct a0 as [k r]. inv_ok H. destruct (event_worked conf fuel _ _ _ E) as (l & W2 & _).
  set (s3 := bl_set_time (bl_report r (bl_called BcTick k a))) in *.
  assert (Hc : forall x : ble, bl_calls (bl_requests x) = bl_calls x) by (intros x; destruct (requests_rest x) as (X & _); apply X).
  match goal with |- (_ <= ble_ticks ?z)%nat => assert (Y : bl_calls z = bl_calls s ++ l ++ [BcTick]); [rewrite Hc|rewrite (ticks_app s z _ Y), filter_app, app_length; cbn; lia] end.
  assert (X : bl_calls s3 = bl_calls s ++ l ++ [BcTick]). { subst s3. bcbn. rewrite (wk_calls _ _ _ _ _ _ _ W2). rewrite (wk_calls _ _ _ _ _ _ _ W), app_nil_r, <- app_assoc. reflexivity. }
  destruct (_ || _); exact X.
Qed.

(** An upper bound of the time to the next tick. *)
Definition far s : nat :=
  if bl_set s EvWake then 13 else if bl_set s EvScan then 12 else if bl_set s EvTick then 0
  else match bl_timer s EvScan with
       | Some _ => 13
       | None => match bl_timer s EvTick with Some t => Nat.max 1 (N.to_nat t) | None => 0 end
       end.
Lemma far_le s : bl_token s -> (far s <= 13)%nat.
Proof. intros [_ _ _ D _]. unfold far. destruct (bl_set s EvWake), (bl_set s EvScan), (bl_set s EvTick), (bl_timer s EvScan); try lia. destruct (bl_timer s EvTick) as [t|] eqn:E; [|lia]. specialize (D t eq_refl). lia. Qed.
Lemma do_far a s s' : bl_token s -> bl_irq s = false -> bl_do conf fuel s a = Ok s' -> bl_irq s' = false ->
  (a = BlUnit -> idle_task s -> (S (far s') <= far s)%nat /\ ble_ticks s' = ble_ticks s) /\ (a <> BlUnit -> (ble_ticks s <= ble_ticks s' /\ far s' <= far s + 12 * (ble_ticks s' - ble_ticks s))%nat).
Proof.
  intros I Hi H Hi'. assert (I' := do_token conf fuel _ _ _ I H). destruct I as [A B C D E]. destruct a as [| |raw ok]; cbn [bl_do] in H.
  - inv_ok H. split; [|congruence]. intros _ Hidle. split; [|reflexivity]. unfold far. cbn [bl_unit bl_set bl_timer]. rewrite B, !Hidle. rewrite Hi, !Hidle in A. cbn [nb orb] in *.
    destruct (bl_timer s EvScan) as [t1|]; cbn [nt] in A.
    + specialize (C t1 eq_refl). rewrite (proj2 (N.leb_le _ _) C). cbn [orb]. lia.
    + destruct (bl_timer s EvTick) as [t2|]; cbn [nt] in A; [|lia]. destruct (t2 <=? 1)%N eqn:E2; cbn [orb]; [lia|]. apply N.leb_gt in E2. cbn [orb]. lia.
  - inv_ok H. unfold bl_gpio. rewrite Hi. split; [discriminate|lia].
  - split; [discriminate|]. intros _. unfold bl_task in H. destruct (bl_next s) as [e|] eqn:En; [|inv_ok H; lia]. apply next_set in En. destruct e as [| | |c|].
    + inv_ok H. unfold bl_on_wake. split; [unfold ble_ticks; bcbn; lia|]. unfold far. bcbn. rewrite set_evt_same, En, !set_evt_other, set_evt_same by discriminate.
      rewrite En, Hi in A. destruct (bl_set s EvScan), (bl_set s EvTick); cbn [nb orb] in *; lia.
    + destruct (on_scan_worked conf fuel _ _ _ H) as (l & rs & W & _ & K1 & K2 & K3 & K4 & _). pose proof (ticks_app _ _ _ (wk_calls _ _ _ _ _ _ _ W)) as T. change (ble_ticks (bl_clear EvScan s)) with (ble_ticks s) in T. split; [lia|].
      unfold far. rewrite (wk_set _ _ _ _ _ _ _ W), K2, K4. bcbn. rewrite set_evt_same, !set_evt_other by discriminate. rewrite En. rewrite En, Hi in A.
      destruct (bl_set s EvWake), (bl_set s EvTick), (bl_timer s EvScan); cbn [nb nt] in A; lia.
    + destruct (on_timeout_worked conf fuel _ _ H) as (rs & W & K1 & K2 & _). pose proof (ticks_app _ _ _ (wk_calls _ _ _ _ _ _ _ W)) as T. change (ble_ticks (bl_clear EvTimeout s)) with (ble_ticks s) in T. split; [lia|].
      unfold far. rewrite (wk_set _ _ _ _ _ _ _ W), !K2 by auto. bcbn. rewrite !set_evt_other by discriminate. lia.
    + inv_ok H. split; [unfold ble_ticks; cbn; lia|]. unfold far. cbn [bl_on_report bl_clear bl_set bl_timer]. rewrite !set_evt_other by discriminate. lia.
    + pose proof (on_tick_ticks _ _ _ H) as T. change (ble_ticks (bl_clear EvTick s)) with (ble_ticks s) in T. split; [lia|].
      destruct (on_tick_worked conf fuel _ _ _ H) as (l & r & W & _ & K1 & _ & K4 & _). destruct K1 as [(_ & K1)|(K1 & _)]; [|congruence].
      assert (F : (far s' <= 12)%nat); [|lia]. unfold far. rewrite (wk_set _ _ _ _ _ _ _ W), K1, K4. bcbn. rewrite set_evt_same, !set_evt_other by discriminate. rewrite En, Hi in A.
      destruct (bl_set s EvWake), (bl_set s EvScan), (bl_timer s EvScan); cbn [nb nt] in A; lia.
Qed.

(** Awake all the time, the keymap is ticked every 12 units. *)
Lemma run_far l : forall s s', bl_token s -> bl_prompt conf fuel l s -> bl_run conf fuel l s = Ok s' ->
  (forall a b s1, l = a ++ b -> bl_run conf fuel a s = Ok s1 -> bl_irq s1 = false) ->
  (ble_ticks s <= ble_ticks s' /\ units l + far s' <= far s + 12 * (ble_ticks s' - ble_ticks s))%nat.
Proof.
  induction l as [|a l IH]; intros s s' I Hp H Ha; cbn [bl_run fold_res] in H; [inv_ok H; cbn; lia|].
  inv_bind H. cbn [bl_prompt] in Hp. destruct Hp as [Hp1 Hp2]. rewrite E in Hp2.
  pose proof (Ha [] (a :: l) s eq_refl eq_refl) as A0.
  assert (A1 : bl_irq a0 = false) by (apply (Ha [a] l a0 eq_refl); unfold bl_run; cbn [fold_res]; now rewrite E).
  destruct (do_far _ _ _ I A0 E A1) as (K2 & K3).
  destruct (IH _ _ (do_token conf fuel _ _ _ I E) Hp2 H) as (X & Y).
  { intros b c s1 -> E1. apply (Ha (a :: b) c s1 eq_refl). unfold bl_run in *. cbn [fold_res]. now rewrite E. }
  destruct a; unfold units in *; cbn [filter length] in *.
  - destruct (K2 eq_refl (Hp1 eq_refl)). lia.
  - destruct (K3 ltac:(discriminate)). lia.
  - destruct (K3 ltac:(discriminate)). lia.
Qed.
End Ble.

Lemma from_plain l ops : comes_from l ops -> Forall (fun o => plain_op o = true) ops.
Proof.
  assert (T : forall m, Forall (fun o => plain_op o = true) (repeat OpTick m)) by (intros m; apply Forall_forall; intros o Ho; apply repeat_spec in Ho; now subst).
  induction 1; [constructor|apply Forall_app; split; [apply T|]| |apply Forall_app; split; [apply T|]|]; repeat (constructor; [reflexivity|]); assumption.
Qed.
Lemma ticks_no_inputs m l : inputs (repeat OpTick m ++ l) = inputs l.
Proof. induction m as [|m IH]; [reflexivity|]. exact IH. Qed.
Lemma from_inputs l ops : comes_from l ops -> inputs ops = map meant (ble_events l).
Proof. induction 1 as [|d e m l ops _ IH|e l ops _ IH|m l ops _ IH|l ops _ IH]; [reflexivity| | | |exact IH]; rewrite ?ticks_no_inputs; unfold inputs, ble_events in *; cbn; now rewrite IH. Qed.
(** With few inputs there is room for all. *)
Lemma few_accepted ops : forall q, (length (q_waiting q) + length (inputs ops) <= 31)%nat -> accepted_from q ops = inputs ops.
Proof.
  induction ops as [|o ops IH]; intros q H; [reflexivity|]. cbn [accepted_from]. destruct o; cbn [app queue_step]; try (apply IH; exact H).
  - unfold inputs in H. cbn [filter_map length] in H. fold (inputs ops) in H. unfold queue_input. destruct (Nat.ltb_spec (length (q_waiting q)) 31); [|lia].
    change (inputs (OpInput ev :: ops)) with (ev :: inputs ops). cbn [app]. f_equal. apply IH.
    destruct (q_busy q); cbn [q_waiting]; [rewrite app_length; cbn [length]; lia|]. unfold queue_take. cbn [q_waiting]. destruct (q_waiting q ++ [ev]) as [|x w] eqn:E; cbn [q_waiting]; apply (f_equal (@length _)) in E; rewrite app_length in E; cbn [length] in E; lia.
  - apply IH. cbn [inputs filter_map] in *. unfold queue_tick. cbn [q_waiting]. destruct (q_busy q); [exact H|]. unfold queue_take. destruct (q_waiting q) as [|x w] eqn:Eq; cbn [q_waiting]; rewrite ?Eq; cbn [length] in *; unfold inputs in *; lia.
Qed.

