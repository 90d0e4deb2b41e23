(** Keyboards with layers and chords settle when they are left alone (C71). *)
From Coq Require Import Sorted.
From Verif Require Import BaseFacts Output Types Scheduler Reporter Keymap SimpleKeys TapHold TapDance Sticky CapsWord
  Layered Automation Chorded Composite SpecKeymap KeymapHist KeymapInv KeymapQueue KeymapCalls KeymapApi SpecChord ChordFacts ChordHeld SpecPlain PlainFacts
  SpecLayer LayerFacts SpecTap TapFacts TapTime CtxFacts SpecDecide SpecBoard BoardFacts SpecScheduler SchedulerFacts SpecTapBoard TapBoardFacts TapBoardTotal TapBoardLive
  SpecChordBoard ChordBoardFacts.
Local Open Scope N_scope.

Section ChordLive.
Variables (refs : list ref) (d : key_data) (pos : position_fn) (dbg : bool) (cf : config) (height f : nat).
Hypothesis Hrefs : Forall (chord_board_key d (cf_layer_count cf) height) refs.
Hypothesis Hfew : (length (chc_chords (cf_chorded cf)) <= 256)%nat.
Hypothesis Hpos : position_ok pos.
Variable L : list (callback * callback_fn).
Local Notation conf := (cconf refs d pos dbg).
Local Notation n0 := (cf_layer_count cf).
Local Notation cc := (cf_chorded cf).
Local Notation k0 := (set_callbacks (km_new (ctx_from_config cf)) L).
Local Notation fuel := (S (S (S (S (S (S (S (S (S (height + f)))))))))).
Local Notation let_in ops := (let_in conf fuel ops k0).
Local Notation core := (ccore refs d n0 cc height L).
Local Notation spaced := (spaced (chc_timeout cc)).

Lemma op_cspaced ops (k k' : ckeymap) o : plain_op o = true -> run_ops conf fuel ops k0 = Ok k -> core anyC anyD anyTr (let_in ops) k -> in_turn (let_in (ops ++ [o])) ->
  (forall ms, o = OpSetMs ms -> 0 < ms /\ sc_counter (km_sched k) = 0) -> run_op conf fuel k o = Ok k' -> spaced k -> spaced k'.
Proof.
  intros Hop Hrun Hc Ht Hms H Hsp. pose proof (clet_in_snoc refs d pos dbg _ ops o _ _ Hrun) as El.
  destruct o as [ev| |dd ev| | | |ms|cb g]; try discriminate Hop; cbn [run_op] in *.
  - unfold km_handle_input in H. cbn zeta in H. change (km_inq (set_idle k 0)) with (km_inq k) in H. change INPUT_QUEUE_CAPACITY with 31%nat in H.
    destruct (length (km_inq k) <? 31)%nat; [|injection H as <-; eapply spaced_same; [exact Hsp|reflexivity..]].
    set (k1 := set_inq (set_idle k 0) (km_inq k ++ [ev])) in *.
    assert (Hc2 : core anyC anyD anyTr (let_in (ops ++ [OpInput ev])) k1).
    { eapply (ccore_fields refs d cf height L _ _ _ _ _ k _ [ev]); [exact Hc|exact El|..]; try reflexivity; [|auto]. intros b Hb. exact (bctx _ _ _ _ _ Hb). }
    assert (Hsp1 : spaced k1) by (eapply spaced_same; [exact Hsp|reflexivity..]).
    destruct (N.eqb_spec (km_delay k1) 0) as [Hd|_]; [|injection H as <-; exact Hsp1].
    destruct (km_inq k1) as [|x w] eqn:Eq; [discriminate|]. inv_bind H. injection H as <-.
    assert (Ex : exec conf (S (S (S (S (S (S (S (S (height + (1 + f)))))))))) (JProcessInput x) (set_inq k1 w) = Ok a).
    { replace (height + (1 + f))%nat with (S (height + f)) by lia. exact E. }
    destruct (ccore_take refs d pos dbg n0 cc Hfew height Hrefs L _ _ anyTr (1 + f) _ k1 a x w Hc2 Eq Ht) as (_ & _ & Cm & Cn & _ & Ct & _); try (intros; exact Logic.I); try exact Ex.
    eapply (spaced_take pos); [exact Hpos|exact Hsp1|exact Hd|exact Cn|exact Cm|exact Ct].
  - rewrite app_nil_r in El. rewrite El in *. rewrite tick_step in H. cbn zeta in H. set (k1 := set_ctx k _) in H.
    assert (Hc2 : core anyC anyD anyTr (let_in ops) k1).
    { eapply ccore_same; [exact Hc|..]; try reflexivity; [intros c0; exact (fun X => X)|]. intros (A & B & C & D). repeat split; assumption. }
    assert (Hsp1 : spaced k1) by (eapply spaced_same; [exact Hsp|reflexivity..]).
    inv_bind H. change (if 0 <? km_delay a then set_delay a (km_delay a - 1) else a) with (slowed a) in H. inv_bind H. inv_bind H. inv_bind H. injection H as <-.
    assert (X : core anyC anyD anyTr (let_in ops) a /\ spaced a).
    { destruct (km_inq k) as [|x w] eqn:Eq; [injection E as <-; auto|]. destruct (N.eqb_spec (km_delay k) 0) as [Hd|_]; [|injection E as <-; auto].
      inv_bind E. injection E as <-.
      assert (Ex : exec conf (S (S (S (S (S (S (S (S (height + (1 + f)))))))))) (JProcessInput x) (set_inq k1 w) = Ok a3).
      { replace (height + (1 + f))%nat with (S (height + f)) by lia. exact E3. }
      destruct (ccore_take refs d pos dbg n0 cc Hfew height Hrefs L _ _ anyTr (1 + f) _ k1 a3 x w Hc2 Eq Ht) as (C & _ & Cm & Cn & _ & Ct & _); try (intros; exact Logic.I); [exact Ex|].
      split; [apply (ccore_same refs d cf height L _ _ _ _ a3); [exact C|reflexivity|reflexivity|reflexivity|reflexivity|reflexivity|reflexivity|auto|auto|auto|reflexivity]|]. eapply (spaced_take pos); [exact Hpos|exact Hsp1|exact Hd|exact Cn|exact Cm|exact Ct]. }
    destruct X as (C & Hspa).
    assert (S2 : km_ms_per_tick (slowed a) = km_ms_per_tick a /\ km_sched (slowed a) = km_sched a /\ km_delay (slowed a) = 0).
    { pose proof Hspa as (_ & Hd1 & _). unfold slowed. destruct (N.ltb_spec 0 (km_delay a)) as [Y|Y]; cbn; repeat split; unfold u8 in *; lia. }
    destruct S2 as (M2 & S2 & D2).
    destruct (ccore_timer refs d pos dbg n0 cc Hfew height L anyC anyD anyTr f _ _ a1 _ (ccore_slowed _ _ _ _ _ _ _ _ _ _ C) E0) as (_ & _ & Y & _); [intros; exact Logic.I|intros; exact Logic.I|exact E1|].
    apply exec_frame in E1 as (F1 & F2 & _ & _ & F3 & _). cbn [set_sched km_sched km_ms_per_tick km_delay] in F1, F2, F3.
    rewrite S2, M2 in E0. eapply spaced_tick; [exact Hspa|exact E0|..]; cbn [set_idle km_ms_per_tick km_delay km_sched]; congruence.
  - unfold km_report_output in H. inv_bind H. inv_bind E. injection E as <-. injection H as <-. eapply spaced_same; [exact Hsp|reflexivity..].
  - injection H as <-. destruct (Hms _ eq_refl) as (Hm & H0). destruct Hsp as (_ & Hd & Hs & Hb & H1). specialize (H1 H0).
    unfold spaced. cbn [km_sched km_delay km_ms_per_tick set_ms_per_tick km_set_ms_per_tick]. split; [exact Hm|]. split; [exact Hd|].
    destruct H1 as [H1|(H1 & H2)].
    + rewrite H1 in *. split; [constructor|]. split; [constructor|]. intros _. now left.
    + destruct (map en_time (sc_scheduled (km_sched k))) as [|t [|t' l]]; try discriminate H2. split; [repeat constructor|]. split; [|intros _; right; auto].
      inversion Hb as [|? ? Hb1 _]; subst. constructor; [|constructor]. rewrite H1 in *. change (1 - 1) with 0 in *. rewrite N.mul_0_r in *. exact Hb1.
Qed.

Lemma ctick_eases acc (k k' : ckeymap) : core anyC anyD anyTr acc k -> in_turn acc ->
  km_tick conf fuel k = Ok k' ->
  ((work k' < work k)%nat \/ work k' = work k /\ incl (times k') (times k) /\ (km_delay k = 0 -> km_pending k = None -> km_inq k = []))
  /\ sc_counter (km_sched k') = sc_counter (km_sched k) + km_ms_per_tick k
  /\ (km_delay k <= 1 -> km_delay k' = 0).
Proof.
  clear Hpos. intros Hc Ht H. rewrite tick_step in H. cbn zeta in H. set (k1 := set_ctx k _) in H.
  assert (Hc2 : core anyC anyD anyTr acc k1).
  { eapply ccore_same; [exact Hc|..]; try reflexivity; [intros c0; exact (fun X => X)|]. intros (A & B & C & D). repeat split; assumption. }
  inv_bind H. change (if 0 <? km_delay a then set_delay a (km_delay a - 1) else a) with (slowed a) in H. inv_bind H. inv_bind H. inv_bind H. injection H as <-.
  assert (X : core anyC anyD anyTr acc a /\ ((work a < work k)%nat \/ work a = work k /\ times a = times k /\ (km_delay k = 0 -> km_pending k = None -> km_inq k = []))
    /\ sc_counter (km_sched a) = sc_counter (km_sched k) /\ km_ms_per_tick a = km_ms_per_tick k /\ (km_delay k <= 1 -> km_delay a <= 1)).
  { destruct (km_inq k) as [|x w] eqn:Eq; [injection E as <-; split; [exact Hc2|]; split; [right; auto|auto]|].
    destruct (N.eqb_spec (km_delay k) 0) as [Hd|Hd]; [|injection E as <-; split; [exact Hc2|]; split; [right; split; [reflexivity|split; [reflexivity|intros; contradiction]]|auto]].
    inv_bind E. injection E as <-.
    assert (Ex : exec conf (S (S (S (S (S (S (S (S (height + (1 + f)))))))))) (JProcessInput x) (set_inq k1 w) = Ok a3).
    { replace (height + (1 + f))%nat with (S (height + f)) by lia. exact E3. }
    destruct (ccore_take refs d pos dbg n0 cc Hfew height Hrefs L _ _ anyTr (1 + f) _ k1 a3 x w Hc2 Eq Ht) as (C & _ & Cm & Cn & Cf & Ct & Cl); try (intros; exact Logic.I); [exact Ex|].
    split; [apply (ccore_same refs d cf height L _ _ _ _ a3); [exact C|reflexivity|reflexivity|reflexivity|reflexivity|reflexivity|reflexivity|auto|auto|auto|reflexivity]|].
    split; [|split; [exact Cn|split; [exact Cm|intros _; apply N.le_refl]]]. unfold work, times. cbn [set_delay km_pending km_inq km_sched]. change (km_pending k1) with (km_pending k) in *. change (km_inq k1) with (km_inq k) in *.
    destruct (km_pending k) as [p|] eqn:Ep.
    - destruct (Cl p eq_refl) as (Cl1 & Cl2). destruct (km_pending a3) as [p'|].
      + right. split; [lia|]. split; [exact Cl1|]. intros _ X. discriminate X.
      + left. lia.
    - left. destruct (Cf eq_refl) as (Cf1 & Cf2). rewrite Cf1, Eq. cbn [length]. destruct (km_pending a3) as [p'|]; [rewrite (Cf2 _ eq_refl); cbn|]; lia. }
  destruct X as (C & Hw & Hn & Hm & Hd).
  assert (S2 : km_ms_per_tick (slowed a) = km_ms_per_tick a /\ km_sched (slowed a) = km_sched a /\ km_pending (slowed a) = km_pending a /\ km_inq (slowed a) = km_inq a).
  { unfold slowed. destruct (0 <? km_delay a); auto. }
  destruct S2 as (M2 & S2 & P2 & Q2).
  destruct (ccore_timer refs d pos dbg n0 cc Hfew height L anyC anyD anyTr f _ _ a1 _ (ccore_slowed _ _ _ _ _ _ _ _ _ _ C) E0) as (_ & _ & Y & Z); [intros; exact Logic.I|intros; exact Logic.I|exact E1|].
  apply exec_frame in E1 as (F1 & _ & _ & _ & F5 & _). cbn [set_sched km_sched km_delay] in F1, F5.
  rewrite S2, M2 in E0. pose proof (sched_tick_ok _ _ _ E0) as (Es & Es').
  split; [|split; [cbn [set_idle km_sched]; rewrite F1, Es, Hn, Hm; reflexivity|]].
  2:{ intros X. specialize (Hd X). cbn [set_idle km_delay]. rewrite F5. unfold slowed. destruct (N.ltb_spec 0 (km_delay a)); cbn [set_delay km_delay]; unfold u8 in *; lia. }
  assert (Hi : incl (times (set_idle a1 a2)) (times a)).
  { unfold times. cbn [set_idle km_sched]. rewrite Y. destruct Es' as [(_ & -> & _)|(en & El & _)]; [apply incl_refl|]. rewrite El, map_app. apply incl_appl, incl_refl. }
  assert (Hz : (work (set_idle a1 a2) < work a)%nat \/ work (set_idle a1 a2) = work a).
  { unfold work. cbn [set_idle km_pending km_inq]. rewrite P2, Q2 in Z. destruct Z as [(-> & ->)|(p & -> & -> & ->)]; [now right|left; lia]. }
  destruct Hw as [Hw|(Hw & Hti & Hq)]; [left; lia|]. destruct Hz as [Hz|Hz]; [left; lia|]. right. split; [lia|]. split; [now rewrite <- Hti|exact Hq].
Qed.

Lemma run_cspaced ops k : Forall (fun o => plain_op o = true) ops -> one_pace ops -> run_ops conf fuel ops k0 = Ok k -> in_turn (let_in ops) ->
  core anyC anyD anyTr (let_in ops) k /\ spaced k.
Proof.
  revert k. induction ops as [|o ops IH] using rev_ind; intros k Ho Hp H Ht.
  - injection H as <-. split; [apply ccore_new; exact Logic.I|apply spaced_new].
  - split; [eapply ccore_any; apply run_ccore; assumption|].
    rewrite run_ops_app in H. inv_bind H. unfold run_ops in H. cbn [fold_res] in H. inv_bind H. injection H as <-.
    apply Forall_app in Ho as (Ho1 & Ho2). inversion Ho2 as [|? ? Hop _]; subst. clear Ho2.
    destruct (IH a) as (C & Hs); [exact Ho1| |exact E| |].
    + intros a' ms z' X. apply (Hp a' ms (z' ++ [o])). rewrite X, <- app_assoc. reflexivity.
    + rewrite (clet_in_snoc _ _ _ _ _ _ _ _ _ E) in Ht. now apply in_turn_app in Ht.
    + eapply op_cspaced; [exact Hop|exact E|exact C|exact Ht| |exact E0|exact Hs].
      intros ms ->. destruct (Hp ops ms [] eq_refl) as (A & B). split; [exact A|].
      apply plain_basic in Ho1 as (_ & Hti). pose proof (run_ops_clock _ fuel ops Hti _ _ E) as X. unfold clocks_run in B. change (clocks_of k0) with clocks_new in X. rewrite <- X in B. exact B.
Qed.

(** How many more ticks it takes at most, from a state after a tick. *)
Hypothesis Hasks : forall ops k u, run_ops conf fuel ops k0 = Ok k -> undecided k = Some u -> next_event_time (km_sched k) <> Ok None.
Lemma cnothing_timed (k : ckeymap) : spaced k -> km_delay k = 0 -> ahead k 0 -> times k = [].
Proof.
  clear. intros (Hm & _ & _ & Hb & _) Hd Ha. unfold ahead in Ha. fold (times k) in Hb. destruct (times k) as [|t l]; [reflexivity|]. exfalso.
  inversion Hb as [|? ? (B1 & B2 & B3) _]; subst. inversion Ha; subst. rewrite Hd in B3. unfold u8, u16, u32 in *. lia.
Qed.
Lemma csettles n : forall r ops k, Forall (fun o => plain_op o = true) ops -> one_pace (ops ++ repeat OpTick n) -> in_turn (let_in ops) ->
  run_ops conf fuel ops k0 = Ok k -> km_delay k = 0 -> ahead k r ->
  (work k * (N.to_nat (chc_timeout cc) + 1) + r <= n)%nat -> forall k', run_ops conf fuel (repeat OpTick n) k = Ok k' -> km_has_scheduled_events k' = false.
Proof.
  induction n as [|n IH]; intros r ops k Ho Hp Ht Hk Hd Ha Hn k' H.
  - injection H as <-. rewrite app_nil_r in Hp. destruct (run_cspaced ops k Ho Hp Hk Ht) as ((Hs & _) & Hsp).
    assert (r = 0%nat) as -> by lia. pose proof (cnothing_timed _ Hsp Hd Ha) as Hti. apply map_eq_nil in Hti.
    assert (Hw : work k = 0%nat) by nia. unfold work in Hw. destruct (km_pending k); [lia|]. destruct (km_inq k) as [|x w] eqn:Eq; [|cbn in Hw; lia].
    unfold km_has_scheduled_events. now rewrite Hs, Hti, Eq.
  - cbn [repeat] in *. unfold run_ops in H. cbn [fold_res] in H. inv_bind H. fold (run_ops conf fuel (repeat OpTick n) a) in H.
    assert (Hp1 : one_pace ops). { intros a' ms z X. apply (Hp a' ms (z ++ OpTick :: repeat OpTick n)). rewrite X, <- app_assoc. reflexivity. }
    destruct (run_cspaced ops k Ho Hp1 Hk Ht) as (Hc & Hsp).
    destruct (ctick_eases _ k a Hc Ht E) as (Hw & Hcn & Hd1). specialize (Hd1 ltac:(unfold u8 in *; lia)).
    assert (Ho2 : Forall (fun o => plain_op o = true) (ops ++ [OpTick])) by (apply Forall_app; split; [exact Ho|repeat constructor]).
    assert (Hk2 : run_ops conf fuel (ops ++ [OpTick]) k0 = Ok a). { rewrite run_ops_app, Hk. cbn [bind]. unfold run_ops. cbn [fold_res]. now rewrite E. }
    assert (El : let_in (ops ++ [OpTick]) = let_in ops). { rewrite (clet_in_snoc _ _ _ _ _ _ _ _ _ Hk). cbn. apply app_nil_r. }
    assert (Hp2 : one_pace ((ops ++ [OpTick]) ++ repeat OpTick n)) by (rewrite <- app_assoc; exact Hp).
    assert (Go : forall r', ahead a r' -> (work a * (N.to_nat (chc_timeout cc) + 1) + r' <= n)%nat -> km_has_scheduled_events k' = false).
    { intros r' A B. eapply (IH r' (ops ++ [OpTick]) a); try eassumption. now rewrite El. }
    assert (Hsp2 : spaced a). { apply (run_cspaced (ops ++ [OpTick]) a Ho2); [|exact Hk2|now rewrite El]. intros a' ms z X. apply (Hp2 a' ms (z ++ repeat OpTick n)). rewrite X, <- app_assoc. reflexivity. }
    assert (Hm : 0 < km_ms_per_tick k) by apply Hsp.
    destruct Hw as [Hw|(Hw & Hi & Hq)].
    + apply (Go (N.to_nat (chc_timeout cc))); [|nia]. destruct Hsp2 as (_ & _ & _ & Hb & _). unfold ahead. eapply Forall_impl; [|exact Hb].
      cbn. intros t (_ & _ & X). unfold u8, u16, u32 in *. lia.
    + destruct r as [|r].
      * pose proof (cnothing_timed _ Hsp Hd Ha) as Hti. rewrite Hti in Hi. apply incl_l_nil in Hi. apply (Go 0%nat); [unfold ahead; rewrite Hi; constructor|].
        assert (Hpn : km_pending k = None).
        { destruct (km_pending k) as [p|] eqn:Ep; [|reflexivity]. exfalso. eapply (Hasks ops k); [exact Hk|unfold undecided; rewrite Ep; reflexivity|].
          destruct Hc as (Hs & _). apply map_eq_nil in Hti. unfold next_event_time. now rewrite Hs, Hti. }
        rewrite Hw. unfold work. rewrite Hpn, (Hq Hd Hpn). cbn. lia.
      * apply (Go r); [|lia]. unfold ahead in *. apply Forall_forall. intros t Hin. apply Hi in Hin. pose proof (proj1 (Forall_forall _ _) Ha _ Hin) as X. cbn in X.
        rewrite Hcn. unfold u8, u32 in *. lia.
Qed.
Lemma csettle_all n ops k : Forall (fun o => plain_op o = true) ops -> one_pace ops -> in_turn (let_in ops) -> (96 * (N.to_nat (chc_timeout cc) + 1) <= n)%nat ->
  run_ops conf fuel (ops ++ repeat OpTick n) k0 = Ok k -> km_has_scheduled_events k = false.
Proof.
  intros Ho Hp Ht Hn H. destruct n as [|n]; [lia|]. rewrite run_ops_app in H. inv_bind H. cbn [repeat] in H. unfold run_ops in H. cbn [fold_res] in H. inv_bind H. fold (run_ops conf fuel (repeat OpTick n) a0) in H.
  destruct (run_cspaced ops a Ho Hp E Ht) as (Hc & Hsp).
  destruct (ctick_eases _ a a0 Hc Ht E0) as (Hw & _ & Hd1). specialize (Hd1 ltac:(apply Hsp)).
  assert (Ho2 : Forall (fun o => plain_op o = true) (ops ++ [OpTick])) by (apply Forall_app; split; [exact Ho|repeat constructor]).
  assert (Hk2 : run_ops conf fuel (ops ++ [OpTick]) k0 = Ok a0). { rewrite run_ops_app, E. cbn [bind]. unfold run_ops. cbn [fold_res]. now rewrite E0. }
  assert (El : let_in (ops ++ [OpTick]) = let_in ops). { rewrite (clet_in_snoc _ _ _ _ _ _ _ _ _ E). cbn. apply app_nil_r. }
  assert (Hrep : forall m, one_pace (ops ++ repeat OpTick m)).
  { intros m. induction m as [|m IHm]; [now rewrite app_nil_r|]. cbn [repeat]. rewrite (repeat_cons m OpTick). rewrite app_assoc.
    intros a' ms z X. destruct z as [|z0 z] using rev_ind.
    - exfalso. change (a' ++ [OpSetMs ms]) with (a' ++ [OpSetMs ms]) in X. apply app_inj_tail in X as (_ & X). discriminate X.
    - clear IHz. change (a' ++ OpSetMs ms :: z ++ [z0]) with (a' ++ (OpSetMs ms :: z) ++ [z0]) in X. rewrite app_assoc in X. apply app_inj_tail in X as (X & _). exact (IHm _ _ _ X). }
  assert (Hsp2 : spaced a0). { apply (run_cspaced (ops ++ [OpTick]) a0 Ho2); [exact (Hrep 1%nat)|exact Hk2|now rewrite El]. }
  assert (X17 : inv17 a0) by (eapply run_ops_inv17; [|exact Hk2]; repeat split; cbn; try (unfold MAX_PRESSED_KEYS, INPUT_QUEUE_CAPACITY, PENDING_CAPACITY, MAX_SCHEDULED_EVENTS; lia); discriminate).
  assert (Hwk : (work a0 <= 95)%nat).
  { destruct X17 as (_ & Q1 & Q2 & _). change MAX_PRESSED_KEYS with 16%nat in Q1. change INPUT_QUEUE_CAPACITY with 31%nat in Q2. unfold work. destruct (km_pending a0) as [p|]; [specialize (Q1 p eq_refl)|]; lia. }
  eapply (csettles n (N.to_nat (chc_timeout cc)) (ops ++ [OpTick]) a0); [exact Ho2| |now rewrite El|exact Hk2|exact Hd1| |nia|exact H].
  - rewrite <- app_assoc. exact (Hrep (S n)).
  - destruct Hsp2 as (_ & _ & _ & Hb & _). unfold ahead. eapply Forall_impl; [|exact Hb]. cbn. intros t (_ & _ & X). unfold u8, u16, u32 in *. lia.
Qed.
End ChordLive.
