(** Keyboards with layers and tap-dance keys settle when they are left alone, and no
    dance goes on after its time (C76). *)
From Coq Require Import Sorted.
From Verif Require Import BaseFacts Output Types Scheduler Reporter Keymap SimpleKeys TapHold TapDance Sticky CapsWord
  Layered Automation Chorded Composite SpecKeymap KeymapHist KeymapInv KeymapQueue KeymapCalls KeymapApi SpecPlain PlainFacts
  SpecLayer LayerFacts SpecTap TapFacts TapTime CtxFacts SpecDecide SpecBoard BoardFacts SpecScheduler SchedulerFacts SpecTapBoard TapBoardFacts TapBoardTotal TapBoardLive
  SpecDanceBoard DanceBoardFacts.
Local Open Scope N_scope.

(** What there is left to do. *)
Definition to_do (s : dancing) : nat :=
  (20 * match da_dance s with Some dn => 1 + 2 * (length (dn_seen dn) + length (da_waiting s)) | None => 2 * length (da_waiting s) end + length (da_waiting s))%nat.
Lemma wait_again_length i l : (length (wait_again i l) <= length l)%nat.
Proof.
  unfold wait_again. rewrite app_length. assert (A : (length (last_one (filter (about_key i) l)) <= length (filter (about_key i) l))%nat).
  { unfold last_one. rewrite <- (rev_length (filter _ l)). destruct (rev _); cbn; lia. }
  assert (B : (length (filter (fun x => negb (about_key i x)) l) + length (filter (about_key i) l) = length l)%nat).
  { clear A. induction l as [|x l IH]; [reflexivity|]. cbn [filter length]. destruct (about_key i x); cbn [negb length]; lia. }
  lia.
Qed.
Lemma becomes_less n d s dn c s' : becomes n d s dn c s' -> (length (dn_seen dn) <= 17)%nat ->
  (to_do s' < 20 * (1 + 2 * (length (dn_seen dn) + length (da_waiting s))) + length (da_waiting s))%nat /\ da_dance s' = None.
Proof. intros [r m _ _] H. split; [|reflexivity]. unfold to_do. cbn [da_dance da_waiting]. rewrite app_length. pose proof (wait_again_length (dn_key dn) (dn_seen dn)). lia. Qed.
Lemma takes_less n refs d T now s s' : takes n refs d T now s s' -> (forall dn, da_dance s = Some dn -> (length (dn_seen dn) <= 16)%nat) ->
  (s' = s /\ da_waiting s = [] \/ (to_do s' < to_do s)%nat) /\ (forall dn, da_dance s' = Some dn -> (length (dn_seen dn) <= 17)%nat).
Proof.
  intros H Hl. destruct H as [Hw|x w b' cs Hd Hw Hst Hcs|i w r choices Hd Hw Hi Er Hda|i choices seen due x w Hd Hw Hlen|i choices seen due x w s' Hd Hw Hlen Hb].
  - split; [now left|]. intros dn E. specialize (Hl _ E). lia.
  - split; [right|discriminate]. unfold to_do. cbn [da_dance da_waiting]. rewrite Hd, Hw. cbn [length]. lia.
  - split; [right|intros dn E; injection E as <-; cbn; lia]. unfold to_do. cbn [da_dance da_waiting dn_seen length]. rewrite Hd, Hw. cbn [length]. lia.
  - specialize (Hl _ Hd). cbn in Hl. split; [right|intros dn E; injection E as <-; cbn; rewrite app_length; cbn; lia].
    unfold to_do. cbn [da_dance da_waiting dn_seen]. rewrite Hd, Hw, app_length. cbn [length dn_seen]. lia.
  - specialize (Hl _ Hd). cbn in Hl. apply becomes_less in Hb as (Hb & Hn); [|cbn; rewrite app_length; cbn; lia].
    split; [right|rewrite Hn; discriminate]. cbn [dn_seen da_waiting] in Hb. rewrite app_length in Hb. cbn [length] in Hb. unfold to_do at 2. rewrite Hd, Hw. cbn [length dn_seen]. lia.
Qed.
Lemma passes_less n d now s up s' : passes n d now s up s' -> (forall dn, da_dance s = Some dn -> (length (dn_seen dn) <= 17)%nat) -> s' = s \/ (to_do s' < to_do s)%nat.
Proof.
  intros [|dn s2 Hd Hdue Hb] Hl; [now left|]. right. apply becomes_less in Hb as (Hb & _); [|now apply Hl]. unfold to_do at 2. now rewrite Hd.
Qed.

Section DanceLive.
Variables (refs : list ref) (d : key_data) (pos : position_fn) (dbg : bool) (cf : config) (height f : nat).
Hypothesis Hrefs : Forall (dance_board_key (cf_layer_count cf) d height) refs.
Hypothesis Hpos : position_ok pos.
Variable L : list (callback * callback_fn).
Local Notation conf := (cconf refs d pos dbg).
Local Notation n := (cf_layer_count cf).
Local Notation T := (tdc_timeout (cf_tap_dance cf)).
Local Notation k0 := (set_callbacks (km_new (ctx_from_config cf)) L).
Local Notation fuel := (S (S (S (S (S (S (S (S (height + f))))))))).
Local Notation dcore := (dcore d n height L).
Local Notation spaced := (spaced T).
Local Notation plain ops := (Forall (fun o => plain_op o = true) ops).

(** What a tick does, with the state between its two halves. *)
Definition moved (k a : ckeymap) : Prop :=
  times a = times k \/ exists e s1, sched_after pos (km_sched k) T e = Ok s1 /\ times a = map en_time (sc_scheduled s1).
Lemma tick_dance ops s (k k' : ckeymap) : plain ops -> run_ops conf fuel ops k0 = Ok k -> dcore s k -> km_tick conf fuel k = Ok k' ->
  exists s1 (a : ckeymap) sc up s2, turn n refs d T (now_after ops) s s1 /\ dcore s1 a
    /\ (a = set_ctx k (km_ctx a) /\ s1 = s \/ da_busy s = false /\ da_busy s1 = true /\ moved k a)
    /\ sc_counter (km_sched a) = sc_counter (km_sched k) /\ km_ms_per_tick a = km_ms_per_tick k
    /\ sched_tick (km_sched a) (km_ms_per_tick k) = Ok sc
    /\ passes n d (now_after (ops ++ [OpTick])) (rested s1) up s2 /\ dcore s2 k' /\ da_busy s2 = false
    /\ times k' = map en_time (sc_scheduled sc) /\ sc_counter (km_sched k') = sc_counter sc /\ km_ms_per_tick k' = km_ms_per_tick k.
Proof.
  intros Hops Hrun Hc H. pose proof (plain_basic _ Hops) as (_ & Hti).
  assert (Hcf : tdc_timeout (tdx_config (cx_tap_dance (km_ctx k))) = T) by (pose proof (run_ops_config _ _ _ _ _ _ _ _ Hrun) as (_ & A & _); now rewrite A).
  assert (Hck : clocks_run ops = mkClocks (sc_counter (km_sched k)) (km_idle k) (km_ms_per_tick k)).
  { symmetry. exact (run_ops_clock _ fuel ops Hti _ _ Hrun). }
  assert (Hnow : now_after ops = sc_counter (km_sched k)) by (unfold now_after; now rewrite Hck).
  pose proof Hc as (Hs & HL & Hcl & Hq & Hd & _).
  rewrite tick_step in H. cbn zeta in H. set (k1 := set_ctx k _) in H.
  assert (Hc1 : dcore s k1). { eapply dcore_same; [exact Hc|..]; try reflexivity; auto. }
  inv_bind H. change (if 0 <? km_delay a then set_delay a (km_delay a - 1) else a) with (slowed a) in H. inv_bind H. inv_bind H. inv_bind H. injection H as <-.
  assert (X : exists s1, turn n refs d T (now_after ops) s s1 /\ dcore s1 a /\ (a = set_ctx k (km_ctx a) /\ s1 = s \/ da_busy s = false /\ da_busy s1 = true /\ moved k a)
     /\ sc_counter (km_sched a) = sc_counter (km_sched k) /\ km_ms_per_tick a = km_ms_per_tick k).
  { unfold turn. rewrite Hnow. destruct (da_busy s) eqn:Eb.
    - exists s. split; [reflexivity|]. assert (a = k1) as ->; [|split; [exact Hc1|auto]]. destruct (km_inq k); [now injection E as <-|]. rewrite Hd in E. now injection E as <-.
    - destruct (km_inq k) as [|x w] eqn:Eq.
      { exists s. split; [now constructor|]. injection E as <-. split; [exact Hc1|auto]. }
      rewrite Hd in E. change (0 =? 0) with true in E. cbn iota in E. inv_bind E. injection E as <-.
      assert (Ex : exec conf (S (S (S (S (S (S (S (height + (1 + f))))))))) (JProcessInput x) (set_inq k1 w) = Ok a3).
      { replace (height + (1 + f))%nat with (S (height + f)) by lia. exact E3. }
      destruct (core_dtake refs d pos dbg n height Hrefs L (1 + f) _ k1 a3 x w Hc1 Eq Ex) as (s' & Ht & Hc' & Hb & Hn & Hm & Hmv). exists s'.
      change (tdc_timeout (tdx_config (cx_tap_dance (km_ctx k1)))) with (tdc_timeout (tdx_config (cx_tap_dance (km_ctx k)))) in Ht, Hmv. rewrite Hcf in Ht, Hmv.
      split; [exact Ht|]. split; [exact Hc'|]. split; [right; split; [reflexivity|split; [exact Hb|exact Hmv]]|auto]. }
  destruct X as (s1 & Ht & Hc2 & Hmv & Hn & Hm).
  assert (Hd2 : km_delay a = if da_busy s1 then 1 else 0) by apply Hc2.
  assert (Hc3 : dcore (rested s1) (slowed a) /\ km_sched (slowed a) = km_sched a /\ km_ms_per_tick (slowed a) = km_ms_per_tick k).
  { pose proof Hc2 as (_ & _ & _ & Hq2 & _). unfold slowed. rewrite Hd2. destruct (da_busy s1); cbn [N.ltb N.compare N.sub]; (split; [|split; [reflexivity|assumption]]); (eapply dcore_same; [exact Hc2|..]; try reflexivity; auto). }
  destruct Hc3 as (Hc3 & Hn3 & Hm3).
  destruct (core_dtimer refs d pos dbg n height L f _ _ a1 _ Hc3 E0 E1) as (up & s2 & Hp & Hc4 & Hti4). rewrite Hn3, Hm3, Hn in Hp. rewrite Hn3, Hm3 in E0.
  exists s1, a, a0, up, s2. split; [exact Ht|]. split; [exact Hc2|]. split; [exact Hmv|]. split; [exact Hn|]. split; [exact Hm|]. split; [exact E0|].
  apply exec_frame in E1 as (F1 & F2 & _ & _ & F3 & _). cbn [set_sched km_sched km_ms_per_tick km_delay] in F1, F2, F3.
  split; [unfold now_after, clocks_run in *; rewrite fold_left_app, Hck; exact Hp|].
  split; [pose proof Hc4 as (_ & _ & _ & Q4 & D4 & _); eapply dcore_same; [exact Hc4|..]; try reflexivity; auto|].
  split; [destruct Hp as [|dn s2 _ _ [r m _ _]]; reflexivity|]. split; [exact Hti4|]. split; [exact F1|]. cbn [set_idle km_ms_per_tick]. congruence.
Qed.
Lemma moved_spaced k a : spaced k -> km_delay k = 0 -> sc_counter (km_sched a) = sc_counter (km_sched k) -> km_ms_per_tick a = km_ms_per_tick k -> moved k a ->
  spaced (set_delay a INPUT_QUEUE_TICK_DELAY).
Proof.
  intros Hs Hd Hn Hm [Hi|(e & s1 & Es & Hi)].
  - eapply (spaced_take pos); [exact Hpos|exact Hs|exact Hd|exact Hn|exact Hm|]. now left.
  - assert (X : spaced (set_delay (set_sched a s1) INPUT_QUEUE_TICK_DELAY)).
    { eapply (spaced_take pos); [exact Hpos|exact Hs|exact Hd| |exact Hm|right; exists e; exact Es]. cbn [set_sched km_sched]. now apply sched_after_ok in Es as (_ & -> & _). }
    eapply spaced_same; [exact X|..]; try reflexivity; [|exact Hi]. cbn [set_sched set_delay km_sched]. apply sched_after_ok in Es as (_ & -> & _). exact Hn.
Qed.
Lemma op_dspaced ops s (k k' : ckeymap) o : plain (ops ++ [o]) -> run_ops conf fuel ops k0 = Ok k -> dcore s k ->
  (forall ms, o = OpSetMs ms -> 0 < ms /\ sc_counter (km_sched k) = 0) -> run_op conf fuel k o = Ok k' -> spaced k -> spaced k'.
Proof.
  intros Hops Hrun Hc Hms H Hsp. apply Forall_app in Hops as (Hops & Ho). inversion Ho as [|? ? Hop _]; subst. clear Ho.
  assert (Hcf : tdc_timeout (tdx_config (cx_tap_dance (km_ctx k))) = T) by (pose proof (run_ops_config _ _ _ _ _ _ _ _ Hrun) as (_ & A & _); now rewrite A).
  pose proof Hc as (Hs & HL & Hcl & Hq & Hd & _).
  destruct o as [ev| |dd ev| | | |ms|c g]; try discriminate Hop; cbn [run_op] in *.
  - unfold km_handle_input in H. cbn zeta in H. change (km_inq (set_idle k 0)) with (km_inq k) in H. change INPUT_QUEUE_CAPACITY with 31%nat in H.
    destruct (length (km_inq k) <? 31)%nat; [|injection H as <-; eapply spaced_same; [exact Hsp|reflexivity..]].
    set (k1 := set_inq (set_idle k 0) (km_inq k ++ [ev])) in *.
    assert (Hc1 : dcore (heard s ev) k1). { eapply dcore_same; [exact Hc|..]; try reflexivity; auto. cbn. now rewrite Hq. }
    assert (Hsp1 : spaced k1) by (eapply spaced_same; [exact Hsp|reflexivity..]).
    destruct (N.eqb_spec (km_delay k1) 0) as [Hd0|_]; [|injection H as <-; exact Hsp1].
    destruct (km_inq k1) as [|x w] eqn:Eq; [discriminate|]. inv_bind H. injection H as <-.
    assert (Ex : exec conf (S (S (S (S (S (S (S (height + (1 + f))))))))) (JProcessInput x) (set_inq k1 w) = Ok a).
    { replace (height + (1 + f))%nat with (S (height + f)) by lia. exact E. }
    destruct (core_dtake refs d pos dbg n height Hrefs L (1 + f) _ k1 a x w Hc1 Eq Ex) as (s' & _ & _ & _ & Hn & Hm & Hmv).
    change (km_ctx k1) with (km_ctx k) in Hmv. rewrite Hcf in Hmv. eapply moved_spaced; [exact Hsp1|exact Hd0|exact Hn|exact Hm|exact Hmv].
  - destruct (tick_dance ops s k k' Hops Hrun Hc H) as (s1 & a & sc & up & s2 & Ht & Hc1 & Hmv & Hn & Hm & Et & _ & Hc2 & Hb2 & Hti & Hcn & Hm2).
    assert (Hd2 : km_delay k' = 0). { destruct Hc2 as (_ & _ & _ & _ & X & _). rewrite X, Hb2. reflexivity. }
    assert (Hspa : spaced a).
    { destruct Hmv as [(-> & ->)|(Hb & Hb1 & Hmv)]; [eapply spaced_same; [exact Hsp|reflexivity..]|]. rewrite Hb in Hd.
      pose proof (moved_spaced k a Hsp Hd Hn Hm Hmv) as X. eapply spaced_same; [exact X|reflexivity|reflexivity| |reflexivity]. destruct Hc1 as (_ & _ & _ & _ & Y & _). rewrite Y, Hb1. reflexivity. }
    rewrite <- Hm in Et. eapply spaced_tick; [exact Hspa|exact Et|congruence|exact Hd2|exact Hcn|exact Hti].
  - unfold km_report_output in H. inv_bind H. inv_bind E. injection E as <-. injection H as <-. eapply spaced_same; [exact Hsp|reflexivity..].
  - injection H as <-. destruct (Hms _ eq_refl) as (Hm & H0). destruct Hsp as (_ & Hd1 & Hs1 & Hb & H1). specialize (H1 H0).
    unfold spaced. cbn [km_sched km_delay km_ms_per_tick set_ms_per_tick km_set_ms_per_tick]. split; [exact Hm|]. split; [exact Hd1|].
    destruct H1 as [H1|(H1 & H2)].
    + rewrite H1 in *. split; [constructor|]. split; [constructor|]. intros _. now left.
    + destruct (map en_time (sc_scheduled (km_sched k))) as [|t [|t' l]]; try discriminate H2. split; [repeat constructor|]. split; [|intros _; right; auto].
      inversion Hb as [|? ? Hb1 _]; subst. constructor; [|constructor]. rewrite H1 in *. change (1 - 1) with 0 in *. rewrite N.mul_0_r in *. exact Hb1.
Qed.
Lemma pace_app ops ops' : one_pace (ops ++ ops') -> one_pace ops.
Proof. clear. intros Hp a' ms z X. apply (Hp a' ms (z ++ ops')). rewrite X, <- app_assoc. reflexivity. Qed.
Lemma run_dspaced ops k : plain ops -> one_pace ops -> run_ops conf fuel ops k0 = Ok k -> spaced k.
Proof.
  revert k. induction ops as [|o ops IH] using rev_ind; intros k Ho Hp H.
  - injection H as <-. apply spaced_new.
  - rewrite run_ops_app in H. inv_bind H. unfold run_ops in H. cbn [fold_res] in H. inv_bind H. injection H as <-.
    assert (Ho1 : plain ops) by now apply Forall_app in Ho.
    destruct (run_dance refs d pos dbg cf height f Hrefs L ops a Ho1 E) as (ups & s & _ & Hc).
    eapply op_dspaced; [exact Ho|exact E|exact Hc| |exact E0|apply IH; [exact Ho1|now apply pace_app in Hp|exact E]].
    intros ms ->. destruct (Hp ops ms [] eq_refl) as (A & B). split; [exact A|].
    apply plain_basic in Ho1 as (_ & Hti). pose proof (run_ops_clock _ fuel ops Hti _ _ E) as X. unfold clocks_run in B. change (clocks_of k0) with clocks_new in X. rewrite <- X in B. exact B.
Qed.
(** No dance goes on after its time. *)
Lemma dance_in_time s k : dcore s k -> spaced k -> 0 < T -> forall dn, da_dance s = Some dn -> sc_counter (km_sched k) < dn_due dn.
Proof.
  clear. intros (_ & _ & _ & _ & _ & X) (_ & _ & _ & Hb & _) HT dn Ed. rewrite Ed in X. destruct X as (q & pad & _ & Hf & Hex).
  apply Exists_exists in Hex as (e & Hin & Hl & He). destruct (proj1 (Forall_forall _ _) Hf _ Hin Hl) as (c & Ec & _ & Hdue).
  rewrite He in Ec. injection Ec as Ec. rewrite <- (Hdue (eq_sym Ec)). apply (proj1 (Forall_forall _ _) Hb (en_time e)); [now apply in_map|exact HT].
Qed.
Lemma run_prompt ops k : plain ops -> one_pace ops -> 0 < T -> run_ops conf fuel ops k0 = Ok k -> exists s, prompt_run n refs d T ops s /\ dcore s k.
Proof.
  intros Ho Hp HT. revert k. induction ops as [|o ops IH] using rev_ind; intros k H.
  - injection H as <-. exists dancing_new. split; [constructor|apply dcore_new].
  - pose proof (run_dspaced _ _ Ho Hp H) as Hsp. pose proof (plain_basic _ Ho) as (_ & Hti). pose proof (run_ops_clock _ fuel _ Hti _ _ H) as Hck.
    rewrite run_ops_app in H. inv_bind H. unfold run_ops in H. cbn [fold_res] in H. inv_bind H. injection H as <-.
    destruct (IH ltac:(now apply Forall_app in Ho) ltac:(now apply pace_app in Hp) a E) as (s & Hr & Hc).
    destruct (op_dance refs d pos dbg cf height f Hrefs L ops s a a0 o Ho E Hc E0) as (up & s' & Hcall & Hc'). exists s'. split; [|exact Hc'].
    econstructor; [exact Hr|exact Hcall|]. intros dn Ed. pose proof (dance_in_time _ _ Hc' Hsp HT _ Ed) as X. unfold now_after, clocks_run. change (clocks_of k0) with clocks_new in Hck. rewrite <- Hck. exact X.
Qed.

(** How many more ticks it takes at most, from a state after a tick. *)
Definition k_to_do (k : ckeymap) : nat := (20 * work k + length (km_inq k))%nat.
Lemma to_do_same s k : dcore s k -> k_to_do k = to_do s.
Proof.
  clear. intros (_ & _ & _ & Hq & _ & X). unfold k_to_do, work, to_do. rewrite Hq. destruct (da_dance s) as [dn|].
  - destruct X as (q & pad & (U & _) & _). rewrite U. unfold dwaits. cbn [pd_queued]. now rewrite map_length.
  - destruct X as ((_ & _ & _ & _ & _ & U) & _). now rewrite U.
Qed.
Lemma dtick_eases ops s (k k' : ckeymap) : plain ops -> run_ops conf fuel ops k0 = Ok k -> dcore s k -> inv17 k -> km_tick conf fuel k = Ok k' ->
  ((k_to_do k' < k_to_do k)%nat \/ k_to_do k' = k_to_do k /\ incl (times k') (times k) /\ (km_delay k = 0 -> km_inq k = []))
  /\ sc_counter (km_sched k') = sc_counter (km_sched k) + km_ms_per_tick k /\ km_delay k' = 0.
Proof.
  intros Hops Hrun Hc Hi H. destruct (tick_dance ops s k k' Hops Hrun Hc H) as (s1 & a & sc & up & s2 & Ht & Hc1 & Hmv & Hn & Hm & Et & Hp & Hc2 & Hb2 & Hti & Hcn & Hm2).
  rewrite (to_do_same _ _ Hc), (to_do_same _ _ Hc2). pose proof Hc as (_ & _ & _ & Hq & Hd & X).
  assert (Hl : forall dn, da_dance s = Some dn -> (length (dn_seen dn) <= 16)%nat).
  { intros dn Ed. rewrite Ed in X. destruct X as (q & pad & (U & _) & _). destruct Hi as (_ & Q1 & _). specialize (Q1 _ U). unfold dwaits in Q1. cbn [pd_queued] in Q1. now rewrite map_length in Q1. }
  assert (Ht2 : (s1 = s /\ (da_busy s = false -> da_waiting s = []) \/ (to_do s1 < to_do s)%nat) /\ (forall dn, da_dance s1 = Some dn -> (length (dn_seen dn) <= 17)%nat)).
  { unfold turn in Ht. destruct (da_busy s).
    - subst s1. split; [left; split; [reflexivity|discriminate]|]. intros dn E. specialize (Hl _ E). lia.
    - apply takes_less in Ht as ([(A & B)|A] & C); auto. }
  destruct Ht2 as (Ht2 & Hl2). pose proof (sched_tick_ok _ _ _ Et) as (Es & Es').
  split; [|split; [rewrite Hcn, Es, Hn; reflexivity|destruct Hc2 as (_ & _ & _ & _ & Y & _); rewrite Y, Hb2; reflexivity]].
  assert (Hz : s2 = rested s1 \/ (to_do s2 < to_do s1)%nat) by (apply passes_less in Hp; [exact Hp|exact Hl2]).
  destruct Ht2 as [(-> & Hw)|Ht2].
  2:{ left. destruct Hz as [->|Hz]; [exact Ht2|lia]. }
  destruct Hz as [->|Hz]; [|left; exact Hz]. right. split; [reflexivity|]. split.
  - rewrite Hti. assert (Ea : times a = times k).
    { destruct Hmv as [(-> & _)|(A & B & _)]; [reflexivity|congruence]. }
    rewrite <- Ea. unfold times. destruct Es' as [(_ & -> & _)|(en & El & _)]; [apply incl_refl|]. rewrite El, map_app. apply incl_appl, incl_refl.
  - rewrite Hd, Hq. destruct (da_busy s); [intros Y; discriminate Y|auto].
Qed.
Hypothesis Hasks : forall ops k u, run_ops conf fuel ops k0 = Ok k -> undecided k = Some u -> next_event_time (km_sched k) <> Ok None.
Lemma dnothing_timed (k : ckeymap) : spaced k -> km_delay k = 0 -> ahead k 0 -> times k = [].
Proof.
  clear. intros (Hm & _ & _ & Hb & _) Hd Ha. unfold ahead in Ha. fold (times k) in Hb. destruct (times k) as [|t l]; [reflexivity|]. exfalso.
  inversion Hb as [|? ? (B1 & B2 & B3) _]; subst. inversion Ha; subst. rewrite Hd in B3. unfold u8, u16, u32 in *. lia.
Qed.
Lemma dsettles m : forall r ops k, plain ops -> one_pace (ops ++ repeat OpTick m) ->
  run_ops conf fuel ops k0 = Ok k -> km_delay k = 0 -> ahead k r ->
  (k_to_do k * (N.to_nat T + 1) + r <= m)%nat -> forall k', run_ops conf fuel (repeat OpTick m) k = Ok k' -> km_has_scheduled_events k' = false.
Proof.
  induction m as [|m IH]; intros r ops k Ho Hp Hk Hd Ha Hn k' H.
  - injection H as <-. rewrite app_nil_r in Hp. pose proof (run_dspaced ops k Ho Hp Hk) as Hsp. destruct (run_dance refs d pos dbg cf height f Hrefs L ops k Ho Hk) as (_ & s & _ & (Hs & _)).
    assert (r = 0%nat) as -> by lia. pose proof (dnothing_timed _ Hsp Hd Ha) as Hti. apply map_eq_nil in Hti.
    assert (Hw : k_to_do k = 0%nat) by nia. unfold k_to_do in Hw. destruct (km_inq k) as [|x w] eqn:Eq; [|cbn in Hw; lia].
    unfold km_has_scheduled_events. now rewrite Hs, Hti, Eq.
  - cbn [repeat] in *. unfold run_ops in H. cbn [fold_res] in H. inv_bind H. fold (run_ops conf fuel (repeat OpTick m) a) in H.
    pose proof (pace_app _ _ Hp) as Hp1. pose proof (run_dspaced ops k Ho Hp1 Hk) as Hsp. destruct (run_dance refs d pos dbg cf height f Hrefs L ops k Ho Hk) as (_ & s & _ & Hc).
    assert (X17 : inv17 k) by (eapply run_ops_inv17; [|exact Hk]; repeat split; cbn; try (unfold MAX_PRESSED_KEYS, INPUT_QUEUE_CAPACITY, PENDING_CAPACITY, MAX_SCHEDULED_EVENTS; lia); discriminate).
    destruct (dtick_eases ops s k a Ho Hk Hc X17 E) as (Hw & Hcn & Hd1).
    assert (Ho2 : plain (ops ++ [OpTick])) by (apply Forall_app; split; [exact Ho|repeat constructor]).
    assert (Hk2 : run_ops conf fuel (ops ++ [OpTick]) k0 = Ok a). { rewrite run_ops_app, Hk. cbn [bind]. unfold run_ops. cbn [fold_res]. now rewrite E. }
    assert (Hp2 : one_pace ((ops ++ [OpTick]) ++ repeat OpTick m)) by (rewrite <- app_assoc; exact Hp).
    assert (Go : forall r', ahead a r' -> (k_to_do a * (N.to_nat T + 1) + r' <= m)%nat -> km_has_scheduled_events k' = false).
    { intros r' A B. eapply (IH r' (ops ++ [OpTick]) a); eassumption. }
    assert (Hsp2 : spaced a). { apply (run_dspaced (ops ++ [OpTick]) a Ho2); [|exact Hk2]. now apply pace_app in Hp2. }
    assert (Hm : 0 < km_ms_per_tick k) by apply Hsp.
    destruct Hw as [Hw|(Hw & Hi & Hq)].
    + apply (Go (N.to_nat T)); [|nia]. destruct Hsp2 as (_ & _ & _ & Hb & _). unfold ahead. eapply Forall_impl; [|exact Hb].
      cbn. intros t (_ & _ & X). unfold u8, u16, u32 in *. lia.
    + destruct r as [|r].
      * pose proof (dnothing_timed _ Hsp Hd Ha) as Hti. rewrite Hti in Hi. apply incl_l_nil in Hi. apply (Go 0%nat); [unfold ahead; rewrite Hi; constructor|].
        assert (Hpn : km_pending k = None).
        { destruct (km_pending k) as [p|] eqn:Ep; [|reflexivity]. exfalso. eapply (Hasks ops k); [exact Hk|unfold undecided; rewrite Ep; reflexivity|].
          destruct Hc as (Hs & _). apply map_eq_nil in Hti. unfold next_event_time. now rewrite Hs, Hti. }
        rewrite Hw. unfold k_to_do, work. rewrite Hpn, (Hq Hd). cbn. lia.
      * apply (Go r); [|lia]. unfold ahead in *. apply Forall_forall. intros t Hin. apply Hi in Hin. pose proof (proj1 (Forall_forall _ _) Ha _ Hin) as X. cbn in X.
        rewrite Hcn. unfold u8, u32 in *. lia.
Qed.
Lemma dsettle_all m ops k : plain ops -> one_pace ops -> (2000 * (N.to_nat T + 1) <= m)%nat ->
  run_ops conf fuel (ops ++ repeat OpTick m) k0 = Ok k -> km_has_scheduled_events k = false.
Proof.
  intros Ho Hp Hn H. destruct m as [|m]; [lia|]. rewrite run_ops_app in H. inv_bind H. cbn [repeat] in H. unfold run_ops in H. cbn [fold_res] in H. inv_bind H. fold (run_ops conf fuel (repeat OpTick m) a0) in H.
  destruct (run_dance refs d pos dbg cf height f Hrefs L ops a Ho E) as (_ & s & _ & Hc).
  assert (X17 : forall ops k, run_ops conf fuel ops k0 = Ok k -> inv17 k).
  { intros ops' k' Hk. eapply run_ops_inv17; [|exact Hk]; repeat split; cbn; try (unfold MAX_PRESSED_KEYS, INPUT_QUEUE_CAPACITY, PENDING_CAPACITY, MAX_SCHEDULED_EVENTS; lia); discriminate. }
  destruct (dtick_eases ops s a a0 Ho E Hc (X17 _ _ E) E0) as (_ & _ & Hd1).
  assert (Ho2 : plain (ops ++ [OpTick])) by (apply Forall_app; split; [exact Ho|repeat constructor]).
  assert (Hk2 : run_ops conf fuel (ops ++ [OpTick]) k0 = Ok a0). { rewrite run_ops_app, E. cbn [bind]. unfold run_ops. cbn [fold_res]. now rewrite E0. }
  assert (Hrep : forall m, one_pace (ops ++ repeat OpTick m)).
  { intros m'. induction m' as [|m' IHm]; [now rewrite app_nil_r|]. cbn [repeat]. rewrite (repeat_cons m' OpTick). rewrite app_assoc.
    intros a' ms z X. destruct z as [|z0 z] using rev_ind.
    - exfalso. change (a' ++ [OpSetMs ms]) with (a' ++ [OpSetMs ms]) in X. apply app_inj_tail in X as (_ & X). discriminate X.
    - clear IHz. change (a' ++ OpSetMs ms :: z ++ [z0]) with (a' ++ (OpSetMs ms :: z) ++ [z0]) in X. rewrite app_assoc in X. apply app_inj_tail in X as (X & _). exact (IHm _ _ _ X). }
  assert (Hsp2 : spaced a0) by (apply (run_dspaced (ops ++ [OpTick]) a0 Ho2); [exact (Hrep 1%nat)|exact Hk2]).
  assert (Hwk : (k_to_do a0 <= 1999)%nat).
  { destruct (X17 _ _ Hk2) as (_ & Q1 & Q2 & _). change MAX_PRESSED_KEYS with 16%nat in Q1. change INPUT_QUEUE_CAPACITY with 31%nat in Q2. unfold k_to_do, work. destruct (km_pending a0) as [p|]; [specialize (Q1 p eq_refl)|]; lia. }
  eapply (dsettles m (N.to_nat T) (ops ++ [OpTick]) a0); [exact Ho2| |exact Hk2|exact Hd1| |nia|exact H].
  - rewrite <- app_assoc. exact (Hrep (S m)).
  - destruct Hsp2 as (_ & _ & _ & Hb & _). unfold ahead. eapply Forall_impl; [|exact Hb]. cbn. intros t (_ & _ & X). unfold u8, u16, u32 in *. lia.
Qed.
End DanceLive.
