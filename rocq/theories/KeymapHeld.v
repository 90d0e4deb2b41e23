(** A pressed key stays pressed, as the same key, until its release is processed. *)
From Verif Require Import BaseFacts Output Types Scheduler Reporter Keymap SpecScheduler SchedulerFacts
  SpecKeymap KeymapFacts KeymapInv KeymapHist KeymapStuck WatchFacts KeymapQueue KeymapCalls KeymapRelease.
Local Open Scope N_scope.

Section Held.
Context {R Ctx Ev PKS KS : Type}.
Variable conf : kconf R Ctx Ev PKS KS.
Local Notation km := (keymap R Ctx Ev PKS KS).
Local Notation sys := (kc_sys conf).
Local Notation pos := (kc_pos conf).
Local Notation job := (job R Ev KS).
Implicit Types (k : km) (p : pending_state R Ev PKS).

(** The recursive calls are made with only events that satisfy [E] scheduled. *)
Lemma step_calls E f j k k' :
  emits_only sys E -> (forall i ko, E (EvKeymap (KmResolvedKeyOutput i ko))) ->
  pie E j k -> step_rel conf (fun j a b => exec conf f j a = Ok b) j k k' ->
  step_rel conf (fun j a b => exec conf f j a = Ok b /\ pie E j a) j k k'.
Proof.
  intros He Hres [[HI HQ] HP] H.
  assert (Hie : forall j a b, pie E j a -> exec conf f j a = Ok b -> ie E b) by (intros; eapply exec_ie; eauto).
  assert (Hemit : forall i r ks a b, ie E a ->
    emit_rel conf (fun (j : job) a b => exec conf f j a = Ok b) i r ks a b ->
    emit_rel conf (fun (j : job) a b => exec conf f j a = Ok b /\ pie E j a) i r ks a b).
  { intros i r ks a b Ha (o & Eo & Ho). exists o. split; [exact Eo|]. destruct o; [|exact Ho]. split; [exact Ho|].
    split; auto. }
  pose proof He as (He1 & He2 & _ & He4).
  assert (Hsch : forall a kes b, schedule_all conf a kes = Ok b -> Forall (fun se => E (se_event se)) kes -> ie E a -> ie E b).
  { intros a kes b Hs Hk [A B]. apply schedule_all_ok in Hs as (s & Hs & ->). split; [|exact B].
    eapply sched_all_events; eauto. }
  assert (Hup : forall a ev b, update_pressed conf a ev = Ok b -> ie E a -> ie E b).
  { intros a ev b Hs [A B]. apply update_pressed_ok in Hs as (pis & s & -> & Hs). split; [|exact B].
    eapply update_pressed_list_events; eauto. }
  assert (Hcx : forall a ev b, update_context conf a ev = Ok b -> ie E a -> ie E b).
  { intros a ev b Hs [A B]. apply update_context_ok in Hs as (c & kes & s & -> & Hc & Hs). split; [|exact B].
    eapply sched_all_events; [exact Hs|eapply He4; exact Hc|exact A]. }
  assert (Hnone : forall a : km, km_pending a = None -> queued_ok a) by (intros a Ha q Hq; congruence).
  assert (Hk : ie E k) by (split; assumption).
  destruct H; try (econstructor; eassumption).
  - destruct HI as [A B]. rewrite H in A. inversion A; subst.
    assert (X : pie E (JHandleEvent ev) (set_sched k (mkSched t (sc_scheduled (km_sched k)) (sc_counter (km_sched k)))))
      by (split; [split; [split; assumption|exact HQ]|assumption]).
    eapply SrHpSome; [exact H|split; eassumption|]. split; [exact H1|]. split; [|exact I]. eapply Hie; eauto.
  - destruct (run_callback_eq k ev) as (new & Er & _).
    assert (X : pie E (JUpdatePending ev) (run_callback k ev)) by (rewrite Er; split; [exact Hk|exact I]).
    assert (X1 : ie E k1) by (eapply Hie; eauto).
    assert (X3 : ie E k3) by eauto.
    eapply SrEvent; [split; eassumption|exact H0|exact H1|]. destruct ev; [split; [exact H2|split; [exact X3|exact I]]|exact H2..].
  - assert (X : pie E (JUpdatePending (EvInput ie)) (set_pending k (Some (with_queued p (pd_queued p ++ [EvInput ie]))))).
    { split; [|exact I]. split; [exact HI|]. intros q Hq. injection Hq as <-. cbn. apply Forall_app.
      split; [now apply HQ|]. constructor; [eauto|constructor]. }
    eapply SrInPending; [exact H|exact H0|split; eassumption|]. split; [exact H2|]. split; [|exact I]. eapply Hie; eauto.
  - eapply SrInPressHeld; eauto. split; [exact H3|]. split; [|exact I]. eauto.
  - assert (X : pie E (JPressLoop i r) k2) by (split; [eauto|exact I]).
    eapply SrInPress; eauto. split; [exact H5|]. split; [|exact I]. eapply Hie; eauto.
  - eapply SrInRelease; eauto. split; [exact H2|]. split; [|exact I].
    assert (X : ie E k2) by eauto. exact X.
  - eapply SrInVPress; eauto. split; [exact H3|]. split; [|exact I].
    assert (X : ie E k2) by eauto. exact X.
  - eapply SrInVRelease; eauto. split; [exact H2|]. split; [|exact I].
    assert (X : ie E k2) by eauto. exact X.
  - eapply SrPlResolved; eauto. apply Hemit; [|exact H2]. assert (X : ie E k1) by eauto. exact X.
  - eapply SrPlKey; eauto. split; [exact H1|]. split; [|exact I]. eauto.
  - eapply SrUpGo; eauto. split; [exact H2|]. split; [|exact I]. eapply Hsch; [exact H1|eapply He2; exact H0|].
    split; [exact HI|]. intros q Hq. injection Hq as <-. cbn. auto.
  - eapply SrLoopNoOp; eauto. split; [exact H0|]. split; [exact Hk|exact I].
  - eapply SrLoopResolved; eauto. split; [exact H2|]. split; [|exact I]. eapply Hsch; [exact H1|eapply He1; exact H0|].
    split; [exact HI|]. intros q Hq. injection Hq as <-. cbn. auto.
  - eapply SrLoopKey; eauto. split; [exact H2|]. split; [|exact I]. eapply Hsch; [exact H1|eapply He1; exact H0|].
    split; [exact HI|]. intros q Hq. injection Hq as <-. cbn. auto.
  - eapply SrLoopKeyNoOp; eauto. split; [exact H2|]. split; [|exact I]. eapply Hsch; [exact H1|eapply He1; exact H0|].
    split; [exact HI|]. intros q Hq. injection Hq as <-. cbn. auto.
  - assert (X : pie E JHandlePending (set_inq (set_sched (set_pressed (set_pending k None)
         (km_pressed k ++ [PiKey (pd_index p) (pd_ref p) ks])) s) q')).
    { split; [|exact I]. split; [|now apply Hnone].
      apply requeue_inputs in H1; [|apply resolve_queue_inputs; now apply HQ]. subst. cbn. now apply cancel_events. }
    eapply SrResolve; [exact H|exact H0|exact H1|exact H2|split; eassumption|]. apply Hemit; [|exact H4]. eapply Hie; eauto.
Qed.

Lemma exec_contract_ie E (Q : job -> km -> km -> Prop) :
  emits_only sys E -> (forall i ko, E (EvKeymap (KmResolvedKeyOutput i ko))) ->
  (forall j k k', pie E j k -> step_rel conf (fun j a b => pie E j a /\ Q j a b) j k k' -> Q j k k') ->
  forall fuel j k k', pie E j k -> exec conf fuel j k = Ok k' -> Q j k k'.
Proof.
  intros He Hres Hstep fuel. induction fuel as [|f IH]; intros j k k' HP H; [discriminate|].
  cbn [exec] in H. apply step_inv in H. apply Hstep; [exact HP|].
  eapply step_rel_mono; [|eapply step_calls; eassumption]. cbn. intros j0 a b [Hab HPa]. split; [exact HPa|]. eapply IH; eauto.
Qed.

(** ** Keeping a pressed key *)
Hypothesis He : emits_only sys not_physical.
Variables (i : u16) (r : R).
Definition held k : Prop := In (inl (i, r)) (pressed_shape k).
Definition keeps (j : job) k k' : Prop := j <> JProcessInput (Release i) -> held k -> held k'.

Lemma held_app k l : held k -> held (set_pressed k (km_pressed k ++ l)).
Proof. unfold held, pressed_shape. cbn. rewrite map_app. intros. apply in_or_app. now left. Qed.

Lemma held_remove (f : pressed_input R KS -> bool) k :
  (forall ks, f (PiKey i r ks) = false) -> held k -> held (set_pressed k (remove_first f (km_pressed k))).
Proof.
  unfold held, pressed_shape. cbn. intros Hf. induction (km_pressed k) as [|pi l IH]; cbn; [auto|].
  destruct (f pi) eqn:Ef; cbn; intros [H|H]; auto.
  destruct pi; [|discriminate]. injection H as -> ->. rewrite Hf in Ef. discriminate.
Qed.

Lemma exec_held fuel j k k' :
  pie not_physical j k -> exec conf fuel j k = Ok k' -> keeps j k k'.
Proof.
  apply (exec_contract_ie not_physical keeps); [exact He|intros; exact I|].
  clear fuel j k k'. intros j k k' [HI HP] H Hj Hk.
  assert (Hemit : forall i0 r0 ks a b, held a ->
    emit_rel conf (fun (j : job) a b => pie not_physical j a /\ keeps j a b) i0 r0 ks a b -> held b).
  { intros i0 r0 ks a b Ha (o & _ & Ho). destruct o; [|subst; exact Ha]. apply Ho; [discriminate|exact Ha]. }
  assert (Hupd : forall a ctx ev pis s s', update_pressed_list conf ctx ev (km_pressed a) s = Ok (pis, s') ->
     held a -> forall b, km_pressed b = pis -> held b).
  { intros a ctx ev pis s s' Hu Ha b Hb. apply update_pressed_list_shape in Hu. unfold held, pressed_shape in *.
    rewrite Hb, Hu. exact Ha. }
  destruct H; inv_prim.
  1-2: exact Hk.
  - apply H1; [discriminate|]. apply H0; [discriminate|]. exact Hk.
  - destruct (run_callback_eq k ev) as (new & Er & _). rewrite Er in H.
    assert (K1 : held k1) by (apply H; [discriminate|exact Hk]).
    destruct ev; [|subst; eapply Hupd; eauto..].
    apply H2; [|eapply Hupd; eauto]. cbn in HP. intros X. injection X as ->. cbn in HP. discriminate HP.
  - apply H2; [discriminate|]. apply H1; [discriminate|exact Hk].
  - apply H3; [discriminate|]. eapply Hupd; eauto.
  - apply H5; [discriminate|]. apply H4; [discriminate|]. eapply Hupd; eauto.
  - apply H2; [discriminate|]. apply held_remove; [|eapply Hupd; eauto].
    intros ks. cbn. apply N.eqb_neq. congruence.
  - apply H3; [discriminate|]. apply held_app. eapply Hupd; eauto.
  - apply H2; [discriminate|]. apply held_remove; [reflexivity|eapply Hupd; eauto].
  - eapply Hemit; [|exact H2]. apply held_app. exact Hk.
  - apply H1; [discriminate|exact Hk].
  - apply held_app. exact Hk.
  - exact Hk.
  - exact Hk.
  - exact Hk.
  - apply H2; [discriminate|exact Hk].
  - exact Hk.
  - apply H0; [discriminate|exact Hk].
  - apply H2; [discriminate|exact Hk].
  - apply H2; [discriminate|exact Hk].
  - apply H2; [discriminate|exact Hk].
  - exact Hk.
  - exact Hk.
  - eapply Hemit; [|exact H4]. apply H3; [discriminate|]. apply (held_app k). exact Hk.
Qed.

(** ** No release of the key is waiting *)
Definition no_release k : Prop :=
  ~ In (Release i) (km_inq k)
  /\ forall p, km_pending k = Some p -> ~ In (EvInput (Release i)) (pd_queued p).
Definition none_waits (j : job) k k' : Prop := j <> JProcessInput (Release i) -> no_release k -> no_release k'.

Lemma in_filter_map_input (l : list (event Ev)) x : In x (filter_map input_of_event l) <-> In (EvInput x) l.
Proof.
  induction l as [|e l IH]; cbn; [tauto|]. destruct e as [y|j e|m]; cbn; rewrite IH; intuition (try discriminate; congruence).
Qed.

Lemma exec_no_release fuel j k k' :
  pie not_physical j k -> exec conf fuel j k = Ok k' -> none_waits j k k'.
Proof.
  apply (exec_contract_ie not_physical none_waits); [exact He|intros; exact I|].
  clear fuel j k k'. intros j k k' [HI HP] H Hj [Hq Hp].
  assert (Hemit : forall i0 r0 ks a b, no_release a ->
    emit_rel conf (fun (j : job) a b => pie not_physical j a /\ none_waits j a b) i0 r0 ks a b -> no_release b).
  { intros i0 r0 ks a b Ha (o & _ & Ho). destruct o; [|subst; exact Ha]. apply Ho; [discriminate|exact Ha]. }
  assert (Hsame : forall a b : km, no_release a -> km_inq b = km_inq a -> km_pending b = km_pending a -> no_release b).
  { intros a b [A B] E1 E2. split; [rewrite E1; exact A|rewrite E2; exact B]. }
  assert (Hk : no_release k) by (split; assumption).
  destruct H; inv_prim.
  1-2: exact Hk.
  - apply H1; [discriminate|]. apply H0; [discriminate|]. exact Hk.
  - destruct (run_callback_eq k ev) as (new & Er & _). rewrite Er in H.
    assert (K1 : no_release k1) by (apply H; [discriminate|exact Hk]).
    destruct ev; [|subst; exact K1..].
    apply H2; [|exact K1]. cbn in HP. intros X. injection X as ->. cbn in HP. discriminate HP.
  - apply H2; [discriminate|]. apply H1; [discriminate|]. split; [exact Hq|]. intros p0 Hp0. injection Hp0 as <-. cbn.
    intros Hin. apply in_app_or in Hin as [Hin|[Hin|[]]]; [exact (Hp _ H Hin)|congruence].
  - apply H3; [discriminate|exact Hk].
  - apply H5; [discriminate|]. apply H4; [discriminate|exact Hk].
  - apply H2; [discriminate|exact Hk].
  - apply H3; [discriminate|exact Hk].
  - apply H2; [discriminate|exact Hk].
  - eapply Hemit; [|exact H2]. exact Hk.
  - apply H1; [discriminate|exact Hk].
  - exact Hk.
  - split; [exact Hq|]. intros p0 Hp0. injection Hp0 as <-. cbn. tauto.
  - exact Hk.
  - split; [exact Hq|]. intros p0 Hp0. injection Hp0 as <-. exact (Hp _ H).
  - apply H2; [discriminate|]. split; [exact Hq|]. intros p0 Hp0. injection Hp0 as <-. exact (Hp _ H).
  - exact Hk.
  - apply H0; [discriminate|exact Hk].
  - apply H2; [discriminate|]. split; [exact Hq|]. intros p0 Hp0. injection Hp0 as <-. exact (Hp _ H).
  - apply H2; [discriminate|]. split; [exact Hq|]. intros p0 Hp0. injection Hp0 as <-. exact (Hp _ H).
  - apply H2; [discriminate|]. split; [exact Hq|]. intros p0 Hp0. injection Hp0 as <-. exact (Hp _ H).
  - unfold requeue_reversed in H2. inv_bind H2. apply push_all_cap_ok in E as [-> _], H2 as [-> _].
    split; [|intros p0 Hp0; injection Hp0 as <-; cbn; tauto]. cbn. intros Hin.
    apply in_app_or in Hin as [Hin|Hin]; [|exact (Hq Hin)]. apply in_filter_map_input, in_rev in Hin. exact (Hp _ H Hin).
  - exact Hk.
  - eapply Hemit; [|exact H4]. apply H3; [discriminate|]. split; [|intros p0 Hp0; discriminate]. cbn.
    apply requeue_ok in H1 as (-> & _). apply push_all_cap_ok in H2 as [-> _]. cbn. intros Hin.
    apply in_app_or in Hin as [Hin|Hin]; [|exact (Hq Hin)]. apply in_filter_map_input in Hin.
    apply in_app_or in Hin as [Hin|Hin].
    + apply filter_In in Hin as [Hin _]. exact (Hp _ H Hin).
    + unfold last_list in Hin. destruct (last_opt _) as [x|] eqn:El; [|contradiction].
      destruct Hin as [->|[]]. apply last_opt_spec in El.
      assert (X : In (EvInput (Release i)) (filter (is_own_event (pd_index p)) (pd_queued p)))
        by (rewrite El; apply in_or_app; right; now left).
      apply filter_In in X as [X _]. exact (Hp _ H X).
Qed.

(** ** Over histories *)
Definition settled k : Prop := ie not_physical k /\ held k /\ no_release k.

Lemma handle_input_held fuel ev k k' : settled k -> ev <> Release i ->
  km_handle_input conf fuel ev k = Ok k' -> settled k'.
Proof.
  intros (A & B & C) Hev H. split; [eapply handle_input_ie; eauto; intros; exact I|].
  apply handle_input_cases in H as [(Hl & Hz & x & q & k2 & Eq & H & ->)|[(Hl & Hz & ->)|(Hl & ->)]].
  - assert (Hx : x <> Release i /\ ~ In (Release i) q).
    { assert (X : ~ In (Release i) (km_inq k ++ [ev])).
      { intros Hin. apply in_app_or in Hin as [Hin|[Hin|[]]]; [exact (proj1 C Hin)|congruence]. }
      rewrite Eq in X. split; [intros ->; apply X; now left|intros Y; apply X; now right]. }
    assert (Hj : JProcessInput x <> JProcessInput (Release i) :> job) by (intros X; injection X; tauto).
    split.
    + refine (exec_held _ _ _ _ _ H Hj B). split; [exact A|exact I].
    + refine (exec_no_release _ _ _ _ _ H Hj _); [split; [exact A|exact I]|]. split; [apply Hx|apply C].
  - split; [exact B|]. split; [|apply C]. cbn. intros Hin. apply in_app_or in Hin as [Hin|[Hin|[]]]; [exact (proj1 C Hin)|congruence].
  - split; [exact B|exact C].
Qed.
Lemma tick_held fuel k k' : settled k -> km_tick conf fuel k = Ok k' -> settled k'.
Proof.
  intros (A & B & C) H. apply tick_cases in H as (k1 & k2 & s & k3 & H1 & E2 & Hs & H3 & _ & ->).
  assert (K1 : settled k1).
  { destruct H1 as [(x & q & k1' & Eq & _ & H1 & ->)|(-> & _)]; [|split; [exact A|split; [exact B|exact C]]].
    assert (Hx : x <> Release i /\ ~ In (Release i) q).
    { destruct C as [C _]. rewrite Eq in C. split; [intros ->; apply C; now left|intros Y; apply C; now right]. }
    assert (Hj : JProcessInput x <> JProcessInput (Release i) :> job) by (intros X; injection X; tauto).
    split; [|split].
    - eapply exec_ie in H1; [exact H1|exact He|intros; exact I|]. split; [exact A|exact I].
    - refine (exec_held _ _ _ _ _ H1 Hj B). split; [exact A|exact I].
    - refine (exec_no_release _ _ _ _ _ H1 Hj _); [split; [exact A|exact I]|]. split; [apply Hx|apply C]. }
  assert (K2 : settled (set_sched k2 s)).
  { assert (K2 : settled k2) by (subst k2; destruct (0 <? km_delay k1); exact K1).
    destruct K2 as ([P1 P2] & P3 & P4). split; [|split; assumption]. split; [|exact P2].
    eapply sched_tick_events; eauto. }
  destruct K2 as (P1 & P2 & P3).
  split; [|split].
  - eapply exec_ie in H3; [exact H3|exact He|intros; exact I|]. split; [exact P1|exact I].
  - refine (exec_held _ _ _ _ _ H3 _ P2); [split; [exact P1|exact I]|discriminate].
  - refine (exec_no_release _ _ _ _ _ H3 _ P3); [split; [exact P1|exact I]|discriminate].
Qed.
Lemma run_ops_held fuel ops : forall k k',
  (forall o, In o ops -> o <> OpInput (Release i) /\ (forall d, o <> OpInputAfter d (Release i)) /\ o <> OpInit) ->
  settled k -> run_ops conf fuel ops k = Ok k' -> settled k'.
Proof.
  intros k k' Ho Hk. unfold run_ops. apply fold_res_inv; [|exact Hk].
  clear k k' Hk. intros k o k' Hk Hin H. destruct (Ho o Hin) as (O1 & O2 & O3). clear Ho Hin.
  destruct o as [ev| |d ev| | | |ms|c f]; cbn [run_op] in H.
  - eapply handle_input_held; eauto. congruence.
  - eapply tick_held; eauto.
  - inv_bind H. destruct a as [k2 t]. inv_ok H. unfold km_handle_input_after_time in E.
    inv_bind E. inv_bind E. inv_bind E.
    assert (k' = a0) as ->.
    { destruct a1 as [t'|]; [|now inversion E]. destruct ((t' =? 0) && kc_debug conf); inversion E; reflexivity. }
    refine (handle_input_held _ ev _ _ _ _ E1); [|intros ->; eapply O2; reflexivity].
    eapply tick_by_inv; [|exact Hk|exact E0]. intros; eapply tick_held; eauto.
  - inv_bind H. destruct a as [k2 t]. inv_ok H. unfold km_tick_to_next in E. inv_bind E.
    destruct a as [d|].
    + inv_bind E. inv_bind E. inv_ok E. eapply tick_by_inv; [|exact Hk|exact E1]. intros; eapply tick_held; eauto.
    + inv_ok E. exact Hk.
  - inv_bind H. destruct a as [k2 t]. inv_ok H. unfold km_report_output in E. inv_bind E. inv_ok E. exact Hk.
  - congruence.
  - inv_ok H. exact Hk.
  - unfold km_set_callback in H. inv_bind H. inv_ok H. exact Hk.
Qed.

Lemma stays_pressed fuel ops ops' ctx k k' :
  run_ops conf fuel ops (km_new ctx) = Ok k ->
  held k -> no_release k ->
  (forall o, In o ops' -> o <> OpInput (Release i) /\ (forall d, o <> OpInputAfter d (Release i)) /\ o <> OpInit) ->
  run_ops conf fuel ops' k = Ok k' -> held k'.
Proof.
  intros H1 H2 H3 H4 H5. apply (run_ops_held fuel ops' k k' H4) in H5; [apply H5|]. split; [|split; assumption].
  eapply run_ops_ie; [exact He|intros; exact I| |exact H1]. split; [split; constructor|intros p; discriminate].
Qed.
End Held.
