(** Facts about histories of keymap calls. *)
From Coq Require Import Sorted Permutation.
From Verif Require Import BaseFacts Output Types Scheduler Reporter Keymap SpecScheduler SchedulerFacts
  SpecReporter ReporterFacts KeymapFacts SpecKeymap KeymapInv.
Local Open Scope N_scope.

(** ** C40: fuel *)
Definition le_res {A} (a b : res A) : Prop := a = NoFuel \/ a = b.
Lemma le_refl {A} (a : res A) : le_res a a. Proof. now right. Qed.
Lemma le_bind {A B} (m1 m2 : res A) (f g : A -> res B) :
  le_res m1 m2 -> (forall a, le_res (f a) (g a)) -> le_res (bind m1 f) (bind m2 g).
Proof. intros [->| ->] H; [now left|]. destruct m2; cbn; [apply H|now right|now right]. Qed.

Section Fuel.
Context {R Ctx Ev PKS KS : Type}.
Variable conf : kconf R Ctx Ev PKS KS.
Local Notation km := (keymap R Ctx Ev PKS KS).
Implicit Type k : km.

Lemma step_le (r1 r2 : job R Ev KS -> km -> res km) j k :
  (forall j k, le_res (r1 j k) (r2 j k)) -> le_res (step conf r1 j k) (step conf r2 j k).
Proof.
  intros Hr.
  assert (He : forall i r ks k, le_res (emit_resolved conf r1 i r ks k) (emit_resolved conf r2 i r ks k)).
  { intros. unfold emit_resolved. apply le_bind; [apply le_refl|]. intros [ko|]; [apply Hr|apply le_refl]. }
  destruct j as [|ev|ie|i r|ev|npk|ks]; cbn [step].
  - unfold step_handle_pending. destruct (sched_dequeue (km_sched k)) as [s [ev|]]; [|apply le_refl].
    apply le_bind; auto.
  - unfold step_handle_event. apply le_bind; auto. intros k1. apply le_bind; [apply le_refl|].
    intros k2. apply le_bind; [apply le_refl|]. intros k3. destruct ev; auto using le_refl.
  - unfold step_process_input. apply le_bind; auto. destruct (km_pending k).
    + apply le_bind; auto using le_refl.
    + apply le_bind; [apply le_refl|]. intros k1. apply le_bind; [apply le_refl|]. intros k2.
      destruct ie; cbn [step_input_dispatch]; try apply le_refl.
      destruct (has_pressed k2 keymap_index); [apply le_refl|]. apply le_bind; auto using le_refl.
  - unfold step_press_loop. apply le_bind; [apply le_refl|]. intros [pkr kes]. apply le_bind; [apply le_refl|].
    intros k1. destruct pkr as [pks|[r'|]|ks]; auto using le_refl. apply le_bind; auto using le_refl.
  - unfold step_update_pending. destruct (km_pending k); [|apply le_refl]. apply le_bind; [apply le_refl|].
    intros [[pks n] kes]. apply le_bind; [apply le_refl|]. intros k1. destruct n; auto using le_refl.
  - unfold step_pending_loop. destruct (km_pending k); [|apply le_refl]. destruct npk; auto.
    apply le_bind; [apply le_refl|]. intros [pkr kes]. apply le_bind; [apply le_refl|]. intros k1.
    destruct pkr as [pks|[r'|]|ks]; auto using le_refl.
  - unfold step_resolve. destruct (km_pending k); [|apply le_refl]. cbv zeta.
    apply le_bind; [apply le_refl|]. intros pr. apply le_bind; [apply le_refl|]. intros [q s].
    apply le_bind; [apply le_refl|]. intros q'. apply le_bind; auto.
Qed.
Lemma exec_le f f' : (f <= f')%nat -> forall j k, le_res (exec conf f j k) (exec conf f' j k).
Proof.
  revert f'. induction f as [|f IH]; intros f' Hf j k; [now left|].
  destruct f' as [|f']; [lia|]. cbn [exec]. apply step_le. apply IH. lia.
Qed.
Lemma handle_input_le f f' ev k : (f <= f')%nat ->
  le_res (km_handle_input conf f ev k) (km_handle_input conf f' ev k).
Proof.
  intros Hf. unfold km_handle_input. cbv zeta. destruct (_ <? _)%nat; [|apply le_refl].
  destruct (_ =? _); [|apply le_refl]. destruct (km_inq _); [apply le_refl|].
  apply le_bind; [now apply exec_le|]. intros; apply le_refl.
Qed.
Lemma tick_le f f' k : (f <= f')%nat -> le_res (km_tick conf f k) (km_tick conf f' k).
Proof.
  intros Hf. unfold km_tick. cbv zeta. apply le_bind.
  - destruct (km_inq _); [apply le_refl|]. destruct (_ =? _); [|apply le_refl].
    apply le_bind; [now apply exec_le|]. intros; apply le_refl.
  - intros k1. apply le_bind; [apply le_refl|]. intros s. apply le_bind; [now apply exec_le|].
    intros k3. apply le_refl.
Qed.
Lemma tick_by_le f f' d k : (f <= f')%nat -> le_res (km_tick_by conf f d k) (km_tick_by conf f' d k).
Proof.
  intros Hf. unfold km_tick_by. destruct (d =? 0); [now apply tick_le|].
  destruct (_ =? 0); [apply le_refl|]. generalize (N.to_nat (d / km_ms_per_tick k)). intros n.
  revert k. induction n as [|n IH]; intros k; cbn; [apply le_refl|]. apply le_bind; [now apply tick_le|]. exact IH.
Qed.
Lemma op_le f f' o k : (f <= f')%nat -> le_res (run_op conf f k o) (run_op conf f' k o).
Proof.
  intros Hf. destruct o as [ev| |d ev| | | |ms|c g]; cbn [run_op]; try apply le_refl.
  - now apply handle_input_le.
  - now apply tick_le.
  - unfold km_handle_input_after_time. apply le_bind; [|intros [? ?]; apply le_refl].
    apply le_bind; [now apply tick_by_le|]. intros k1.
    apply le_bind; [now apply handle_input_le|]. intros; apply le_refl.
  - unfold km_tick_to_next. apply le_bind; [|intros [? ?]; apply le_refl]. apply le_bind; [apply le_refl|].
    intros [t|]; [|apply le_refl]. apply le_bind; [now apply tick_by_le|]. intros; apply le_refl.
Qed.
Lemma run_le f f' ops : (f <= f')%nat -> forall k, le_res (run_ops conf f ops k) (run_ops conf f' ops k).
Proof.
  intros Hf. unfold run_ops. induction ops as [|o ops IH]; intros k; cbn; [apply le_refl|].
  apply le_bind; [now apply op_le|]. exact IH.
Qed.
End Fuel.

Section Hist.
Context {R Ctx Ev PKS KS : Type}.
Variable conf : kconf R Ctx Ev PKS KS.
Local Notation km := (keymap R Ctx Ev PKS KS).
Local Notation sys := (kc_sys conf).
Local Notation pos := (kc_pos conf).
Local Notation job := (job R Ev KS).
Implicit Types (k : km) (p : pending_state R Ev PKS).

(** Contract induction that remembers the recursive calls themselves. *)
Lemma exec_contract' (P : job -> km -> Prop) (Q : job -> km -> km -> Prop) :
  (forall j k k', P j k ->
     step_rel conf (fun j a b => (exists f, exec conf f j a = Ok b) /\ (P j a -> Q j a b)) j k k' -> Q j k k') ->
  forall fuel j k k', P j k -> exec conf fuel j k = Ok k' -> Q j k k'.
Proof.
  intros Hstep fuel. induction fuel as [|f IH]; intros j k k' HP H; [discriminate|].
  cbn [exec] in H. apply step_inv in H. apply Hstep; [exact HP|].
  eapply step_rel_mono; [|exact H]. cbn. intros j0 a b Hab. split; [eauto|]. intros HPa. eapply IH; eauto.
Qed.

(** ** C13: the scheduled events stay sorted *)
Definition sorted_sched (s : scheduler Ev) : Prop := decreasing (map en_time (sc_scheduled s)).

Lemma sched_event_in_sorted (s : scheduler Ev) se s' :
  position_ok pos -> sorted_sched s -> sched_event_in pos s se = Ok s' -> sorted_sched s'.
Proof.
  intros Hp Hs H. pose proof (sched_event_in_ok _ _ _ _ H) as (_ & [(_ & E & _)|(d & _ & _ & Ha)]).
  - unfold sorted_sched. now rewrite E.
  - eapply sched_after_sorted; eauto.
Qed.
Lemma cancel_sorted (s : scheduler Ev) i : sorted_sched s -> sorted_sched (sched_cancel s i).
Proof. unfold sorted_sched. cbn. now rewrite cancel_times. Qed.

Lemma exec_sorted fuel j k k' : position_ok pos ->
  sorted_sched (km_sched k) -> exec conf fuel j k = Ok k' -> sorted_sched (km_sched k').
Proof.
  intros Hpos. apply (exec_contract conf (fun _ k => sorted_sched (km_sched k)) (fun _ _ k' => sorted_sched (km_sched k'))).
  clear - Hpos. intros j k k' HI H.
  assert (Hall : forall s kes s', sched_all pos s kes = Ok s' -> sorted_sched s -> sorted_sched s').
  { intros s kes s' Hs Hi. eapply sched_all_inv; [|exact Hi|exact Hs]. intros; eapply sched_event_in_sorted; eauto. }
  assert (Hupd : forall ctx ev pis s pis' s', update_pressed_list conf ctx ev pis s = Ok (pis', s') ->
             sorted_sched s -> sorted_sched s').
  { intros ctx ev pis s pis' s' Hs Hi. eapply update_pressed_list_inv; [|exact Hi|exact Hs].
    intros; eapply sched_event_in_sorted; eauto. }
  assert (Hemit : forall i r ks a b, sorted_sched (km_sched a) ->
    emit_rel conf (fun (j : job) a b => sorted_sched (km_sched a) -> sorted_sched (km_sched b)) i r ks a b ->
    sorted_sched (km_sched b)).
  { intros i r ks a b Ha (o & _ & Ho). destruct o; [|subst; exact Ha]. apply Ho. exact Ha. }
  destruct H; inv_prim;
    repeat match goal with
    | H : sched_all _ _ _ = Ok _ |- _ => let H' := fresh "Hs" in pose proof (Hall _ _ _ H) as H'; clear H
    | H : update_pressed_list _ _ _ _ _ = Ok _ |- _ =>
        let H' := fresh "Hs" in pose proof (Hupd _ _ _ _ _ _ H) as H'; clear H
    end; cbn in *; auto.
  - destruct (run_callback_eq k ev) as (new & Er & _). rewrite Er in H. cbn in H. destruct ev; [auto|subst; auto|subst; auto].
  - eapply Hemit; [|exact H2]. cbn. auto.
  - eapply Hemit; [|exact H4]. apply H3. eapply requeue_inv; [| |exact H1].
    + intros; eapply sched_after_sorted; eauto.
    + now apply cancel_sorted.
Qed.
Lemma run_ops_sorted fuel ops k k' : position_ok pos ->
  sorted_sched (km_sched k) -> run_ops conf fuel ops k = Ok k' -> sorted_sched (km_sched k').
Proof.
  intros Hpos. apply (run_ops_inv conf (fun k => sorted_sched (km_sched k))); try (intros; assumption).
  - intros a ev a' Ha H. apply handle_input_cases in H as [(_ & _ & ie & q & k2 & _ & H & ->)|[(_ & _ & ->)|(_ & ->)]]; try exact Ha.
    eapply exec_sorted in H; eauto.
  - intros a a' Ha H. apply tick_cases in H as (k1 & k2 & s & k3 & H1 & -> & Hs & H3 & _ & ->).
    assert (Hk1 : sorted_sched (km_sched k1)).
    { destruct H1 as [(ie & q & k1' & _ & _ & H1 & ->)|(-> & _)]; [|exact Ha]. eapply exec_sorted in H1; eauto. }
    apply exec_sorted in H3; auto. cbn. eapply sched_tick_sorted; [|exact Hs].
    destruct (0 <? km_delay k1); exact Hk1.
  - intros a _. constructor.
Qed.

(** ** Events in the scheduler *)
Definition events_ok (E : event Ev -> Prop) (s : scheduler Ev) : Prop :=
  Forall (fun o => match o with Some e => E e | None => True end) (sc_pending s)
  /\ Forall (fun en => E (en_event en)) (sc_scheduled s).
Definition queued_ok k : Prop :=
  forall p, km_pending k = Some p -> Forall (fun ev => exists ie, ev = EvInput ie) (pd_queued p).
Definition ie (E : event Ev -> Prop) k : Prop := events_ok E (km_sched k) /\ queued_ok k.
Definition pie (E : event Ev -> Prop) (j : job) k : Prop :=
  ie E k /\ match j with JHandleEvent ev => E ev | _ => True end.

Lemma insert_at_Forall {A} (P : A -> Prop) n x l : Forall P l -> P x -> Forall P (insert_at n x l).
Proof.
  intros Hl Hx. unfold insert_at. rewrite <- (firstn_skipn n l) in Hl. apply Forall_app in Hl as [H1 H2].
  apply Forall_app. split; [exact H1|]. now constructor.
Qed.
Lemma sched_event_in_events E (s : scheduler Ev) se s' :
  events_ok E s -> E (se_event se) -> sched_event_in pos s se = Ok s' -> events_ok E s'.
Proof.
  intros [H1 H2] He H. pose proof (sched_event_in_ok _ _ _ _ H) as (_ & [(_ & Es & Ep & _)|(d & _ & Ep & Ha)]).
  - unfold events_ok. rewrite Es, Ep. split; [|exact H2]. apply Forall_app. auto.
  - apply sched_after_ok in Ha as (Hp & _ & Es & _). unfold events_ok. rewrite Hp, Es. split; [exact H1|].
    apply insert_at_Forall; auto.
Qed.
Lemma sched_all_events E (s : scheduler Ev) kes s' :
  sched_all pos s kes = Ok s' -> Forall (fun se => E (se_event se)) kes -> events_ok E s -> events_ok E s'.
Proof.
  intros H Hk Hs. eapply sched_all_inv; [|exact Hs|exact H].
  intros s0 se s0' H0 Hin H1. eapply sched_event_in_events; eauto. rewrite Forall_forall in Hk. now apply Hk.
Qed.
Lemma update_pressed_list_events E ctx ev pis : emits_only sys E -> forall s pis' s',
  update_pressed_list conf ctx ev pis s = Ok (pis', s') -> events_ok E s -> events_ok E s'.
Proof.
  intros (_ & _ & He & _). induction pis as [|[i r ks|ko] pis IH]; intros s pis' s' H Hs; cbn in H.
  - now inv_ok H.
  - inv_bind H. destruct a as [ks' kes]. inv_bind H. inv_bind H. destruct a0 as [t s2]. inv_ok H.
    eapply IH; [exact E2|]. eapply sched_all_events; eauto.
  - inv_bind H. destruct a as [t s2]. inv_ok H. eauto.
Qed.
Lemma cancel_events E (s : scheduler Ev) i : events_ok E s -> events_ok E (sched_cancel s i).
Proof.
  intros [H1 H2]. split; [exact H1|]. cbn. apply Forall_map. eapply Forall_impl; [|exact H2].
  intros en Hen. cbn in Hen. unfold cancel_entry. destruct (en_event en) as [x|ki ke|kk] eqn:Ee; rewrite ?Ee in Hen; cbn.
  - now rewrite ?Ee.
  - destruct (ki =? i); cbn; now rewrite ?Ee.
  - now rewrite ?Ee.
Qed.
Lemma requeue_inputs evs : Forall (fun ev : event Ev => exists ie, ev = EvInput ie) evs ->
  forall i q s q' s', requeue conf evs i q s = Ok (q', s') -> s' = s.
Proof.
  induction 1 as [|ev evs [x ->] _ IH]; intros i q s q' s' H; cbn in H; [now inv_ok H|].
  inv_bind H. eauto.
Qed.
Lemma resolve_queue_inputs p i :
  Forall (fun ev : event Ev => exists ie, ev = EvInput ie) (pd_queued p) ->
  Forall (fun ev : event Ev => exists ie, ev = EvInput ie)
    (filter (fun ev => negb (is_own_event i ev)) (pd_queued p)
     ++ last_list (filter (is_own_event i) (pd_queued p))).
Proof.
  intros H. rewrite Forall_forall in H. apply Forall_app. split; apply Forall_forall; intros ev Hin.
  - apply filter_In in Hin as [Hin _]. auto.
  - unfold last_list in Hin. destruct (last_opt _) as [x|] eqn:El; [|contradiction].
    destruct Hin as [<-|[]]. apply last_opt_spec in El.
    assert (In x (filter (is_own_event i) (pd_queued p))) by (rewrite El; apply in_or_app; right; now left).
    apply filter_In in H0 as [H0 _]. auto.
Qed.

Lemma exec_ie E fuel j k k' : emits_only sys E -> (forall i ko, E (EvKeymap (KmResolvedKeyOutput i ko))) ->
  pie E j k -> exec conf fuel j k = Ok k' -> ie E k'.
Proof.
  intros He Hres. apply (exec_contract conf (pie E) (fun _ _ k' => ie E k')).
  clear - He Hres. intros j k k' [[HI HQ] HP] H.
  assert (Hemit : forall i r ks a b, ie E a ->
    emit_rel conf (fun (j : job) a b => pie E j a -> ie E b) i r ks a b -> ie E b).
  { intros i r ks a b Ha (o & _ & Ho). destruct o; [|subst; exact Ha]. apply Ho. split; auto. }
  pose proof He as (He1 & He2 & _ & He4).
  assert (Hall : forall (s : scheduler Ev) kes s', sched_all pos s kes = Ok s' ->
     Forall (fun se => E (se_event se)) kes -> events_ok E s -> events_ok E s') by (intros; eapply sched_all_events; eauto).
  assert (Hupd : forall ctx ev pis s pis' s', update_pressed_list conf ctx ev pis s = Ok (pis', s') ->
             events_ok E s -> events_ok E s') by (intros; eapply update_pressed_list_events; eauto).
  assert (Hnone : forall a : km, km_pending a = None -> queued_ok a) by (intros a Ha q Hq; congruence).
  destruct H; inv_prim;
    repeat match goal with
    | H : sched_all _ _ _ = Ok _ |- _ => let H' := fresh "Hs" in pose proof (Hall _ _ _ H) as H'; clear H
    | H : update_pressed_list _ _ _ _ _ = Ok _ |- _ =>
        let H' := fresh "Hs" in pose proof (Hupd _ _ _ _ _ _ H) as H'; clear H
    | H : sys_new_pressed_key _ _ _ _ = Ok _ |- _ => apply He1 in H
    | H : sys_update_pending_state _ _ _ _ _ _ = Ok _ |- _ => apply He2 in H
    | H : sys_ctx_handle_event _ _ _ = Ok _ |- _ => apply He4 in H
    end; cbn in *.
  - split; assumption.
  - destruct HI as [A B]. rewrite H in A. inversion A; subst. split; [split; assumption|exact HQ].
  - destruct HI as [A B]. rewrite H in A. inversion A; subst. apply H1. split; [|exact I]. apply H0.
    split; [split; [split; assumption|exact HQ]|assumption].
  - destruct (run_callback_eq k ev) as (new & Er & _). rewrite Er in H.
    assert (Hk1 : ie E k1) by (apply H; repeat split; try apply HI; exact HQ).
    assert (Hk2 : ie E (set_sched (set_ctx (set_sched (set_pressed k1 pis) s) ctx) s0)).
    { destruct Hk1 as [A B]. split; [|exact B]. cbn. auto. }
    destruct ev; [apply H2; split; [exact Hk2|exact I]|subst; exact Hk2|subst; exact Hk2].
  - apply H2. split; [|exact I]. apply H1. split; [|exact I]. split; [exact HI|].
    intros q Hq. injection Hq as <-. cbn. apply Forall_app. split; [now apply HQ|]. constructor; [eauto|constructor].
  - apply H3. split; [|exact I]. split; [cbn; auto|now apply Hnone].
  - apply H5. split; [|exact I]. apply H4. split; [|exact I]. split; [cbn; auto|now apply Hnone].
  - apply H2. split; [|exact I]. split; [cbn; auto|now apply Hnone].
  - apply H3. split; [|exact I]. split; [cbn; auto|now apply Hnone].
  - apply H2. split; [|exact I]. split; [cbn; auto|now apply Hnone].
  - eapply Hemit; [|exact H2]. split; [cbn; auto|exact HQ].
  - apply H1. split; [|exact I]. split; [cbn; auto|exact HQ].
  - split; [cbn; auto|exact HQ].
  - split; [cbn; auto|]. intros q Hq. injection Hq as <-. constructor.
  - split; assumption.
  - split; [cbn; auto|]. intros q Hq. injection Hq as <-. cbn. auto.
  - apply H2. split; [|exact I]. split; [cbn; auto|]. intros q Hq. injection Hq as <-. cbn. auto.
  - split; assumption.
  - apply H0. split; [split; assumption|exact I].
  - apply H2. split; [|exact I]. split; [cbn; auto|]. intros q Hq. injection Hq as <-. cbn. auto.
  - apply H2. split; [|exact I]. split; [cbn; auto|]. intros q Hq. injection Hq as <-. cbn. auto.
  - apply H2. split; [|exact I]. split; [cbn; auto|]. intros q Hq. injection Hq as <-. cbn. auto.
  - split; [cbn; auto|]. intros q0 Hq. injection Hq as <-. constructor.
  - split; assumption.
  - eapply Hemit; [|exact H4]. apply H3. split; [|exact I]. split; [|now apply Hnone].
    apply requeue_inputs in H1; [|apply resolve_queue_inputs; now apply HQ]. subst. cbn. now apply cancel_events.
Qed.
End Hist.
