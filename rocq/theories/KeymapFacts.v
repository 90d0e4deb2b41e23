(** Inversion of the keymap's functions and induction over its recursion. *)
From Verif Require Import BaseFacts Output Types Scheduler Reporter Keymap SpecScheduler SchedulerFacts.
Local Open Scope N_scope.

Section KM.
Context {R Ctx Ev PKS KS : Type}.
Variable conf : kconf R Ctx Ev PKS KS.
Local Notation km := (keymap R Ctx Ev PKS KS).
Local Notation sys := (kc_sys conf).
Local Notation pos := (kc_pos conf).
Local Notation job := (job R Ev KS).
Implicit Types (k : km) (p : pending_state R Ev PKS).

Definition with_queued p (q : list (event Ev)) := mkPending (pd_index p) (pd_ref p) (pd_state p) q.

(** What one step does, given what the recursive calls do. *)
Definition emit_rel (rec : job -> km -> km -> Prop) i r ks k k' : Prop :=
  exists o, sys_key_output sys r ks = Ok o /\
  match o with
  | Some ko => rec (JHandleEvent (EvKeymap (KmResolvedKeyOutput i ko))) k k'
  | None => k' = k
  end.

Inductive step_rel (rec : job -> km -> km -> Prop) : job -> km -> km -> Prop :=
| SrHpEmpty k :
    sc_pending (km_sched k) = [] -> step_rel rec JHandlePending k k
| SrHpNone k t :
    sc_pending (km_sched k) = None :: t ->
    step_rel rec JHandlePending k
      (set_sched k (mkSched t (sc_scheduled (km_sched k)) (sc_counter (km_sched k))))
| SrHpSome k t ev k1 k' :
    sc_pending (km_sched k) = Some ev :: t ->
    rec (JHandleEvent ev)
        (set_sched k (mkSched t (sc_scheduled (km_sched k)) (sc_counter (km_sched k)))) k1 ->
    rec JHandlePending k1 k' ->
    step_rel rec JHandlePending k k'
| SrEvent ev k k1 k2 k3 k' :
    rec (JUpdatePending ev) (run_callback k ev) k1 ->
    update_pressed conf k1 ev = Ok k2 ->
    update_context conf k2 ev = Ok k3 ->
    match ev with EvInput ie => rec (JProcessInput ie) k3 k' | _ => k' = k3 end ->
    step_rel rec (JHandleEvent ev) k k'
| SrInPending ie k p k1 k' :
    km_pending k = Some p -> (length (pd_queued p) < MAX_PRESSED_KEYS)%nat ->
    rec (JUpdatePending (EvInput ie))
        (set_pending k (Some (with_queued p (pd_queued p ++ [EvInput ie])))) k1 ->
    rec JHandlePending k1 k' ->
    step_rel rec (JProcessInput ie) k k'
| SrInPressHeld i k k1 k2 k' :
    km_pending k = None -> update_pressed conf k (EvInput (Press i)) = Ok k1 ->
    update_context conf k1 (EvInput (Press i)) = Ok k2 ->
    has_pressed k2 i = true ->
    rec JHandlePending k2 k' ->
    step_rel rec (JProcessInput (Press i)) k k'
| SrInPress i r k k1 k2 k3 k' :
    km_pending k = None -> update_pressed conf k (EvInput (Press i)) = Ok k1 ->
    update_context conf k1 (EvInput (Press i)) = Ok k2 ->
    has_pressed k2 i = false -> nth_error (kc_refs conf) (N.to_nat i) = Some r ->
    rec (JPressLoop i r) k2 k3 ->
    rec JHandlePending k3 k' ->
    step_rel rec (JProcessInput (Press i)) k k'
| SrInRelease i k k1 k2 k' :
    km_pending k = None -> update_pressed conf k (EvInput (Release i)) = Ok k1 ->
    update_context conf k1 (EvInput (Release i)) = Ok k2 ->
    rec JHandlePending (set_pressed k2 (remove_first (pi_has_index i) (km_pressed k2))) k' ->
    step_rel rec (JProcessInput (Release i)) k k'
| SrInVPress ko k k1 k2 k' :
    km_pending k = None -> update_pressed conf k (EvInput (VirtualKeyPress ko)) = Ok k1 ->
    update_context conf k1 (EvInput (VirtualKeyPress ko)) = Ok k2 ->
    (length (km_pressed k2) < MAX_PRESSED_KEYS)%nat ->
    rec JHandlePending (set_pressed k2 (km_pressed k2 ++ [PiVirtual ko])) k' ->
    step_rel rec (JProcessInput (VirtualKeyPress ko)) k k'
| SrInVRelease ko k k1 k2 k' :
    km_pending k = None -> update_pressed conf k (EvInput (VirtualKeyRelease ko)) = Ok k1 ->
    update_context conf k1 (EvInput (VirtualKeyRelease ko)) = Ok k2 ->
    rec JHandlePending
      (set_pressed k2 (remove_first
            (fun pi => match pi with PiVirtual ko' => ko_eqb ko ko' | PiKey _ _ _ => false end)
            (km_pressed k2))) k' ->
    step_rel rec (JProcessInput (VirtualKeyRelease ko)) k k'
| SrPlResolved i r k ks kes k1 k' :
    sys_new_pressed_key sys i (km_ctx k) r = Ok (PkResolved ks, kes) ->
    schedule_all conf k kes = Ok k1 ->
    (length (km_pressed k1) < MAX_PRESSED_KEYS)%nat ->
    emit_rel rec i r ks (set_pressed k1 (km_pressed k1 ++ [PiKey i r ks])) k' ->
    step_rel rec (JPressLoop i r) k k'
| SrPlKey i r k r' kes k1 k' :
    sys_new_pressed_key sys i (km_ctx k) r = Ok (PkNewPressedKey (NpkKey r'), kes) ->
    schedule_all conf k kes = Ok k1 ->
    rec (JPressLoop i r') k1 k' ->
    step_rel rec (JPressLoop i r) k k'
| SrPlNoOp i r k kes k1 :
    sys_new_pressed_key sys i (km_ctx k) r = Ok (PkNewPressedKey NpkNoOp, kes) ->
    schedule_all conf k kes = Ok k1 ->
    (length (km_pressed k1) < MAX_PRESSED_KEYS)%nat ->
    step_rel rec (JPressLoop i r) k (set_pressed k1 (km_pressed k1 ++ [PiKey i r (sys_no_op sys)]))
| SrPlPending i r k pks kes k1 :
    sys_new_pressed_key sys i (km_ctx k) r = Ok (PkPending pks, kes) ->
    schedule_all conf k kes = Ok k1 ->
    step_rel rec (JPressLoop i r) k (set_pending k1 (Some (mkPending i r pks [])))
| SrUpNone ev k :
    km_pending k = None -> step_rel rec (JUpdatePending ev) k k
| SrUpStay ev k p pks kes k1 :
    km_pending k = Some p ->
    sys_update_pending_state sys (pd_state p) (pd_index p) (km_ctx k) (pd_ref p) ev = Ok (pks, None, kes) ->
    schedule_all conf (set_pending k (Some (mkPending (pd_index p) (pd_ref p) pks (pd_queued p)))) kes = Ok k1 ->
    step_rel rec (JUpdatePending ev) k k1
| SrUpGo ev k p pks npk kes k1 k' :
    km_pending k = Some p ->
    sys_update_pending_state sys (pd_state p) (pd_index p) (km_ctx k) (pd_ref p) ev = Ok (pks, Some npk, kes) ->
    schedule_all conf (set_pending k (Some (mkPending (pd_index p) (pd_ref p) pks (pd_queued p)))) kes = Ok k1 ->
    rec (JPendingLoop npk) k1 k' ->
    step_rel rec (JUpdatePending ev) k k'
| SrLoopNone npk k :
    km_pending k = None -> step_rel rec (JPendingLoop npk) k k
| SrLoopNoOp k p k' :
    km_pending k = Some p ->
    rec (JResolve (sys_no_op sys)) k k' ->
    step_rel rec (JPendingLoop NpkNoOp) k k'
| SrLoopResolved r k p ks kes k1 k' :
    km_pending k = Some p ->
    sys_new_pressed_key sys (pd_index p) (km_ctx k) r = Ok (PkResolved ks, kes) ->
    schedule_all conf (set_pending k (Some (mkPending (pd_index p) r (pd_state p) (pd_queued p)))) kes = Ok k1 ->
    rec (JResolve ks) k1 k' ->
    step_rel rec (JPendingLoop (NpkKey r)) k k'
| SrLoopKey r k p r' kes k1 k' :
    km_pending k = Some p ->
    sys_new_pressed_key sys (pd_index p) (km_ctx k) r = Ok (PkNewPressedKey (NpkKey r'), kes) ->
    schedule_all conf (set_pending k (Some (mkPending (pd_index p) r (pd_state p) (pd_queued p)))) kes = Ok k1 ->
    rec (JPendingLoop (NpkKey r')) k1 k' ->
    step_rel rec (JPendingLoop (NpkKey r)) k k'
| SrLoopKeyNoOp r k p kes k1 k' :
    km_pending k = Some p ->
    sys_new_pressed_key sys (pd_index p) (km_ctx k) r = Ok (PkNewPressedKey NpkNoOp, kes) ->
    schedule_all conf (set_pending k (Some (mkPending (pd_index p) r (pd_state p) (pd_queued p)))) kes = Ok k1 ->
    rec (JResolve (sys_no_op sys)) k1 k' ->
    step_rel rec (JPendingLoop (NpkKey r)) k k'
| SrLoopPending r k p pks kes k1 q :
    km_pending k = Some p ->
    sys_new_pressed_key sys (pd_index p) (km_ctx k) r = Ok (PkPending pks, kes) ->
    schedule_all conf (set_pending k (Some (mkPending (pd_index p) r (pd_state p) (pd_queued p)))) kes = Ok k1 ->
    requeue_reversed (pd_queued p) (km_inq k1) = Ok q ->
    step_rel rec (JPendingLoop (NpkKey r)) k
      (set_inq (set_pending k1 (Some (mkPending (pd_index p) r pks []))) q)
| SrResNone ks k :
    km_pending k = None -> step_rel rec (JResolve ks) k k
| SrResolve ks k p q s q' k3 k' :
    km_pending k = Some p ->
    (length (km_pressed k) < MAX_PRESSED_KEYS)%nat ->
    requeue conf (filter (fun ev => negb (is_own_event (pd_index p) ev)) (pd_queued p)
                  ++ last_list (filter (is_own_event (pd_index p)) (pd_queued p)))
            1 [] (sched_cancel (km_sched k) (pd_index p)) = Ok (q, s) ->
    push_all_cap INPUT_QUEUE_CAPACITY q (km_inq k) = Ok q' ->
    rec JHandlePending
      (set_inq (set_sched (set_pressed (set_pending k None)
         (km_pressed k ++ [PiKey (pd_index p) (pd_ref p) ks])) s) q') k3 ->
    emit_rel rec (pd_index p) (pd_ref p) ks k3 k' ->
    step_rel rec (JResolve ks) k k'.

Lemma set_sched_same k : set_sched k (km_sched k) = k.
Proof. now destruct k. Qed.

Ltac inv_push H := apply push_cap_ok in H; destruct H as [-> ?].

Lemma emit_inv (rec : job -> km -> res km) i r ks k k' :
  emit_resolved conf rec i r ks k = Ok k' ->
  emit_rel (fun j a b => rec j a = Ok b) i r ks k k'.
Proof.
  unfold emit_resolved, emit_rel. intros H. inv_bind H. exists a. split; [exact E|].
  destruct a; [exact H|]. now inv_ok H.
Qed.

Lemma step_inv (rec : job -> km -> res km) j k k' :
  step conf rec j k = Ok k' -> step_rel (fun j a b => rec j a = Ok b) j k k'.
Proof.
  destruct j as [|ev|ie|i r|ev|npk|ks]; cbn [step].
  - unfold step_handle_pending, sched_dequeue. destruct (sc_pending (km_sched k)) as [|[ev|] t] eqn:Ep; intros H.
    + inv_ok H. rewrite set_sched_same. now constructor.
    + inv_bind H. econstructor; eauto.
    + inv_ok H. now constructor.
  - unfold step_handle_event. intros H. inv_bind H. inv_bind H. inv_bind H.
    econstructor; eauto. destruct ev; [exact H|now inv_ok H|now inv_ok H].
  - unfold step_process_input. intros H. inv_bind H. destruct (km_pending k) as [p|] eqn:Ep.
    + inv_bind E. inv_push E0. eapply SrInPending; eauto.
    + inv_bind E. inv_bind E. destruct ie as [i|i|ko|ko]; cbn [step_input_dispatch] in E.
      * destruct (has_pressed a1 i) eqn:Eh.
        -- inv_ok E. eapply SrInPressHeld; eauto.
        -- inv_bind E. apply index_ok in E2. eapply SrInPress; eauto.
      * inv_ok E. eapply SrInRelease; eauto.
      * inv_bind E. inv_push E2. inv_ok E. eapply SrInVPress; eauto.
      * inv_ok E. eapply SrInVRelease; eauto.
  - unfold step_press_loop. intros H. inv_bind H. destruct a as [pkr kes]. inv_bind H.
    destruct pkr as [pks|[r'|]|ks].
    + inv_ok H. eapply SrPlPending; eauto.
    + eapply SrPlKey; eauto.
    + inv_bind H. inv_push E1. inv_ok H. eapply SrPlNoOp; eauto.
    + inv_bind H. inv_push E1. apply emit_inv in H. eapply SrPlResolved; eauto.
  - unfold step_update_pending. destruct (km_pending k) as [p|] eqn:Ep; intros H.
    + inv_bind H. destruct a as [[pks [npk|]] kes]; inv_bind H.
      * eapply SrUpGo; eauto.
      * inv_ok H. eapply SrUpStay; eauto.
    + inv_ok H. now constructor.
  - unfold step_pending_loop. destruct (km_pending k) as [p|] eqn:Ep; intros H.
    + destruct npk as [r|].
      * inv_bind H. destruct a as [pkr kes]. inv_bind H. destruct pkr as [pks|[r'|]|ks].
        -- inv_bind H. inv_ok H. eapply SrLoopPending; eauto.
        -- eapply SrLoopKey; eauto.
        -- eapply SrLoopKeyNoOp; eauto.
        -- eapply SrLoopResolved; eauto.
      * eapply SrLoopNoOp; eauto.
    + inv_ok H. now constructor.
  - unfold step_resolve. destruct (km_pending k) as [p|] eqn:Ep; intros H.
    + cbv zeta in H. inv_bind H. inv_push E. inv_bind H. destruct a as [q s]. inv_bind H. inv_bind H.
      apply emit_inv in H. eapply SrResolve; eauto.
    + inv_ok H. now constructor.
Qed.

Lemma step_rel_mono (r1 r2 : job -> km -> km -> Prop) j k k' :
  (forall j k k', r1 j k k' -> r2 j k k') -> step_rel r1 j k k' -> step_rel r2 j k k'.
Proof.
  intros Hr H. destruct H.
  - now constructor.
  - now constructor.
  - eapply SrHpSome; eauto.
  - eapply SrEvent; eauto. destruct ev; auto.
  - eapply SrInPending; eauto.
  - eapply SrInPressHeld; eauto.
  - eapply SrInPress; eauto.
  - eapply SrInRelease; eauto.
  - eapply SrInVPress; eauto.
  - eapply SrInVRelease; eauto.
  - eapply SrPlResolved; eauto. destruct H2 as (o & Ho & H2). exists o. split; [exact Ho|].
    destruct o; auto.
  - eapply SrPlKey; eauto.
  - eapply SrPlNoOp; eauto.
  - eapply SrPlPending; eauto.
  - now constructor.
  - eapply SrUpStay; eauto.
  - eapply SrUpGo; eauto.
  - now constructor.
  - eapply SrLoopNoOp; eauto.
  - eapply SrLoopResolved; eauto.
  - eapply SrLoopKey; eauto.
  - eapply SrLoopKeyNoOp; eauto.
  - eapply SrLoopPending; eauto.
  - now constructor.
  - eapply SrResolve; eauto. destruct H4 as (o & Ho & H4). exists o. split; [exact Ho|].
    destruct o; auto.
Qed.

(** Induction over the recursion: a contract [P]/[Q] for every job. *)
Lemma exec_contract (P : job -> km -> Prop) (Q : job -> km -> km -> Prop) :
  (forall j k k', P j k -> step_rel (fun j a b => P j a -> Q j a b) j k k' -> Q j k k') ->
  forall fuel j k k', P j k -> exec conf fuel j k = Ok k' -> Q j k k'.
Proof.
  intros Hstep fuel. induction fuel as [|f IH]; intros j k k' HP H; [discriminate|].
  cbn [exec] in H. apply step_inv in H. apply Hstep; [exact HP|].
  eapply step_rel_mono; [|exact H]. cbn. intros j0 a b Hab HPa. eapply IH; eauto.
Qed.

(** ** Primitive operations *)
Lemma schedule_all_ok k kes k' :
  schedule_all conf k kes = Ok k' ->
  exists s, sched_all pos (km_sched k) kes = Ok s /\ k' = set_sched k s.
Proof. unfold schedule_all. intros H. inv_bind H. inv_ok H. eauto. Qed.

Lemma sched_event_in_ok (s : scheduler Ev) se s' :
  sched_event_in pos s se = Ok s' ->
  sc_counter s' = sc_counter s
  /\ ((se_schedule se = Immediate /\ sc_scheduled s' = sc_scheduled s
       /\ sc_pending s' = sc_pending s ++ [Some (se_event se)] /\ (length (sc_pending s) < PENDING_CAPACITY)%nat)
      \/ (exists d, se_schedule se = After d /\ sc_pending s' = sc_pending s
          /\ sched_after pos s d (se_event se) = Ok s')).
Proof.
  unfold sched_event_in. destruct (se_schedule se) as [|d] eqn:Es; intros H.
  - apply sched_enqueue_ok in H as (H1 & H2 & H3 & H4). split; [exact H2|]. left. auto.
  - pose proof H as H'. apply sched_after_ok in H as (H1 & H2 & _). split; [exact H2|]. right. eauto.
Qed.

(** A property of schedulers kept by scheduling any event. *)
Lemma sched_all_inv (I : scheduler Ev -> Prop) kes s s' :
  (forall s se s', I s -> In se kes -> sched_event_in pos s se = Ok s' -> I s') ->
  I s -> sched_all pos s kes = Ok s' -> I s'.
Proof. intros H Hs. unfold sched_all. apply fold_res_inv; [exact H|exact Hs]. Qed.

(** Index of a pressed key. *)
Definition pi_index (pi : pressed_input R KS) : option u16 :=
  match pi with PiKey i _ _ => Some i | PiVirtual _ => None end.

Lemma update_pressed_list_ok ctx ev pis s pis' s' :
  update_pressed_list conf ctx ev pis s = Ok (pis', s') ->
  map pi_index pis' = map pi_index pis.
Proof.
  revert s pis' s'. induction pis as [|[i r ks|ko] pis IH]; intros s pis' s' H; cbn [update_pressed_list] in H.
  - inv_ok H. reflexivity.
  - inv_bind H. destruct a as [ks' kes]. inv_bind H. inv_bind H. destruct a0 as [t' s2]. inv_ok H.
    cbn. f_equal. eauto.
  - inv_bind H. destruct a as [t' s2]. inv_ok H. cbn. f_equal. eauto.
Qed.

Lemma update_pressed_list_inv (I : scheduler Ev -> Prop) ctx ev pis :
  (forall s se s', I s -> sched_event_in pos s se = Ok s' -> I s') ->
  forall s pis' s', I s -> update_pressed_list conf ctx ev pis s = Ok (pis', s') -> I s'.
Proof.
  intros HI. induction pis as [|[i r ks|ko] pis IH]; intros s pis' s' Hs H; cbn [update_pressed_list] in H.
  - inv_ok H. exact Hs.
  - inv_bind H. destruct a as [ks' kes]. inv_bind H. inv_bind H. destruct a0 as [t' s2]. inv_ok H.
    eapply IH; [|exact E1]. eapply sched_all_inv; [|exact Hs|exact E0]. intros; eapply HI; eauto.
  - inv_bind H. destruct a as [t' s2]. inv_ok H. eauto.
Qed.

Lemma update_pressed_ok k ev k' :
  update_pressed conf k ev = Ok k' ->
  exists pis s, k' = set_sched (set_pressed k pis) s
    /\ update_pressed_list conf (km_ctx k) ev (km_pressed k) (km_sched k) = Ok (pis, s).
Proof.
  unfold update_pressed. intros H. inv_bind H. destruct a as [pis s]. inv_ok H. eauto.
Qed.

Lemma update_context_ok k ev k' :
  update_context conf k ev = Ok k' ->
  exists ctx kes s, k' = set_sched (set_ctx k ctx) s
    /\ sys_ctx_handle_event sys (km_ctx k) ev = Ok (ctx, kes)
    /\ sched_all pos (km_sched k) kes = Ok s.
Proof.
  unfold update_context. intros H. inv_bind H. destruct a as [ctx kes].
  apply schedule_all_ok in H as (s & Hs & ->). exists ctx, kes, s. auto.
Qed.

(** Requeueing. *)
Lemma requeue_ok evs : forall i q s q' s',
  requeue conf evs i q s = Ok (q', s') ->
  q' = q ++ filter_map input_of_event evs
  /\ (length q <= INPUT_QUEUE_CAPACITY -> length q' <= INPUT_QUEUE_CAPACITY)%nat
  /\ sc_pending s' = sc_pending s /\ sc_counter s' = sc_counter s.
Proof.
  induction evs as [|ev evs IH]; intros i q s q' s' H; cbn [requeue] in H.
  - inv_ok H. cbn. rewrite app_nil_r. auto.
  - destruct ev as [ie|j ke|kk]; inv_bind H.
    + inv_push E. apply IH in H as (-> & H2 & H3 & H4). cbn. rewrite <- app_assoc. repeat split; auto.
      intros Hl. rewrite <- app_assoc in H2. apply H2. rewrite app_length. cbn. lia.
    + apply sched_after_ok in E as (E1 & E2 & _). apply IH in H as (-> & H2 & H3 & H4). cbn.
      repeat split; auto; congruence.
    + apply sched_after_ok in E as (E1 & E2 & _). apply IH in H as (-> & H2 & H3 & H4). cbn.
      repeat split; auto; congruence.
Qed.
Lemma requeue_inv (I : scheduler Ev -> Prop) evs :
  (forall s d ev s', I s -> In ev evs -> sched_after pos s d ev = Ok s' -> I s') ->
  forall i q s q' s', I s -> requeue conf evs i q s = Ok (q', s') -> I s'.
Proof.
  induction evs as [|ev evs IH]; intros HI i q s q' s' Hs H; cbn [requeue] in H.
  - inv_ok H. exact Hs.
  - assert (HI' : forall s d ev s', I s -> In ev evs -> sched_after pos s d ev = Ok s' -> I s')
      by (intros; eapply HI; eauto; now right).
    destruct ev as [ie|j ke|kk]; inv_bind H.
    + eapply IH; eauto.
    + eapply IH; [exact HI'| |exact H]. eapply HI; [exact Hs|left; reflexivity|exact E].
    + eapply IH; [exact HI'| |exact H]. eapply HI; [exact Hs|left; reflexivity|exact E].
Qed.

Lemma run_callback_eq k ev :
  exists new, run_callback k ev = set_calls k (km_calls k ++ new)
    /\ (forall f, In f new -> exists cb, ev = EvKeymap (KmCallback cb) /\ lm_get (km_callbacks k) cb = Some f).
Proof.
  assert (E0 : k = set_calls k (km_calls k ++ [])) by (rewrite app_nil_r; now destruct k).
  unfold run_callback. destruct ev as [ie|i ke|[cb|i ko]]; try (exists []; split; [exact E0|intros f []]).
  destruct (lm_get (km_callbacks k) cb) as [f|] eqn:El; [|exists []; split; [exact E0|intros f []]].
  exists [f]. split; [reflexivity|]. intros f' [<-|[]]. eauto.
Qed.
End KM.

Ltac inv_prim :=
  repeat match goal with
  | H : schedule_all _ _ _ = Ok _ |- _ =>
      let s := fresh "s" in let Hs := fresh "Hs" in
      apply schedule_all_ok in H; destruct H as (s & Hs & ->)
  | H : update_pressed _ _ _ = Ok _ |- _ =>
      let s := fresh "s" in let pis := fresh "pis" in let Hs := fresh "Hs" in
      apply update_pressed_ok in H; destruct H as (pis & s & -> & Hs)
  | H : update_context _ _ _ = Ok _ |- _ =>
      let s := fresh "s" in let ctx := fresh "ctx" in let kes := fresh "kes" in
      let Hc := fresh "Hc" in let Hs := fresh "Hs" in
      apply update_context_ok in H; destruct H as (ctx & kes & s & -> & Hc & Hs)
  end.
