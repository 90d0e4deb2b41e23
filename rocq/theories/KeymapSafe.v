(** Invariants of a keymap from conditions on its parts: what its context can be,
    which events occur, which key each index can become and in which states. *)
From Verif Require Import BaseFacts Output Types Scheduler Keymap SpecScheduler SchedulerFacts SpecKeymap KeymapFacts KeymapInv KeymapHist KeymapQueue KeymapStuck KeymapHeld.
Local Open Scope N_scope.

Section Safe.
Context {R Ctx Ev PKS KS : Type}.
Variable conf : kconf R Ctx Ev PKS KS.
Local Notation km := (keymap R Ctx Ev PKS KS).
Local Notation sys := (kc_sys conf).
Local Notation job := (job R Ev KS).
Implicit Types k : km.

Record parts := mkParts {
  sf_ctx : Ctx -> Prop;
  sf_ev : event Ev -> Prop;
  may_be : u16 -> R -> Prop;
  waits_as : u16 -> R -> PKS -> Prop;
  down_as : u16 -> R -> KS -> Prop
}.
Variable F : parts.
Local Notation evs_ok kes := (Forall (fun se => sf_ev F (se_event se)) kes).

Record safe_parts := {
  sf_start : forall i r, nth_error (kc_refs conf) (N.to_nat i) = Some r -> may_be F i r;
  sf_press : forall i c r x kes, sf_ctx F c -> may_be F i r -> sys_new_pressed_key sys i c r = Ok (x, kes) ->
    evs_ok kes /\ match x with
    | PkResolved ks => down_as F i r ks
    | PkNewPressedKey (NpkKey r') => may_be F i r'
    | PkNewPressedKey NpkNoOp => down_as F i r (sys_no_op sys)
    | PkPending ps => waits_as F i r ps
    end;
  sf_pending : forall i c r ps ev ps' n kes, sf_ctx F c -> sf_ev F ev -> may_be F i r -> waits_as F i r ps ->
    sys_update_pending_state sys ps i c r ev = Ok (ps', n, kes) ->
    evs_ok kes /\ waits_as F i r ps' /\ match n with
                        | Some (NpkKey r') => may_be F i r'
                        | Some NpkNoOp => down_as F i r (sys_no_op sys)
                        | None => True
                        end;
  sf_state : forall i c r ks ev ks' kes, sf_ctx F c -> sf_ev F ev -> may_be F i r -> down_as F i r ks ->
    sys_update_state sys ks r c i ev = Ok (ks', kes) -> evs_ok kes /\ down_as F i r ks';
  sf_output : forall i r ks ko, may_be F i r -> down_as F i r ks -> sys_key_output sys r ks = Ok (Some ko) ->
    sf_ev F (EvKeymap (KmResolvedKeyOutput i ko));
  sf_event : forall c ev c' kes, sf_ctx F c -> sf_ev F ev -> sys_ctx_handle_event sys c ev = Ok (c', kes) ->
    sf_ctx F c' /\ evs_ok kes;
  sf_clock : forall c t i, sf_ctx F c -> sf_ctx F (sys_ctx_set_keymap_context sys c t i)
}.
Hypothesis HS : safe_parts.

Definition entry_ok (pi : pressed_input R KS) : Prop :=
  match pi with
  | PiKey i r ks => may_be F i r /\ down_as F i r ks
  | PiVirtual ko => sf_ev F (EvInput (VirtualKeyPress ko))
  end.
Definition queue_ok k : Prop := forall p, km_pending k = Some p -> Forall (sf_ev F) (pd_queued p).
Definition pend_ok k : Prop :=
  forall p, km_pending k = Some p -> may_be F (pd_index p) (pd_ref p) /\ waits_as F (pd_index p) (pd_ref p) (pd_state p).
Definition base_ok k : Prop :=
  sf_ctx F (km_ctx k) /\ events_ok (sf_ev F) (km_sched k) /\ Forall (fun ie => sf_ev F (EvInput ie)) (km_inq k)
  /\ Forall entry_ok (km_pressed k) /\ queue_ok k.
Definition all_ok k : Prop := base_ok k /\ pend_ok k.
Definition pre_ok (j : job) k : Prop :=
  base_ok k
  /\ match j with
     | JPressLoop i r => pend_ok k /\ may_be F i r
     | JPendingLoop (NpkKey r) => forall p, km_pending k = Some p -> may_be F (pd_index p) r
     | JPendingLoop NpkNoOp =>
         forall p, km_pending k = Some p -> may_be F (pd_index p) (pd_ref p) /\ down_as F (pd_index p) (pd_ref p) (sys_no_op sys)
     | JResolve ks => forall p, km_pending k = Some p -> may_be F (pd_index p) (pd_ref p) /\ down_as F (pd_index p) (pd_ref p) ks
     | JHandleEvent ev | JUpdatePending ev => pend_ok k /\ sf_ev F ev
     | JProcessInput ie => pend_ok k /\ sf_ev F (EvInput ie)
     | JHandlePending => pend_ok k
     end.

Lemma update_list_ok ctx ev pis : sf_ctx F ctx -> sf_ev F ev -> forall s pis' s',
  update_pressed_list conf ctx ev pis s = Ok (pis', s') -> Forall entry_ok pis -> events_ok (sf_ev F) s ->
  Forall entry_ok pis' /\ events_ok (sf_ev F) s'.
Proof.
  intros Hc He. induction pis as [|[i r ks|ko] pis IH]; intros s pis' s' H Hf Hs; cbn in H.
  - inv_ok H. split; [constructor|assumption].
  - inv_bind H. destruct a as [ks' kes]. inv_bind H. inv_bind H. destruct a0 as [l s2]. inv_ok H.
    inversion Hf as [|? ? HA C]; subst. destruct HA as [A B].
    destruct (sf_state HS _ _ _ _ _ _ _ Hc He A B E) as [K1 K2].
    eapply IH in E1 as [I1 I2]; [|exact C|eapply sched_all_events; eauto].
    split; [|exact I2]. constructor; [split; assumption|exact I1].
  - inv_bind H. destruct a as [l s2]. inv_ok H. inversion Hf; subst.
    destruct (IH _ _ _ E) as [I1 I2]; [assumption..|]. split; [|exact I2]. constructor; assumption.
Qed.
Lemma update_pressed_safe k ev k' : base_ok k -> sf_ev F ev -> update_pressed conf k ev = Ok k' ->
  base_ok k' /\ km_pending k' = km_pending k.
Proof.
  intros (A & B & C & D & E) He H. unfold update_pressed in H. inv_bind H. destruct a as [pis s]. inv_ok H.
  apply update_list_ok in E0 as [I1 I2]; auto. split; [|reflexivity]. repeat split; try assumption; apply I2.
Qed.
Lemma update_context_safe k ev k' : base_ok k -> sf_ev F ev -> update_context conf k ev = Ok k' ->
  base_ok k' /\ km_pending k' = km_pending k.
Proof.
  intros (A & B & C & D & E) He H. unfold update_context in H. inv_bind H. destruct a as [c kes].
  apply schedule_all_ok in H as (s & H & ->). destruct (sf_event HS _ _ _ _ A He E0) as [K1 K2].
  split; [|reflexivity]. cbn in H. repeat split; try assumption; eapply sched_all_events in H; eauto; apply H.
Qed.
Lemma schedule_safe k kes k' : base_ok k -> evs_ok kes -> schedule_all conf k kes = Ok k' ->
  base_ok k' /\ km_pending k' = km_pending k /\ km_pressed k' = km_pressed k.
Proof.
  intros (A & B & C & D & E) Hk H. apply schedule_all_ok in H as (s & H & ->). eapply sched_all_events in H; eauto.
  split; [|split; reflexivity]. repeat split; try assumption; apply H.
Qed.
Lemma remove_first_ok f pis : Forall entry_ok pis -> Forall entry_ok (remove_first f pis).
Proof.
  induction 1 as [|x l Hx Hl IH]; cbn; [constructor|]. destruct (f x); [exact Hl|now constructor].
Qed.
Lemma pend_same (a b : km) : km_pending b = km_pending a -> pend_ok a -> pend_ok b.
Proof. unfold pend_ok. now intros ->. Qed.
Lemma pend_none (a : km) : km_pending a = None -> pend_ok a.
Proof. unfold pend_ok. intros -> p H. discriminate. Qed.
Lemma requeue_safe evs : Forall (sf_ev F) evs -> forall i q s q' s', requeue conf evs i q s = Ok (q', s') ->
  Forall (fun ie => sf_ev F (EvInput ie)) q -> events_ok (sf_ev F) s ->
  Forall (fun ie => sf_ev F (EvInput ie)) q' /\ events_ok (sf_ev F) s'.
Proof.
  induction 1 as [|ev evs He _ IH]; intros i q s q' s' H Hq Hs; cbn in H.
  - inv_ok H. auto.
  - destruct ev as [ie|j e|m]; inv_bind H.
    + apply push_cap_ok in E as [-> _]. eapply IH; eauto. apply Forall_app. auto.
    + eapply IH; eauto. apply sched_after_ok in E as (Hp & _ & Es & _). destruct Hs as [H1 H2].
      unfold events_ok. rewrite Hp, Es. split; [exact H1|]. apply insert_at_Forall; auto.
    + eapply IH; eauto. apply sched_after_ok in E as (Hp & _ & Es & _). destruct Hs as [H1 H2].
      unfold events_ok. rewrite Hp, Es. split; [exact H1|]. apply insert_at_Forall; auto.
Qed.
Lemma resolve_queue_safe (p : pending_state R Ev PKS) i : Forall (sf_ev F) (pd_queued p) ->
  Forall (sf_ev F) (filter (fun ev => negb (is_own_event i ev)) (pd_queued p)
                    ++ last_list (filter (is_own_event i) (pd_queued p))).
Proof.
  intros H. rewrite Forall_forall in H. apply Forall_app. split; apply Forall_forall; intros ev Hin.
  - apply filter_In in Hin as [Hin _]. auto.
  - unfold last_list in Hin. destruct (last_opt _) as [x|] eqn:El; [|contradiction].
    destruct Hin as [<-|[]]. apply last_opt_spec in El.
    assert (In x (filter (is_own_event i) (pd_queued p))) by (rewrite El; apply in_or_app; right; now left).
    apply filter_In in H0 as [H0 _]. auto.
Qed.
Lemma requeue_reversed_safe evs q q' : Forall (sf_ev F) evs -> Forall (fun ie => sf_ev F (EvInput ie)) q ->
  requeue_reversed evs q = Ok q' -> Forall (fun ie => sf_ev F (EvInput ie)) q'.
Proof.
  intros He Hq H. unfold requeue_reversed in H. inv_bind H. apply push_all_cap_ok in E as [-> _], H as [-> _].
  apply Forall_app. split; [|exact Hq]. cbn. apply Forall_forall. intros x Hx.
  rewrite Forall_forall in He. apply He. apply in_rev. now apply in_filter_map_input.
Qed.

Lemma exec_safe fuel j k k' : pre_ok j k -> exec conf fuel j k = Ok k' -> all_ok k'.
Proof.
  apply (exec_contract conf pre_ok (fun _ _ k' => all_ok k')). clear - HS.
  intros j k k' [HB HP] H.
  assert (Hemit : forall i r ks a b, all_ok a -> may_be F i r -> down_as F i r ks ->
    emit_rel conf (fun (j : job) a b => pre_ok j a -> all_ok b) i r ks a b -> all_ok b).
  { intros i r ks a b [Ha1 Ha2] Hm Hd (o & Eo & Ho). destruct o as [ko|]; [|subst; split; assumption]. apply Ho.
    split; [exact Ha1|]. split; [exact Ha2|]. eapply (sf_output HS); eauto. }
  assert (Hsnoc : forall (a : km) x, base_ok a -> entry_ok x -> base_ok (set_pressed a (km_pressed a ++ [x]))).
  { intros a x (A & B & C & D & E) Hx. repeat split; try assumption; try apply B. apply Forall_app. split; [exact D|].
    constructor; [assumption|constructor]. }
  assert (Hq : forall (a : km) i r ps q, base_ok a -> Forall (sf_ev F) q ->
     base_ok (set_pending a (Some (mkPending i r ps q)))).
  { intros a i r ps q (A & B & C & D & E) Hx. repeat split; try assumption; try apply B. intros p Hp. cbn in Hp.
    injection Hp as <-. exact Hx. }
  assert (Hrm : forall (a : km) f, base_ok a -> base_ok (set_pressed a (remove_first f (km_pressed a)))).
  { intros a f (A & B & C & D & E). repeat split; try assumption; try apply B. now apply remove_first_ok. }
  destruct H; cbn [pre_ok] in HP;
    repeat match goal with
    | H : schedule_all _ _ _ = Ok _ |- _ => let H' := fresh "Hs" in pose proof (fun A B => schedule_safe _ _ _ A B H) as H'; clear H
    | H : update_pressed _ _ _ = Ok _ |- _ => let H' := fresh "Hu" in pose proof (fun A B => update_pressed_safe _ _ _ A B H) as H'; clear H
    | H : update_context _ _ _ = Ok _ |- _ => let H' := fresh "Hc" in pose proof (fun A B => update_context_safe _ _ _ A B H) as H'; clear H
    | H : km_pending ?k = Some ?p, HB : base_ok ?k |- _ =>
        lazymatch goal with
        | _ : Forall _ (pd_queued p) |- _ => fail
        | _ => assert (Forall (sf_ev F) (pd_queued p)) by (apply HB; exact H)
        end
    end.
  - split; assumption.
  - destruct HB as (A & [B1 B2] & C & D & E). rewrite H in B1. inversion B1; subst. split; [repeat split; assumption|exact HP].
  - pose proof HB as (A & [B1 B2] & C & D & E). rewrite H in B1. inversion B1; subst. apply H1. apply H0.
    split; [|split; assumption]. repeat split; assumption.
  - destruct HP as [HP He].
    assert (A1 : all_ok k1).
    { apply H. destruct (run_callback_eq k ev) as (new & -> & _). split; [exact HB|split; [exact HP|exact He]]. }
    destruct A1 as [B1 B2]. destruct (Hu B1 He) as [U1 U2]. destruct (Hc U1 He) as [V1 V2].
    assert (A2 : pend_ok k3) by (eapply pend_same; [|exact B2]; congruence).
    destruct ev; [apply H2; split; [exact V1|split; [exact A2|exact He]]|subst; split; assumption|subst; split; assumption].
  - destruct HP as [HP He]. apply H2. apply H1. split; [|split; [|exact He]].
    + apply Hq; [exact HB|]. apply Forall_app. split; [assumption|]. constructor; [exact He|constructor].
    + intros q Hq'. cbn in Hq'. injection Hq' as <-. cbn. apply HP. exact H.
  - destruct HP as [HP He]. destruct (Hu HB He) as [U1 U2]. destruct (Hc U1 He) as [V1 V2].
    apply H3. split; [exact V1|]. eapply pend_same; [|exact HP]; congruence.
  - destruct HP as [HP He]. destruct (Hu HB He) as [U1 U2]. destruct (Hc U1 He) as [V1 V2].
    apply H5. apply H4. split; [exact V1|]. split; [eapply pend_same; [|exact HP]; congruence|]. now apply (sf_start HS).
  - destruct HP as [HP He]. destruct (Hu HB He) as [U1 U2]. destruct (Hc U1 He) as [V1 V2].
    apply H2. split; [now apply Hrm|]. eapply pend_same; [|exact HP]; cbn; congruence.
  - destruct HP as [HP He]. destruct (Hu HB He) as [U1 U2]. destruct (Hc U1 He) as [V1 V2].
    apply H3. split; [apply Hsnoc; [exact V1|exact He]|]. eapply pend_same; [|exact HP]; cbn; congruence.
  - destruct HP as [HP He]. destruct (Hu HB He) as [U1 U2]. destruct (Hc U1 He) as [V1 V2].
    apply H2. split; [now apply Hrm|]. eapply pend_same; [|exact HP]; cbn; congruence.
  - destruct HP as [HP1 HP2]. destruct (sf_press HS _ _ _ _ _ (proj1 HB) HP2 H) as [K1 K2]. destruct (Hs HB K1) as (S1 & S2 & S3).
    eapply Hemit; [|exact HP2|exact K2|exact H2]. split; [apply Hsnoc; [exact S1|split; assumption]|].
    eapply pend_same; [|exact HP1]; cbn; congruence.
  - destruct HP as [HP1 HP2]. destruct (sf_press HS _ _ _ _ _ (proj1 HB) HP2 H) as [K1 K2]. destruct (Hs HB K1) as (S1 & S2 & S3).
    apply H1. split; [exact S1|]. split; [eapply pend_same; [|exact HP1]; cbn; congruence|exact K2].
  - destruct HP as [HP1 HP2]. destruct (sf_press HS _ _ _ _ _ (proj1 HB) HP2 H) as [K1 K2]. destruct (Hs HB K1) as (S1 & S2 & S3).
    split; [apply Hsnoc; [exact S1|split; assumption]|]. eapply pend_same; [|exact HP1]; cbn; congruence.
  - destruct HP as [HP1 HP2]. destruct (sf_press HS _ _ _ _ _ (proj1 HB) HP2 H) as [K1 K2]. destruct (Hs HB K1) as (S1 & S2 & S3).
    split; [apply Hq; [exact S1|constructor]|]. intros q Hq'. cbn in Hq'. injection Hq' as <-. cbn. auto.
  - destruct HP. split; assumption.
  - destruct HP as [HP He]. destruct (HP _ H) as [A1 A2].
    destruct (sf_pending HS _ _ _ _ _ _ _ _ (proj1 HB) He A1 A2 H0) as (K1 & K2 & _).
    destruct (Hs (Hq _ _ _ _ _ HB ltac:(eassumption)) K1) as (S1 & S2 & S3). split; [exact S1|].
    intros q Hq'. rewrite S2 in Hq'. cbn in Hq'. injection Hq' as <-. cbn. auto.
  - destruct HP as [HP He]. destruct (HP _ H) as [A1 A2].
    destruct (sf_pending HS _ _ _ _ _ _ _ _ (proj1 HB) He A1 A2 H0) as (K1 & K2 & K3).
    destruct (Hs (Hq _ _ _ _ _ HB ltac:(eassumption)) K1) as (S1 & S2 & S3). apply H2. split; [exact S1|].
    destruct npk as [r'|]; intros q Hq'; rewrite S2 in Hq'; cbn in Hq'; injection Hq' as <-; cbn; auto.
  - split; [exact HB|]. now apply pend_none.
  - apply H0. split; [exact HB|exact HP].
  - destruct (sf_press HS _ _ _ _ _ (proj1 HB) (HP _ H) H0) as [K1 K2].
    destruct (Hs (Hq _ _ _ _ _ HB ltac:(eassumption)) K1) as (S1 & S2 & S3). apply H2. split; [exact S1|].
    intros q Hq'. rewrite S2 in Hq'. cbn in Hq'. injection Hq' as <-. cbn. auto.
  - destruct (sf_press HS _ _ _ _ _ (proj1 HB) (HP _ H) H0) as [K1 K2].
    destruct (Hs (Hq _ _ _ _ _ HB ltac:(eassumption)) K1) as (S1 & S2 & S3). apply H2. split; [exact S1|].
    intros q Hq'. rewrite S2 in Hq'. cbn in Hq'. injection Hq' as <-. cbn. auto.
  - destruct (sf_press HS _ _ _ _ _ (proj1 HB) (HP _ H) H0) as [K1 K2].
    destruct (Hs (Hq _ _ _ _ _ HB ltac:(eassumption)) K1) as (S1 & S2 & S3). apply H2. split; [exact S1|].
    intros q Hq'. rewrite S2 in Hq'. cbn in Hq'. injection Hq' as <-. cbn. auto.
  - destruct (sf_press HS _ _ _ _ _ (proj1 HB) (HP _ H) H0) as [K1 K2].
    destruct (Hs (Hq _ _ _ _ _ HB ltac:(eassumption)) K1) as (S1 & S2 & S3).
    pose proof (Hq _ (pd_index p) r pks [] S1 ltac:(constructor)) as T. split.
    + destruct T as (A & B & C & D & E). repeat split; try assumption; try apply B. cbn [km_inq set_inq].
      eapply requeue_reversed_safe; eauto.
    + intros q0 Hq'. cbn in Hq'. injection Hq' as <-. cbn. auto.
  - split; [exact HB|]. now apply pend_none.
  - destruct (HP _ H) as [A1 A2]. eapply Hemit; [|exact A1|exact A2|exact H4]. apply H3.
    pose proof HB as (A & B & C & D & E).
    apply requeue_safe in H1 as [R1 R2]; [|now apply resolve_queue_safe|constructor|now apply cancel_events].
    apply push_all_cap_ok in H2 as [-> _]. split; [|now apply pend_none].
    split; [exact A|]. split; [exact R2|]. split; [cbn; apply Forall_app; split; assumption|].
    split; [cbn; apply Forall_app; split; [exact D|constructor; [split; assumption|constructor]]|].
    intros p' Hp'. discriminate Hp'.
Qed.

Lemma handle_input_safe fuel ev k k' : all_ok k -> sf_ev F (EvInput ev) -> km_handle_input conf fuel ev k = Ok k' -> all_ok k'.
Proof.
  intros [HB HP] He H.
  assert (HB' : forall l, Forall (fun ie => sf_ev F (EvInput ie)) l -> base_ok (set_inq k l)).
  { intros l Hl. destruct HB as (A & B & C & D & E). repeat split; try assumption; apply B. }
  apply handle_input_cases in H as [(_ & _ & ie & q & k2 & Eq & H & ->)|[(_ & _ & ->)|(_ & ->)]].
  - assert (Hl : Forall (fun ie => sf_ev F (EvInput ie)) (km_inq k ++ [ev])) by (apply Forall_app; split; [apply HB|constructor; [exact He|constructor]]).
    rewrite Eq in Hl. inversion Hl; subst. apply exec_safe in H; [exact H|]. split; [now apply HB'|]. split; assumption.
  - split; [|exact HP]. apply HB'. apply Forall_app; split; [apply HB|constructor; [exact He|constructor]].
  - split; assumption.
Qed.
Lemma tick_safe fuel k k' : all_ok k -> km_tick conf fuel k = Ok k' -> all_ok k'.
Proof.
  intros [HB HP] H. apply tick_cases in H as (k1 & k2 & s & k3 & H1 & E2 & Hs & H3 & _ & ->).
  pose proof HB as (A & B & C & D & E).
  assert (HI1 : all_ok k1).
  { destruct H1 as [(ie & q & k1' & Eq & _ & H1 & ->)|(-> & _)].
    - cbn in Eq. rewrite Eq in C. inversion C; subst.
      apply exec_safe in H1; [exact H1|]. split; [|split; assumption].
      split; [now apply (sf_clock HS)|]. split; [exact B|]. split; [assumption|]. split; assumption.
    - split; [|exact HP]. split; [now apply (sf_clock HS)|]. split; [exact B|]. split; [assumption|]. split; assumption. }
  assert (HI2 : all_ok k2) by (subst k2; destruct (0 <? km_delay k1); exact HI1).
  clear - HS HI2 Hs H3. destruct HI2 as [(A & B & C & D & E) HP]. apply exec_safe in H3; [exact H3|].
  split; [|exact HP]. split; [exact A|]. split; [eapply sched_tick_events; eauto|]. split; [assumption|]. split; assumption.
Qed.
Lemma init_safe k : all_ok k -> all_ok (km_init k).
Proof.
  intros [(A & B & C & D & E) HP]. split; [|now apply pend_none]. split; [exact A|].
  split; [split; cbn; [apply drain_Forall, B|constructor]|]. split; [constructor|]. split; [constructor|]. intros p; discriminate.
Qed.
Lemma new_safe c : sf_ctx F c -> all_ok (km_new c).
Proof.
  intros Hc. split; [|now apply pend_none]. split; [exact Hc|]. split; [split; constructor|]. split; [constructor|].
  split; [constructor|]. intros p; discriminate.
Qed.
Definition inputs_ok (ops : list op) : Prop := forall o ie, In o ops -> op_input o = Some ie -> sf_ev F (EvInput ie).
Lemma run_safe fuel ops k k' : inputs_ok ops -> all_ok k -> run_ops conf fuel ops k = Ok k' -> all_ok k'.
Proof.
  intros Hi. apply run_ops_inv_in; try (intros; assumption).
  - intros a ev a' Ha (o & Ho & Ei) H. eapply handle_input_safe; eauto.
  - intros; eapply tick_safe; eauto.
  - intros; now apply init_safe.
Qed.
Lemma reach_safe fuel ops c k : inputs_ok ops -> sf_ctx F c -> run_ops conf fuel ops (km_new c) = Ok k -> all_ok k.
Proof. intros Hi Hc. apply run_safe; [exact Hi|]. now apply new_safe. Qed.
End Safe.
