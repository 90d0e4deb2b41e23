(** The composite context: what one event does to its parts, and what the keys
    see of the idle time. *)
From Verif Require Import BaseFacts Output Types Scheduler Reporter Keymap SimpleKeys TapHold TapDance Sticky
  CapsWord Layered Automation Chorded Composite SpecTap KeymapFacts KeymapInv KeymapQueue KeymapCtx.
Local Open Scope N_scope.

Lemma cctx_inv c ev c' kes : cctx_handle_event c ev = Ok (c', kes) ->
  exists k1 k2 k5,
    step_automation (cx_automation c) ev = Ok (cx_automation c', k1)
    /\ step_caps_word (cx_caps_word c) ev = (cx_caps_word c', k2)
    /\ step_chorded (cx_chorded c) ev = Ok (cx_chorded c')
    /\ step_layered (cx_layered c) ev = Ok (cx_layered c')
    /\ step_sticky (cx_sticky c) ev = Ok (cx_sticky c', k5)
    /\ cx_tap_dance c' = cx_tap_dance c /\ cx_tap_hold c' = cx_tap_hold c
    /\ kes = k1 ++ k2 ++ k5 /\ (length kes <= MAX_KEY_EVENTS)%nat.
Proof.
  unfold cctx_handle_event, ke_extend. intros H. inv_bind H. destruct a as [a k1]. inv_bind H.
  destruct (step_caps_word (cx_caps_word c) ev) as [w k2] eqn:Ew. inv_bind H. inv_bind H. inv_bind H. inv_bind H.
  destruct a4 as [st k5]. inv_bind H. inv_ok H.
  apply push_all_cap_ok in E0 as [-> ?], E1 as [-> ?], E5 as [-> ?]. cbn in *.
  exists k1, k2, k5. rewrite <- app_assoc. repeat split; auto.
  destruct k5; [rewrite app_nil_r in *; destruct k2; [rewrite app_nil_r in *; destruct k1|]|].
  - cbn. lia.
  - apply H; discriminate.
  - apply H0; discriminate.
  - rewrite app_assoc. apply H1; discriminate.
Qed.

(** *** The idle time the keys see *)
Definition seen_rel (a b : cctx) : Prop :=
  cx_tap_hold b = cx_tap_hold a /\ cx_tap_dance b = cx_tap_dance a
  /\ chx_idle (cx_chorded b) = chx_idle (cx_chorded a) /\ chx_config (cx_chorded b) = chx_config (cx_chorded a).
Lemma step_chorded_keeps c ev c' : step_chorded c ev = Ok c' ->
  chx_idle c' = chx_idle c /\ chx_config c' = chx_config c.
Proof.
  unfold step_chorded. destruct (try_event as_chorded ev) as [e|]; [|intros H; now inv_ok H].
  destruct e as [[k|k|ko|ko]|k [[id|]|]|kk]; cbn; intros H.
  - inv_bind H. inv_bind H. inv_bind H. now inv_ok H.
  - now inv_ok H.
  - now inv_ok H.
  - now inv_ok H.
  - inv_bind H. now inv_ok H.
  - now inv_ok H.
  - now inv_ok H.
  - now inv_ok H.
Qed.
Lemma cctx_seen c ev c' kes : cctx_handle_event c ev = Ok (c', kes) -> seen_rel c c'.
Proof.
  intros H. apply cctx_inv in H as (k1 & k2 & k5 & _ & _ & H & _ & _ & H1 & H2 & _).
  apply step_chorded_keeps in H as [H3 H4]. repeat split; assumption.
Qed.

Section Idle.
Variables (refs : list ref) (d : key_data) (pos : position_fn) (debug : bool).
Local Notation conf := (cconf refs d pos debug).

Lemma seen_rel_refl c : seen_rel c c. Proof. repeat split. Qed.
Lemma seen_rel_trans a b c : seen_rel a b -> seen_rel b c -> seen_rel a c.
Proof. unfold seen_rel. intros (A & B & C & D) (A' & B' & C' & D'). repeat split; congruence. Qed.

Definition sees (s : idle_clock) (k : ckeymap) : Prop :=
  s = (km_ms_per_tick k, km_idle k, thx_idle (cx_tap_hold (km_ctx k)))
  /\ chx_idle (cx_chorded (km_ctx k)) = thx_idle (cx_tap_hold (km_ctx k)).

Lemma run_ops_sees fuel ops : Forall basic_op ops -> forall s k k', sees s k ->
  run_ops conf fuel ops k = Ok k' -> sees (fold_left idle_step ops s) k'.
Proof.
  unfold run_ops. induction 1 as [|o ops Ho _ IH]; intros s k k' Hs H; cbn in H; [now inv_ok H|].
  inv_bind H. cbn [fold_left]. refine (IH _ _ _ _ H). clear H IH k'. destruct Hs as [-> Hc]. unfold sees.
  destruct o as [ev| |dd ev| | | |ms|c f]; cbn [run_op idle_step basic_op] in *; try contradiction.
  - pose proof (frame_of_handle_input _ _ _ _ _ E) as (_ & -> & ->).
    apply (handle_input_ctx conf seen_rel seen_rel_refl seen_rel_trans cctx_seen) in E as (H1 & _ & H3 & _).
    rewrite H1, H3. auto.
  - pose proof (frame_of_tick _ _ _ _ E) as (_ & -> & ->).
    apply (tick_ctx conf seen_rel seen_rel_refl seen_rel_trans cctx_seen) in E as (H1 & _ & H3 & _).
    cbn in H1, H3. rewrite H1, H3. auto.
  - inv_bind E. destruct a0 as [k2 t]. inv_ok E. unfold km_report_output in E0. inv_bind E0. inv_ok E0. auto.
  - inv_ok E. auto.
  - inv_ok E. auto.
  - unfold km_set_callback in E. inv_bind E. inv_ok E. auto.
Qed.

(** What never changes: the configurations of the chords, tap-dance and tap-hold keys. *)
Definition same_conf (a b : cctx) : Prop :=
  thx_config (cx_tap_hold b) = thx_config (cx_tap_hold a) /\ cx_tap_dance b = cx_tap_dance a
  /\ chx_config (cx_chorded b) = chx_config (cx_chorded a).
Lemma run_ops_config fuel ops k k' : run_ops conf fuel ops k = Ok k' -> same_conf (km_ctx k) (km_ctx k').
Proof.
  apply (run_ops_ctx_inv conf (same_conf (km_ctx k)) fuel); [| |repeat split].
  - intros c ev c' kes (A & B & C) H. apply cctx_seen in H as (A' & B' & _ & C'). unfold same_conf.
    rewrite A', B', C'. auto.
  - intros c t i H. exact H.
Qed.

Lemma reach_idle fuel cf ops k : Forall basic_op ops ->
  run_ops conf fuel ops (km_new (ctx_from_config cf)) = Ok k ->
  thx_idle (cx_tap_hold (km_ctx k)) = idle_seen ops /\ chx_idle (cx_chorded (km_ctx k)) = idle_seen ops
  /\ thx_config (cx_tap_hold (km_ctx k)) = cf_tap_hold cf /\ chx_config (cx_chorded (km_ctx k)) = cf_chorded cf
  /\ cx_tap_dance (km_ctx k) = td_ctx_new (cf_tap_dance cf).
Proof.
  intros Hb H. pose proof (run_ops_config _ _ _ _ H) as (A & B & C). cbn in A, B, C.
  apply (run_ops_sees fuel ops Hb (1, 0, 0)) in H; [|split; reflexivity]. destruct H as [H1 H2].
  unfold idle_seen. rewrite H1. auto.
Qed.
End Idle.

(** *** The calls that advance time are ticks (C42) *)
Section Expand.
Context {R Ctx Ev PKS KS : Type}.
Variable conf : kconf R Ctx Ev PKS KS.
Lemma run_ops_app fuel a b (k : keymap R Ctx Ev PKS KS) :
  run_ops conf fuel (a ++ b) k = bind (run_ops conf fuel a k) (run_ops conf fuel b).
Proof.
  unfold run_ops. revert k. induction a as [|o a IH]; intros k; cbn; [reflexivity|].
  destruct (run_op conf fuel k o); cbn; auto.
Qed.
Lemma input_after_ticks fuel dl ev (k k' : keymap R Ctx Ev PKS KS) :
  run_op conf fuel k (OpInputAfter dl ev) = Ok k' ->
  run_ops conf fuel (repeat OpTick (ticks_of (km_ms_per_tick k) dl) ++ [OpInput ev]) k = Ok k'.
Proof.
  cbn [run_op]. intros H. inv_bind H. destruct a as [k2 t]. inv_ok H. unfold km_handle_input_after_time in E.
  inv_bind E. inv_bind E. inv_bind E.
  assert (k' = a0) as ->.
  { destruct a1 as [t'|]; [|now inversion E]. destruct ((t' =? 0) && kc_debug conf); inversion E; reflexivity. }
  apply tick_by_ops in E0 as (n & H & ->). rewrite run_ops_app. unfold ticks_of. rewrite H. cbn. now rewrite E1.
Qed.
Lemma tick_to_next_ticks fuel (k k' : keymap R Ctx Ev PKS KS) :
  run_op conf fuel k OpTickToNext = Ok k' ->
  exists t, next_event_time (km_sched k) = Ok t
    /\ run_ops conf fuel (match t with Some dl => repeat OpTick (ticks_of (km_ms_per_tick k) dl) | None => [] end) k = Ok k'.
Proof.
  cbn [run_op]. intros H. inv_bind H. destruct a as [k2 t]. inv_ok H. unfold km_tick_to_next in E. inv_bind E.
  exists a. split; [exact E0|]. destruct a as [dl|].
  - inv_bind E. inv_bind E. inv_ok E. apply tick_by_ops in E1 as (n & H & ->). exact H.
  - now inv_ok E.
Qed.
Lemma basic_history fuel ops : forall (k k' : keymap R Ctx Ev PKS KS),
  run_ops conf fuel ops k = Ok k' ->
  exists ops', Forall basic_op ops' /\ run_ops conf fuel ops' k = Ok k'.
Proof.
  induction ops as [|o ops IH]; intros k k' H; [exists []; split; [constructor|exact H]|].
  unfold run_ops in H. cbn [fold_res] in H. inv_bind H. apply IH in H as (ops' & Hb & H).
  assert (Hone : exists l, Forall basic_op l /\ run_ops conf fuel l k = Ok a).
  { assert (Hrep : forall n, Forall basic_op (repeat OpTick n)) by (induction n; cbn; constructor; [exact I|assumption]).
    assert (Hself : basic_op o -> exists l, Forall basic_op l /\ run_ops conf fuel l k = Ok a).
    { intros Ho. exists [o]. split; [constructor; [exact Ho|constructor]|]. unfold run_ops. cbn [fold_res]. now rewrite E. }
    destruct o as [ev| |dd ev| | | |ms|c f]; try (exact (Hself I)).
    - apply input_after_ticks in E. eexists. split; [|exact E]. apply Forall_app. split; [apply Hrep|].
      constructor; [exact I|constructor].
    - apply tick_to_next_ticks in E as (t & _ & E). eexists. split; [|exact E]. destruct t; [apply Hrep|constructor]. }
  destruct Hone as (l & Hl & El). exists (l ++ ops'). split; [now apply Forall_app|].
  rewrite run_ops_app, El. exact H.
Qed.
End Expand.
