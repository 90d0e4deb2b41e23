(** Input queue and clocks (C14, C20). *)
From Coq Require Import Sorted Permutation.
From Verif Require Import BaseFacts Output Types Scheduler Reporter Keymap SpecScheduler SchedulerFacts
  SpecReporter ReporterFacts KeymapFacts SpecKeymap KeymapInv KeymapHist.
Local Open Scope N_scope.

Lemma filter_map_filter_map {A B C} (f : A -> option B) (g : B -> option C) l :
  filter_map g (filter_map f l) = filter_map (fun x => match f x with Some y => g y | None => None end) l.
Proof. induction l as [|x l IH]; cbn; [reflexivity|]. destruct (f x); cbn; [destruct (g b)|]; now rewrite IH. Qed.

Section Q.
Context {R Ctx Ev PKS KS : Type}.
Variable conf : kconf R Ctx Ev PKS KS.
Local Notation km := (keymap R Ctx Ev PKS KS).
Local Notation sys := (kc_sys conf).
Local Notation pos := (kc_pos conf).
Local Notation job := (job R Ev KS).
Implicit Types (k : km) (p : pending_state R Ev PKS).

(** ** Invariants over histories, with the inputs they contain *)
Definition op_input (o : op) : option input_event :=
  match o with OpInput ev => Some ev | OpInputAfter _ ev => Some ev | _ => None end.

Lemma run_ops_inv_in (I : km -> Prop) fuel ops :
  (forall k ev k', I k -> (exists o, In o ops /\ op_input o = Some ev) ->
       km_handle_input conf fuel ev k = Ok k' -> I k') ->
  (forall k k', I k -> km_tick conf fuel k = Ok k' -> I k') ->
  (forall k r, I k -> I (set_rep k r)) ->
  (forall k, I k -> In OpInit ops -> I (km_init k)) ->
  (forall k ms, I k -> I (set_ms_per_tick k ms)) ->
  (forall k c, I k -> I (set_callbacks k c)) ->
  forall k k', I k -> run_ops conf fuel ops k = Ok k' -> I k'.
Proof.
  intros Hin Htick Hrep Hinit Hms Hcb k k' Hk. unfold run_ops. apply fold_res_inv; [|exact Hk].
  clear k k' Hk. intros k o k' Hk Ho H. destruct o as [ev| |d ev| | | |ms|c f]; cbn [run_op] in H.
  - eapply Hin; [exact Hk|eexists; split; [exact Ho|reflexivity]|exact H].
  - eauto.
  - inv_bind H. destruct a as [k2 t]. inv_ok H. unfold km_handle_input_after_time in E.
    inv_bind E. inv_bind E. inv_bind E.
    assert (k' = a0) as ->.
    { destruct a1 as [t'|]; [|now inversion E]. destruct ((t' =? 0) && kc_debug conf); inversion E; reflexivity. }
    eapply Hin; [|eexists; split; [exact Ho|reflexivity]|exact E1]. eapply tick_by_inv; eauto.
  - inv_bind H. destruct a as [k2 t]. inv_ok H. unfold km_tick_to_next in E. inv_bind E.
    destruct a as [d|].
    + inv_bind E. inv_bind E. inv_ok E. eapply tick_by_inv; eauto.
    + inv_ok E. exact Hk.
  - inv_bind H. destruct a as [k2 t]. inv_ok H. unfold km_report_output in E. inv_bind E. inv_ok E. auto.
  - inv_ok H. auto.
  - inv_ok H. apply Hms. exact Hk.
  - unfold km_set_callback in H. inv_bind H. inv_ok H. auto.
Qed.

(** ** The input queue keeps what was waiting, in order *)
Lemma exec_inq fuel j k k' : exec conf fuel j k = Ok k' -> exists pre, km_inq k' = pre ++ km_inq k.
Proof.
  apply (exec_contract conf (fun _ _ => True) (fun _ k k' => exists pre, km_inq k' = pre ++ km_inq k)); [|exact I].
  clear. intros j k k' _ H.
  assert (Hrefl : forall a b : km, km_inq b = km_inq a -> exists pre, km_inq b = pre ++ km_inq a)
    by (intros a b ->; exists []; reflexivity).
  assert (Htr : forall a b c : km, (exists pre, km_inq b = pre ++ km_inq a) ->
              (exists pre, km_inq c = pre ++ km_inq b) -> exists pre, km_inq c = pre ++ km_inq a).
  { intros a b c (x & ->) (y & ->). exists (y ++ x). now rewrite app_assoc. }
  assert (Hemit : forall i r ks a b,
    emit_rel conf (fun (j : job) a b => True -> exists pre, km_inq b = pre ++ km_inq a) i r ks a b ->
    exists pre, km_inq b = pre ++ km_inq a).
  { intros i r ks a b (o & _ & Ho). destruct o; [auto|subst; auto]. }
  destruct H; inv_prim; cbn in *;
    repeat match goal with
    | H : True -> exists _, _ |- _ => specialize (H I)
    | H : emit_rel _ _ _ _ _ _ _ |- _ => apply Hemit in H; cbn in H
    end; auto; try (exists []; reflexivity).
  - eapply Htr; eassumption.
  - destruct (run_callback_eq k ev) as (new & Er & _). rewrite Er in H. cbn in H.
    destruct ev; [|subst; exact H|subst; exact H]. eapply (Htr k); [exact H|]. exact (H2 I).
  - eapply (Htr k); eassumption.
  - eapply (Htr k); eassumption.
  - unfold requeue_reversed in H2. inv_bind H2. apply push_all_cap_ok in H2 as [-> _]. eauto.
  - apply push_all_cap_ok in H2 as [-> _]. eapply (Htr k); [|exact H4]. destruct H3 as (pre & ->).
    rewrite app_assoc. eauto.
Qed.

Lemma update_pressed_list_shape ctx ev pis : forall s pis' s',
  update_pressed_list conf ctx ev pis s = Ok (pis', s') ->
  map shape_of pis' = map (@shape_of R KS) pis.
Proof.
  induction pis as [|[i r ks|ko] pis IH]; intros s pis' s' H; cbn in H.
  - now inv_ok H.
  - inv_bind H. destruct a as [ks' kes]. inv_bind H. inv_bind H. destruct a0 as [t s2]. inv_ok H.
    cbn. f_equal. eauto.
  - inv_bind H. destruct a as [t s2]. inv_ok H. cbn. f_equal. eauto.
Qed.

(** ** C20: clocks *)
Lemma frame_of_handle_input fuel ev k k' :
  km_handle_input conf fuel ev k = Ok k' ->
  sc_counter (km_sched k') = sc_counter (km_sched k) /\ km_ms_per_tick k' = km_ms_per_tick k /\ km_idle k' = 0.
Proof.
  intros H. apply handle_input_cases in H as [(_ & _ & x & q & k2 & _ & H & ->)|[(_ & _ & ->)|(_ & ->)]]; auto.
  apply exec_frame in H as (A & B & C & _). auto.
Qed.
Lemma frame_of_tick fuel k k' :
  km_tick conf fuel k = Ok k' ->
  sc_counter (km_sched k') = sc_counter (km_sched k) + km_ms_per_tick k
  /\ km_ms_per_tick k' = km_ms_per_tick k /\ km_idle k' = km_idle k + km_ms_per_tick k.
Proof.
  intros H. apply tick_cases in H as (k1 & k2 & s & k3 & H1 & E2 & Hs & H3 & _ & ->).
  assert (A1 : sc_counter (km_sched k1) = sc_counter (km_sched k) /\ km_ms_per_tick k1 = km_ms_per_tick k
               /\ km_idle k1 = km_idle k).
  { destruct H1 as [(x & q & k1' & _ & _ & H1 & ->)|(-> & _)]; [|auto]. apply exec_frame in H1 as (A & B & C & _). auto. }
  assert (A2 : km_sched k2 = km_sched k1 /\ km_ms_per_tick k2 = km_ms_per_tick k1 /\ km_idle k2 = km_idle k1)
    by (subst k2; destruct (0 <? km_delay k1); auto).
  apply sched_tick_ok in Hs as (Hc & _). apply exec_frame in H3 as (A & B & C & _). cbn in *.
  destruct A1 as (X1 & X2 & X3), A2 as (Y1 & Y2 & Y3). rewrite Y1 in Hc. repeat split; try congruence.
Qed.
Definition clocks_of k : clocks := mkClocks (sc_counter (km_sched k)) (km_idle k) (km_ms_per_tick k).
Lemma tick_n_clock fuel n : forall k k', tick_n conf fuel n k = Ok k' ->
  sc_counter (km_sched k') = sc_counter (km_sched k) + N.of_nat n * km_ms_per_tick k
  /\ km_ms_per_tick k' = km_ms_per_tick k /\ km_idle k' = km_idle k + N.of_nat n * km_ms_per_tick k.
Proof.
  induction n as [|n IH]; intros k k' H; cbn in H.
  - inv_ok H. repeat split; lia.
  - inv_bind H. apply frame_of_tick in E as (A & B & C). apply IH in H as (A' & B' & C').
    rewrite B in *. repeat split; try congruence; rewrite ?A', ?C', ?A, ?C; lia.
Qed.
Lemma tick_by_clock fuel d k k' : km_tick_by conf fuel d k = Ok k' ->
  sc_counter (km_sched k') = sc_counter (km_sched k) + (if d =? 0 then 1 else d / km_ms_per_tick k) * km_ms_per_tick k
  /\ km_ms_per_tick k' = km_ms_per_tick k.
Proof.
  unfold km_tick_by. destruct (d =? 0).
  - intros H. apply frame_of_tick in H as (A & B & _). rewrite N.mul_1_l. auto.
  - destruct (km_ms_per_tick k =? 0); [discriminate|]. intros H. apply tick_n_clock in H as (A & B & _).
    rewrite N2Nat.id in A. auto.
Qed.
Lemma run_ops_clock fuel ops : Forall (fun o => timed_op o = true) ops -> forall k k',
  run_ops conf fuel ops k = Ok k' -> clocks_of k' = fold_left clocks_step ops (clocks_of k).
Proof.
  unfold run_ops. induction 1 as [|o ops Ho _ IH]; intros k k' H; cbn in H; [now inv_ok H|].
  inv_bind H. cbn. rewrite (IH _ _ H). f_equal. clear H IH. unfold clocks_of.
  destruct o as [ev| |d ev| | | |ms|c f]; cbn [run_op clocks_step ck_now ck_idle ck_ms] in *; try discriminate.
  - apply frame_of_handle_input in E as (-> & -> & ->). reflexivity.
  - apply frame_of_tick in E as (-> & -> & ->). reflexivity.
  - inv_bind E. destruct a0 as [k2 t]. inv_ok E. unfold km_handle_input_after_time in E0.
    inv_bind E0. inv_bind E0. inv_bind E0.
    assert (a = a1) as ->.
    { destruct a2 as [t'|]; [|now inversion E0]. destruct ((t' =? 0) && kc_debug conf); inversion E0; reflexivity. }
    apply tick_by_clock in E as (A & B). apply frame_of_handle_input in E1 as (-> & -> & ->). now rewrite A, B.
  - inv_bind E. destruct a0 as [k2 t]. inv_ok E. unfold km_report_output in E0. inv_bind E0. inv_ok E0. reflexivity.
  - inv_ok E. reflexivity.
  - inv_ok E. reflexivity.
  - unfold km_set_callback in E. inv_bind E. inv_ok E. reflexivity.
Qed.
End Q.

(** ** C14: the queue *)
Section Queue.
Context {R Ctx Ev PKS KS : Type}.
Variable conf : kconf R Ctx Ev PKS KS.
Local Notation W := (watch conf).
Local Notation wkm := (keymap R (Ctx * list (event Ev)) Ev PKS KS).
Local Notation sys := (kc_sys conf).
Local Notation job := (job R Ev KS).
Implicit Types (k : wkm).

Lemma watch_emits E : emits_only sys E -> emits_only (kc_sys W) E.
Proof.
  intros (H1 & H2 & H3 & H4). repeat split; cbn; intros; eauto.
  inv_bind H. destruct a as [c' kes']. inv_ok H. eauto.
Qed.
Lemma watch_all_plain plain : all_plain conf plain -> all_plain W plain.
Proof. intros (H1 & H2 & H3). split; [exact H1|]. split; cbn; intros; eauto. Qed.

Definition phys k : list input_event := filter_map physical_of (seen k).
Variable plain : R -> Prop.
Definition plain_job (j : job) : Prop := match j with JPressLoop _ r => plain r | _ => True end.
Definition p14 (j : job) k : Prop := km_pending k = None /\ pie not_physical j k /\ plain_job j.
Definition q14 (j : job) k k' : Prop :=
  km_pending k' = None /\ km_inq k' = km_inq k
  /\ phys k' = phys k ++ (match j with JProcessInput x => if physical x then [x] else [] | _ => [] end).

Hypothesis He : emits_only sys not_physical.
Hypothesis Hnp : all_plain conf plain.

Lemma watch_update_context_seen k ev k' : update_context W k ev = Ok k' -> seen k' = seen k ++ [ev].
Proof.
  unfold update_context. intros H. inv_bind H. destruct a as [c kes].
  apply schedule_all_ok in H as (s & _ & ->). cbn in E. inv_bind E. destruct a as [x kes']. inv_ok E. reflexivity.
Qed.
Lemma watch_ctx_seen (c c' : Ctx * list (event Ev)) ev kes :
  sys_ctx_handle_event (kc_sys W) c ev = Ok (c', kes) -> snd c' = snd c ++ [ev].
Proof. cbn. intros E. inv_bind E. destruct a as [x kes']. inv_ok E. reflexivity. Qed.

Lemma exec_queue fuel j k k' : p14 j k -> exec W fuel j k = Ok k' -> q14 j k k'.
Proof.
  pose proof (watch_emits _ He) as HeW. pose proof (watch_all_plain _ Hnp) as (HnW1 & HnW & HnW3).
  apply (exec_contract' W p14 q14). clear - HeW HnW1 HnW HnW3. intros j k k' (Hn & HI & HR) H. unfold q14.
  assert (Hemit : forall i r ks a b, p14 JHandlePending a ->
    emit_rel W (fun (j : job) a b => (exists f, exec W f j a = Ok b) /\ (p14 j a -> q14 j a b)) i r ks a b ->
    km_pending b = None /\ km_inq b = km_inq a /\ phys b = phys a).
  { intros i r ks a b (A & B & _) (o & _ & Ho). destruct o; [|subst; auto]. destruct Ho as [_ Ho].
    destruct Ho as (X & Y & Z). { split; [exact A|]. split; [|exact I]. split; [apply B|exact I]. }
    rewrite app_nil_r in Z. auto. }
  assert (Hie : forall f j (a b : wkm), exec W f j a = Ok b -> pie not_physical j a -> ie not_physical b).
  { intros f j0 a b Hx Ha. eapply exec_ie; [exact HeW|intros; exact I|exact Ha|exact Hx]. }
  destruct H; try congruence; inv_prim; cbn in *;
    repeat match goal with
    | H : sys_new_pressed_key sys _ _ _ = Ok (PkPending _, _) |- _ => exfalso; eapply HnW; [exact HR|cbn; exact H]
    end.
  - rewrite app_nil_r. auto.
  - rewrite app_nil_r. auto.
  - destruct H0 as [(f0 & X0) H0]. destruct H1 as [_ H1].
    assert (Hp : pie not_physical (JHandleEvent ev) (set_sched k (mkSched t (sc_scheduled (km_sched k)) (sc_counter (km_sched k))))).
    { destruct HI as ([[A B] C] & _). rewrite H in A. inversion A; subst. repeat split; cbn; auto. }
    destruct (H0 (conj Hn (conj Hp I))) as (N1 & I1 & S1).
    destruct H1 as (N2 & I2 & S2). { split; [exact N1|]. split; [|exact I]. split; [|exact I]. eapply Hie; eauto. }
    rewrite app_nil_r in *. cbn in *. repeat split; auto; try congruence.
    rewrite S2, S1. reflexivity.
  - destruct (run_callback_eq k ev) as (new & Er & _). rewrite Er in H.
    destruct H as [(f0 & X0) H].
    assert (Hp : pie not_physical (JUpdatePending ev) (set_calls k (km_calls k ++ new)))
      by (destruct HI as [[A B] _]; repeat split; try apply A; exact B).
    destruct (H (conj Hn (conj Hp I))) as (N1 & I1 & S1). rewrite app_nil_r in S1.
    pose proof (Hie _ _ _ _ X0 Hp) as HI1.
    apply watch_ctx_seen in Hc as Hseen.
    assert (Hev : physical_of ev = None).
    { destruct ev as [x| |]; cbn; auto. destruct HI as [_ HI]. cbn in HI. now rewrite HI. }
    assert (Hphys : filter_map physical_of (snd ctx) = phys k1).
    { rewrite Hseen, filter_map_app. cbn. rewrite Hev, app_nil_r. reflexivity. }
    destruct ev as [x|i ke|kk].
    + destruct H2 as [_ H2]. destruct H2 as (N2 & I2 & S2).
      * split; [exact N1|]. split; [|exact I]. split; [|exact I]. split; [|destruct HI1; auto].
        cbn. eapply sched_all_events; [exact Hs0| |].
        -- destruct HeW as (_ & _ & _ & He4). eapply He4; exact Hc.
        -- eapply (update_pressed_list_events W); [exact HeW|exact Hs|]. apply HI1.
      * cbn in *. repeat split; auto; try congruence. destruct HI as [_ HI]. cbn in HI.
        rewrite HI, app_nil_r in S2. rewrite app_nil_r, S2. unfold phys in *. cbn in *.
        unfold seen in *. cbn in *. congruence.
    + subst k'. cbn. rewrite app_nil_r. repeat split; auto. unfold phys in *. cbn in *. unfold seen in *. cbn in *. congruence.
    + subst k'. cbn. rewrite app_nil_r. repeat split; auto. unfold phys in *. cbn in *. unfold seen in *. cbn in *. congruence.
  - (* press, held *)
    destruct H3 as [_ H3].
    apply watch_ctx_seen in Hc as Hseen.
    destruct H3 as (N2 & I2 & S2).
    + split; [exact Hn|]. split; [|exact I]. split; [|exact I]. destruct HI as [[A B] _]. split; [|exact B]. cbn.
      eapply sched_all_events; [exact Hs0|destruct HeW as (_ & _ & _ & He4); eapply He4; exact Hc|].
      eapply (update_pressed_list_events W); [exact HeW|exact Hs|]. exact A.
    + rewrite app_nil_r in S2. repeat split; auto. rewrite S2. unfold phys, seen. cbn. rewrite Hseen, filter_map_app. reflexivity.
  - destruct H4 as [(f0 & X0) H4]. destruct H5 as [_ H5].
    apply watch_ctx_seen in Hc as Hseen.
    match type of X0 with exec _ _ _ ?a = _ => set (k0 := a) in * end.
    assert (Hpl : plain r) by (cbn in HnW1; rewrite Forall_forall in HnW1; apply HnW1; eapply nth_error_In; exact H3).
    assert (Hp : pie not_physical (JPressLoop i r) k0).
    { destruct HI as [[A B] _]. split; [|exact I]. split; [|exact B]. cbn.
      eapply sched_all_events; [exact Hs0|destruct HeW as (_ & _ & _ & He4); eapply He4; exact Hc|].
      eapply (update_pressed_list_events W); [exact HeW|exact Hs|]. exact A. }
    destruct (H4 (conj Hn (conj Hp Hpl))) as (N1 & I1 & S1).
    destruct H5 as (N2 & I2 & S2). { split; [exact N1|]. split; [|exact I]. split; [|exact I]. eapply Hie; eauto. }
    rewrite app_nil_r in *. repeat split; auto; [rewrite I2, I1; reflexivity|]. rewrite S2, S1. unfold phys, seen, k0. cbn.
    rewrite Hseen, filter_map_app. reflexivity.
  - destruct H2 as [_ H2]. apply watch_ctx_seen in Hc as Hseen.
    destruct H2 as (N2 & I2 & S2).
    + split; [exact Hn|]. split; [|exact I]. split; [|exact I]. destruct HI as [[A B] _]. split; [|exact B]. cbn.
      eapply sched_all_events; [exact Hs0|destruct HeW as (_ & _ & _ & He4); eapply He4; exact Hc|].
      eapply (update_pressed_list_events W); [exact HeW|exact Hs|]. exact A.
    + rewrite app_nil_r in S2. repeat split; auto. rewrite S2. unfold phys, seen. cbn. rewrite Hseen, filter_map_app. reflexivity.
  - destruct H3 as [_ H3]. apply watch_ctx_seen in Hc as Hseen.
    destruct H3 as (N2 & I2 & S2).
    + split; [exact Hn|]. split; [|exact I]. split; [|exact I]. destruct HI as [[A B] _]. split; [|exact B]. cbn.
      eapply sched_all_events; [exact Hs0|destruct HeW as (_ & _ & _ & He4); eapply He4; exact Hc|].
      eapply (update_pressed_list_events W); [exact HeW|exact Hs|]. exact A.
    + rewrite app_nil_r in S2. repeat split; auto. rewrite S2. unfold phys, seen. cbn. rewrite Hseen, filter_map_app. reflexivity.
  - destruct H2 as [_ H2]. apply watch_ctx_seen in Hc as Hseen.
    destruct H2 as (N2 & I2 & S2).
    + split; [exact Hn|]. split; [|exact I]. split; [|exact I]. destruct HI as [[A B] _]. split; [|exact B]. cbn.
      eapply sched_all_events; [exact Hs0|destruct HeW as (_ & _ & _ & He4); eapply He4; exact Hc|].
      eapply (update_pressed_list_events W); [exact HeW|exact Hs|]. exact A.
    + rewrite app_nil_r in S2. repeat split; auto. rewrite S2. unfold phys, seen. cbn. rewrite Hseen, filter_map_app. reflexivity.
  - rewrite app_nil_r. apply Hemit in H2; [exact H2|]. split; [exact Hn|]. split; [|exact I]. split; [|exact I].
    destruct HI as [[A B] _]. split; [|exact B]. cbn. eapply sched_all_events; [exact Hs| |exact A].
    destruct HeW as (He1 & _). eapply He1. cbn. exact H.
  - destruct H1 as [_ H1]. rewrite app_nil_r. destruct H1 as (N1 & I1 & S1).
    + split; [exact Hn|]. split; [|eapply HnW3; [exact HR|cbn; exact H]]. split; [|exact I].
      destruct HI as [[A B] _]. split; [|exact B]. cbn. eapply sched_all_events; [exact Hs| |exact A].
      destruct HeW as (He1 & _). eapply He1. cbn. exact H.
    + rewrite app_nil_r in S1. auto.
  - rewrite app_nil_r. auto.
  - rewrite app_nil_r. auto.
  - rewrite app_nil_r. auto.
  - rewrite app_nil_r. auto.
Qed.

(** The whole keymap against the queue of the specification. *)
Definition sim k (q : queue) : Prop :=
  km_pending k = None /\ ie not_physical k
  /\ km_inq k = q_waiting q /\ (km_delay k = if q_busy q then 1 else 0)
  /\ phys k = filter physical (q_done q).

Lemma filter_snoc {A} (f : A -> bool) l x : filter f (l ++ [x]) = filter f l ++ (if f x then [x] else []).
Proof. rewrite filter_app. cbn. now destruct (f x). Qed.

Lemma sim_input fuel ev k k' q : sim k q -> km_handle_input W fuel ev k = Ok k' -> sim k' (queue_input q ev).
Proof.
  intros (Hn & HI & Hw & Hd & Hp) H. unfold queue_input.
  apply handle_input_cases in H as [(Hl & Hz & x & q' & k2 & Eq & H & ->)|[(Hl & Hz & ->)|(Hl & ->)]].
  - rewrite Hw in Hl, Eq. unfold INPUT_QUEUE_CAPACITY in Hl. apply Nat.ltb_lt in Hl. rewrite Hl.
    destruct (q_busy q) eqn:Eb; [rewrite Hd in Hz; discriminate|].
    unfold queue_take. cbn [q_waiting]. rewrite Eq. cbn.
    assert (Hx : pie not_physical (JProcessInput x) (set_inq (set_idle k 0) q')) by (split; [exact HI|exact I]).
    pose proof H as H'. apply exec_queue in H; [|split; [exact Hn|split; [exact Hx|exact I]]].
    destruct H as (N1 & I1 & S1). split; [exact N1|]. split; [|split; [exact I1|split; [reflexivity|]]].
    + eapply exec_ie in H'; [apply H'|apply watch_emits, He|intros; exact I|exact Hx].
    + etransitivity; [exact S1|]. cbn [q_done]. rewrite filter_snoc. f_equal. exact Hp.
  - rewrite Hw in Hl. unfold INPUT_QUEUE_CAPACITY in Hl. apply Nat.ltb_lt in Hl. rewrite Hl.
    destruct (q_busy q) eqn:Eb; [|rewrite Hd in Hz; congruence]. repeat split; cbn; auto; try apply HI.
    now rewrite Hw.
  - rewrite Hw in Hl. unfold INPUT_QUEUE_CAPACITY in Hl. apply Nat.ltb_ge in Hl. rewrite Hl. repeat split; auto; apply HI.
Qed.

Lemma sim_tick fuel k k' q : sim k q -> km_tick W fuel k = Ok k' -> sim k' (queue_tick q).
Proof.
  intros (Hn & HI & Hw & Hd & Hp) H. apply tick_cases in H as (k1 & k2 & s & k3 & H1 & E2 & Hs & H3 & _ & ->).
  assert (A : km_pending k1 = None /\ ie not_physical k1 /\ km_inq k1 = q_waiting (queue_tick q)
              /\ (km_delay k1 = 0 \/ km_delay k1 = 1) /\ phys k1 = filter physical (q_done (queue_tick q))).
  { unfold queue_tick. destruct H1 as [(x & q' & k1' & Eq & Hz & H1 & ->)|(-> & Hor)].
    - destruct (q_busy q) eqn:Eb; [rewrite Hd in Hz; discriminate|]. rewrite Hw in Eq. unfold queue_take. rewrite Eq. cbn.
      match type of H1 with exec _ _ _ ?a = _ => assert (Hx : pie not_physical (JProcessInput x) a) by (split; [exact HI|exact I]) end.
      pose proof H1 as H'. apply exec_queue in H1; [|split; [exact Hn|split; [exact Hx|exact I]]].
      destruct H1 as (N1 & I1 & S1). split; [exact N1|]. split; [|split; [exact I1|split; [now right|]]].
      + eapply exec_ie in H'; [exact H'|apply watch_emits, He|intros; exact I|exact Hx].
      + etransitivity; [exact S1|]. cbn [q_done]. rewrite filter_snoc. f_equal. exact Hp.
    - cbn. split; [exact Hn|]. split; [exact HI|].
      assert (Eq : q_waiting (if q_busy q then q else queue_take q) = q_waiting q
                   /\ q_done (if q_busy q then q else queue_take q) = q_done q).
      { destruct (q_busy q) eqn:Eb; [auto|]. destruct Hor as [Hor|Hor]; [|congruence].
        unfold queue_take. rewrite <- Hw, Hor. cbn. split; congruence. }
      destruct Eq as [-> ->]. split; [exact Hw|]. split; [|exact Hp].
      rewrite Hd. destruct (q_busy q); auto. }
  destruct A as (N1 & I1 & W1 & D1 & P1).
  assert (B : km_pending k2 = None /\ ie not_physical k2 /\ km_inq k2 = km_inq k1 /\ km_delay k2 = 0 /\ phys k2 = phys k1).
  { subst k2. destruct D1 as [D1|D1]; rewrite D1; cbn; repeat split; auto; apply I1. }
  destruct B as (N2 & I2 & W2 & D2 & P2).
  assert (Hx : pie not_physical JHandlePending (set_sched k2 s)).
  { split; [|exact I]. destruct I2 as [[A B] C]. split; [|exact C]. cbn.
    apply sched_tick_ok in Hs as (_ & [(X & Y & _)|(en & X & _ & Y)]).
    - split; congruence.
    - rewrite X in B. apply Forall_app in B as [B1 B2]. inversion B2; subst. split; [|exact B1].
      rewrite Y. apply Forall_app. split; [exact A|]. constructor; [|constructor]. destruct (en_live en); auto. }
  pose proof H3 as H'. apply exec_frame in H3 as F. destruct F as (_ & _ & _ & _ & F5 & _).
  apply exec_queue in H3; [|split; [exact N2|split; [exact Hx|exact I]]]. destruct H3 as (N3 & I3 & S3). rewrite app_nil_r in S3.
  eapply exec_ie in H'; [|apply watch_emits, He|intros; exact I|exact Hx].
  assert (Hb : q_busy (queue_tick q) = false) by reflexivity.
  unfold sim. rewrite Hb. cbn [set_idle km_pending km_inq km_delay km_sched].
  split; [exact N3|]. split; [exact H'|]. split; [cbn in *; congruence|]. split; [cbn in *; congruence|].
  change (phys (set_idle k3 (km_idle k3 + km_ms_per_tick k3))) with (phys k3). rewrite S3.
  change (phys (set_sched k2 s)) with (phys k2). congruence.
Qed.

Lemma sim_ops fuel ops : Forall (fun o => simple_op o = true) ops -> forall k q k',
  sim k q -> run_ops W fuel ops k = Ok k' -> sim k' (fold_left queue_step ops q).
Proof.
  unfold run_ops. induction 1 as [|o ops Ho _ IH]; intros k q k' Hs H; cbn in H; [inv_ok H; exact Hs|].
  inv_bind H. cbn. eapply IH; [|exact H]. clear H IH.
  destruct o as [ev| |d ev| | | |ms|c f]; cbn [run_op queue_step] in *; try discriminate.
  - eapply sim_input; eauto.
  - eapply sim_tick; eauto.
  - inv_bind E. destruct a0 as [k2 t]. inv_ok E. unfold km_report_output in E0. inv_bind E0. inv_ok E0. exact Hs.
  - inv_ok E. exact Hs.
  - unfold km_set_callback in E. inv_bind E. inv_ok E. exact Hs.
Qed.
End Queue.

(** The queue of the specification. *)
Lemma queue_step_parts q o : simple_op o = true ->
  q_done (queue_step q o) ++ q_waiting (queue_step q o)
  = q_done q ++ q_waiting q
    ++ (match o with OpInput ev => if (length (q_waiting q) <? 31)%nat then [ev] else [] | _ => [] end).
Proof.
  assert (Htake : forall q, q_done (queue_take q) ++ q_waiting (queue_take q) = q_done q ++ q_waiting q).
  { intros [d [|x w] b]; cbn; [reflexivity|]. now rewrite <- app_assoc. }
  destruct o as [ev| | | | | | |]; cbn [queue_step]; intros _; rewrite ?app_nil_r; auto.
  - unfold queue_input. destruct (length (q_waiting q) <? 31)%nat; [|now rewrite app_nil_r].
    destruct (q_busy q); [reflexivity|]. rewrite Htake. reflexivity.
  - unfold queue_tick. cbn. destruct (q_busy q); auto.
Qed.
Lemma queue_fifo_from ops : Forall (fun o => simple_op o = true) ops -> forall q,
  let q' := fold_left queue_step ops q in
  q_done q' ++ q_waiting q' = q_done q ++ q_waiting q ++ accepted_from q ops.
Proof.
  induction 1 as [|o ops Ho _ IH]; intros q; cbn [fold_left accepted_from]; [cbn; now rewrite app_nil_r|]. cbv zeta in *.
  rewrite IH. rewrite app_assoc, queue_step_parts by exact Ho. now rewrite <- !app_assoc.
Qed.
Lemma queue_one_per_call q o : exists l, q_done (queue_step q o) = q_done q ++ l /\ (length l <= 1)%nat.
Proof.
  assert (Htake : forall q, exists l, q_done (queue_take q) = q_done q ++ l /\ (length l <= 1)%nat).
  { intros [d [|x w] b]; cbn; [exists []; rewrite app_nil_r; auto|exists [x]; auto]. }
  assert (H0 : exists l, q_done q = q_done q ++ l /\ (length l <= 1)%nat) by (exists []; rewrite app_nil_r; auto).
  destruct o as [ev| | | | | | |]; cbn [queue_step]; auto.
  - unfold queue_input. destruct (_ <? _)%nat; [|auto]. destruct (q_busy q); [exact H0|].
    destruct (Htake (mkQueue (q_done q) (q_waiting q ++ [ev]) false)) as (l & H & Hl). eauto.
  - unfold queue_tick. cbn. destruct (q_busy q); auto.
Qed.
Lemma queue_drain n : forall q, (length (q_waiting q) <= n)%nat -> q_busy q = false ->
  q_waiting (fold_left queue_step (repeat OpTick n) q) = [].
Proof.
  induction n as [|n IH]; intros q Hl Hb.
  - destruct (q_waiting q) eqn:E; [exact E|cbn in Hl; lia].
  - cbn [repeat fold_left queue_step]. apply IH; [|reflexivity]. unfold queue_tick. cbn. rewrite Hb. unfold queue_take.
    destruct (q_waiting q) eqn:E; cbn [length q_waiting] in *; rewrite ?E; cbn; lia.
Qed.
