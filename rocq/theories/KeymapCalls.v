(** Callbacks and the events a keymap handles (C18), seen by a watched keymap. *)
From Coq Require Import Permutation.
From Verif Require Import BaseFacts Output Types Scheduler Reporter Keymap SpecScheduler SchedulerFacts
  KeymapFacts SpecKeymap KeymapInv KeymapHist KeymapQueue.
Local Open Scope N_scope.

Section Calls.
Context {R Ctx Ev PKS KS : Type}.
Variable conf : kconf R Ctx Ev PKS KS.
Local Notation W := (watch conf).
Local Notation wkm := (keymap R (Ctx * list (event Ev)) Ev PKS KS).
Local Notation sys := (kc_sys conf).
Local Notation job := (job R Ev KS).
Implicit Types (k a b : wkm).

Definition called (cbs : list (callback * callback_fn)) (l : list (event Ev)) : list callback_fn :=
  filter_map (lm_get cbs) (filter_map callback_of l).
Lemma called_app cbs l1 l2 : called cbs (l1 ++ l2) = called cbs l1 ++ called cbs l2.
Proof. unfold called. now rewrite !filter_map_app. Qed.

(** [strict]: same order; otherwise the same calls in some order. *)
Variable strict : bool.
Definition same (x y : list callback_fn) : Prop := if strict then x = y else Permutation x y.
Lemma same_refl x : same x x. Proof. unfold same. destruct strict; auto. Qed.
Lemma same_app x y x' y' : same x y -> same x' y' -> same (x ++ x') (y ++ y').
Proof. unfold same. destruct strict; [intros; congruence|apply Permutation_app]. Qed.

Definition q18 a b : Prop :=
  exists l new, seen b = seen a ++ l /\ km_calls b = km_calls a ++ new
    /\ km_callbacks b = km_callbacks a /\ same new (called (km_callbacks a) l).
Definition nopend a : Prop := strict = true -> km_pending a = None.

Lemma q18_refl a b : seen b = seen a -> km_calls b = km_calls a -> km_callbacks b = km_callbacks a -> q18 a b.
Proof. intros A B C. exists [], []. rewrite !app_nil_r. repeat split; auto. apply same_refl. Qed.
Lemma q18_trans a b c : q18 a b -> q18 b c -> q18 a c.
Proof.
  intros (l1 & n1 & A1 & B1 & C1 & D1) (l2 & n2 & A2 & B2 & C2 & D2). exists (l1 ++ l2), (n1 ++ n2).
  rewrite A2, B2, A1, B1, !app_assoc. repeat split; try congruence. rewrite called_app. apply same_app; congruence.
Qed.

Variable plain : R -> Prop.
Hypothesis Hnp : strict = true -> all_plain conf plain.
Definition pl (j : job) : Prop := strict = true -> plain_job plain j.

Lemma upd_ctx k k1 k2 ev : update_pressed W k ev = Ok k1 -> update_context W k1 ev = Ok k2 ->
  seen k2 = seen k ++ [ev] /\ km_calls k2 = km_calls k /\ km_callbacks k2 = km_callbacks k /\ km_pending k2 = km_pending k.
Proof.
  intros H1 H2. pose proof (watch_update_context_seen _ _ _ _ H2) as Hs. inv_prim. cbn in *. auto.
Qed.
Lemma run_callback_called k ev :
  run_callback k ev = set_calls k (km_calls k ++ called (km_callbacks k) [ev]).
Proof.
  assert (E0 : k = set_calls k (km_calls k ++ [])) by (rewrite app_nil_r; now destruct k).
  unfold run_callback, called. destruct ev as [ie|i ke|[cb|i ko]]; cbn; try exact E0.
  destruct (lm_get (km_callbacks k) cb) as [f|]; [reflexivity|exact E0].
Qed.

Definition q18j (j : job) a b : Prop :=
  q18 a b /\ nopend b /\ match j with JUpdatePending _ => strict = true -> b = a | _ => True end.

Local Ltac plj := intros ?; first [exact I|congruence].
Lemma exec_calls fuel (j : job) k k' : nopend k -> pl j -> exec W fuel j k = Ok k' -> q18j j k k'.
Proof.
  intros Hn0 Hp0. apply (exec_contract W (fun j k => nopend k /\ pl j) q18j); [|auto].
  clear - Hnp. intros j k k' (Hn & HR) H.
  assert (Hemit : forall i r ks a b, nopend a ->
    emit_rel W (fun (j : job) a b => nopend a /\ pl j -> q18j j a b) i r ks a b -> q18 a b /\ nopend b).
  { intros i r ks a b Ha (o & _ & Ho). destruct o; [|subst; split; [now apply q18_refl|exact Ha]].
    destruct (Ho (conj Ha ltac:(plj))) as (X & Y & _). auto. }
  assert (Hsame : forall a b c, seen b = seen a -> km_calls b = km_calls a -> km_callbacks b = km_callbacks a ->
             q18 b c -> q18 a c).
  { intros a b c A B C. apply q18_trans. now apply q18_refl. }
  assert (Hupd : forall a k1 k2 x b c, update_pressed W a (EvInput x) = Ok k1 -> update_context W k1 (EvInput x) = Ok k2 ->
      seen b = seen k2 -> km_calls b = km_calls k2 -> km_callbacks b = km_callbacks k2 ->
      q18 b c -> q18 a c).
  { intros a k1 k2 x b c H1 H2 A B C. destruct (upd_ctx _ _ _ _ H1 H2) as (E1 & E2 & E3 & _).
    apply q18_trans. exists [EvInput x], []. rewrite A, B, C, E1, E2, E3, app_nil_r. repeat split. apply same_refl. }
  assert (Hpp : forall i (c : Ctx * list (event Ev)) r p kes, pl (JPressLoop i r) -> sys_new_pressed_key (kc_sys W) i c r = Ok (PkPending p, kes) -> strict = false).
  { intros i c r p kes Hy Hx. unfold pl in Hy. destruct strict; [|reflexivity]. exfalso. destruct (Hnp eq_refl) as (_ & H2 & _). eapply H2; [apply Hy; reflexivity|exact Hx]. }
  assert (Hne : forall (a : wkm) p, nopend a -> km_pending a = Some p -> strict = false).
  { intros a p Ha Hp. destruct strict eqn:Es; [|reflexivity]. rewrite Ha in Hp by exact Es. discriminate. }
  assert (Hnf : forall a, strict = false -> nopend a) by (intros a Hf Ht; congruence).
  unfold q18j. destruct H.
  - split; [now apply q18_refl|auto].
  - split; [now apply q18_refl|auto].
  - destruct H0 as (Q1 & N1 & _); [split; [exact Hn|plj]|]. destruct (H1 (conj N1 ltac:(plj))) as (Q2 & N2 & _). split; [|auto].
    eapply Hsame; [| | |eapply q18_trans; [exact Q1|exact Q2]]; reflexivity.
  - rewrite run_callback_called in H. destruct H as (Q1 & N1 & U1); [split; [exact Hn|plj]|].
    destruct (upd_ctx _ _ _ _ H0 H1) as (E1 & E2 & E3 & E4).
    assert (Q3 : q18 k k3).
    { destruct strict eqn:Es.
      - specialize (U1 eq_refl). subst k1. exists [ev], (called (km_callbacks k) [ev]).
        rewrite E1, E2, E3. cbn. repeat split. apply same_refl.
      - destruct Q1 as (l1 & n1 & A1 & B1 & C1 & D1). cbn in A1, B1, C1, D1.
        exists (l1 ++ [ev]), (called (km_callbacks k) [ev] ++ n1).
        rewrite E1, E2, E3, A1, B1, C1, !app_assoc. repeat split; try reflexivity.
        unfold same in *. rewrite Es in *. rewrite called_app. rewrite D1. apply Permutation_app_comm. }
    assert (N3 : nopend k3) by (intros Et; rewrite E4; apply N1, Et).
    destruct ev; [|subst; auto|subst; auto]. destruct (H2 (conj N3 ltac:(plj))) as (Q4 & N4 & _).
    split; [eapply q18_trans; eauto|auto].
  - destruct H1 as (Q1 & N1 & _); [split; [intros Es; specialize (Hn Es); congruence|plj]|]. destruct (H2 (conj N1 ltac:(plj))) as (Q2 & N2 & _).
    split; [|auto]. eapply Hsame; [| | |eapply q18_trans; [exact Q1|exact Q2]]; reflexivity.
  - destruct (upd_ctx _ _ _ _ H0 H1) as (_ & _ & _ & E4).
    destruct H3 as (Q1 & N1 & _); [split; [intros _; congruence|plj]|]. split; [|auto]. eapply Hupd; eauto.
  - destruct (upd_ctx _ _ _ _ H0 H1) as (_ & _ & _ & E4).
    destruct H4 as (Q1 & N1 & _); [split; [intros _; congruence|]|].
    { intros Es. destruct (Hnp Es) as (HA & _). rewrite Forall_forall in HA. apply HA. eapply nth_error_In. exact H3. }
    destruct (H5 (conj N1 ltac:(plj))) as (Q2 & N2 & _).
    split; [|auto]. eapply Hupd; [exact H0|exact H1|reflexivity..|eapply q18_trans; [exact Q1|exact Q2]].
  - destruct (upd_ctx _ _ _ _ H0 H1) as (_ & _ & _ & E4).
    destruct H2 as (Q1 & N1 & _); [split; [intros _; cbn; congruence|plj]|]. split; [|auto].
    eapply Hupd; [exact H0|exact H1| | | |exact Q1]; reflexivity.
  - destruct (upd_ctx _ _ _ _ H0 H1) as (_ & _ & _ & E4).
    destruct H3 as (Q1 & N1 & _); [split; [intros _; cbn; congruence|plj]|]. split; [|auto].
    eapply Hupd; [exact H0|exact H1| | | |exact Q1]; reflexivity.
  - destruct (upd_ctx _ _ _ _ H0 H1) as (_ & _ & _ & E4).
    destruct H2 as (Q1 & N1 & _); [split; [intros _; cbn; congruence|plj]|]. split; [|auto].
    eapply Hupd; [exact H0|exact H1| | | |exact Q1]; reflexivity.
  - inv_prim. apply Hemit in H2; [|exact Hn]. destruct H2 as [Q1 N1]. split; [|auto].
    eapply Hsame; [| | |exact Q1]; reflexivity.
  - inv_prim. destruct H1 as (Q1 & N1 & _); [split; [exact Hn|]|].
    { intros Es. destruct (Hnp Es) as (_ & _ & HA). eapply HA; [apply (HR Es)|exact H]. }
    split; [|auto]. eapply Hsame; [| | |exact Q1]; reflexivity.
  - inv_prim. split; [now apply q18_refl|auto].
  - inv_prim. apply (Hpp _ _ _ _ _ HR) in H. split; [now apply q18_refl|auto].
  - split; [now apply q18_refl|auto].
  - inv_prim. pose proof (Hne _ _ Hn H) as Hf. split; [now apply q18_refl|]. split; [auto|congruence].
  - inv_prim. pose proof (Hne _ _ Hn H) as Hf. destruct H2 as (Q1 & N1 & _); [split; [now apply Hnf|plj]|].
    split; [|split; [auto|congruence]]. eapply Hsame; [| | |exact Q1]; reflexivity.
  - split; [now apply q18_refl|auto].
  - destruct (H0 (conj Hn ltac:(plj))) as (Q1 & N1 & _). auto.
  - inv_prim. pose proof (Hne _ _ Hn H) as Hf. destruct H2 as (Q1 & N1 & _); [split; [now apply Hnf|plj]|].
    split; [|split; auto]. eapply Hsame; [| | |exact Q1]; reflexivity.
  - inv_prim. pose proof (Hne _ _ Hn H) as Hf. destruct H2 as (Q1 & N1 & _); [split; [now apply Hnf|plj]|].
    split; [|split; auto]. eapply Hsame; [| | |exact Q1]; reflexivity.
  - inv_prim. pose proof (Hne _ _ Hn H) as Hf. destruct H2 as (Q1 & N1 & _); [split; [now apply Hnf|plj]|].
    split; [|split; auto]. eapply Hsame; [| | |exact Q1]; reflexivity.
  - inv_prim. pose proof (Hne _ _ Hn H) as Hf. split; [now apply q18_refl|split; auto].
  - split; [now apply q18_refl|auto].
  - pose proof (Hne _ _ Hn H) as Hf. destruct H3 as (Q1 & N1 & _); [split; [now apply Hnf|plj]|].
    apply Hemit in H4 as [Q2 N2]; [|exact N1]. split; [|auto].
    eapply Hsame; [| | |eapply q18_trans; [exact Q1|exact Q2]]; reflexivity.
Qed.

Lemma handle_input_calls fuel ev k k' : nopend k -> km_handle_input W fuel ev k = Ok k' -> q18 k k' /\ nopend k'.
Proof.
  intros Hn H.
  apply handle_input_cases in H as [(Hl & Hz & x & q' & k2 & Eq & H & ->)|[(Hl & Hz & ->)|(Hl & ->)]];
    try (split; [now apply q18_refl|exact Hn]).
  apply exec_calls in H as (Q & N & _); [|exact Hn|plj]. split; [exact Q|exact N].
Qed.
Lemma tick_calls fuel k k' : nopend k -> km_tick W fuel k = Ok k' -> q18 k k' /\ nopend k'.
Proof.
  intros Hn H. apply tick_cases in H as (k1 & k2 & s & k3 & H1 & E2 & Hs & H3 & _ & ->).
  assert (G1 : q18 k k1 /\ nopend k1).
  { destruct H1 as [(x & q & k1' & Eq & _ & H1 & ->)|(-> & _)]; [|split; [now apply q18_refl|exact Hn]].
    apply exec_calls in H1 as (Q & N & _); [split; [exact Q|exact N]|exact Hn|plj]. }
  assert (G2 : q18 k k2 /\ nopend k2) by (subst k2; destruct (0 <? km_delay k1); exact G1).
  destruct G2 as [Q2 N2]. apply exec_calls in H3 as (Q & N & _); [|exact N2|plj]. split; [|exact N].
  eapply q18_trans; [exact Q2|exact Q].
Qed.
End Calls.

(** The callback table. *)
Lemma callback_eqb_spec a b : callback_eqb a b = true <-> a = b.
Proof.
  destruct a as [| |[]|], b as [| |[]|]; cbn; rewrite ?andb_true_iff, ?N.eqb_eq; split; intros H;
    try discriminate; try reflexivity; try (destruct H; congruence); inversion H; auto.
Qed.
Lemma callback_eqb_refl a : callback_eqb a a = true.
Proof. now apply callback_eqb_spec. Qed.

Lemma lm_replace_get l c f l' : lm_replace l c f = Some l' ->
  map fst l' = map fst l /\ forall c', lm_get l' c' = if callback_eqb c c' then Some f else lm_get l c'.
Proof.
  revert l'. induction l as [|[c0 f0] l IH]; intros l' H; cbn in H; [discriminate|].
  destruct (callback_eqb c0 c) eqn:E0.
  - injection H as <-. apply callback_eqb_spec in E0. subst c0. split; [reflexivity|].
    intros c'. cbn. destruct (callback_eqb c c'); reflexivity.
  - destruct (lm_replace l c f) as [t|]; [|discriminate]. injection H as <-.
    destruct (IH _ eq_refl) as [A B]. split; [cbn; now rewrite A|]. intros c'. cbn.
    destruct (callback_eqb c0 c') eqn:E1; [|apply B].
    destruct (callback_eqb c c') eqn:E2; [|reflexivity].
    apply callback_eqb_spec in E1, E2. subst. rewrite callback_eqb_refl in E0. discriminate.
Qed.
Lemma lm_replace_none l c f : lm_replace l c f = None <-> ~ In c (map fst l).
Proof.
  induction l as [|[c0 f0] l IH]; cbn; [tauto|]. destruct (callback_eqb c0 c) eqn:E0.
  - apply callback_eqb_spec in E0. subst. split; [discriminate|]. intros H. exfalso. auto.
  - assert (c0 <> c) by (intros ->; rewrite callback_eqb_refl in E0; discriminate).
    destruct (lm_replace l c f); split; intros Hx; try discriminate.
    + exfalso. assert (Some l0 = None) by (apply IH; tauto). discriminate.
    + intros [Hy|Hy]; [auto|]. now apply IH.
    + reflexivity.
Qed.
Lemma lm_get_none l c : lm_get l c = None <-> ~ In c (map fst l).
Proof.
  induction l as [|[c0 f0] l IH]; cbn; [tauto|]. destruct (callback_eqb c0 c) eqn:E0.
  - apply callback_eqb_spec in E0. subst. split; [discriminate|]. intros H. exfalso. auto.
  - assert (c0 <> c) by (intros ->; rewrite callback_eqb_refl in E0; discriminate). rewrite IH. tauto.
Qed.
Lemma lm_get_snoc l c f : ~ In c (map fst l) -> forall c', lm_get (l ++ [(c, f)]) c' = if callback_eqb c c' then Some f else lm_get l c'.
Proof.
  induction l as [|[c0 f0] l IH]; intros Hn c'; cbn.
  - destruct (callback_eqb c c'); reflexivity.
  - cbn in Hn. rewrite IH by tauto. destruct (callback_eqb c0 c') eqn:E1; [|reflexivity].
    destruct (callback_eqb c c') eqn:E2; [|reflexivity]. apply callback_eqb_spec in E1, E2. subst. tauto.
Qed.
Lemma lm_insert_spec l c f l' : lm_insert l c f = Ok l' ->
  forall c', lm_get l' c' = if callback_eqb c c' then Some f else lm_get l c'.
Proof.
  unfold lm_insert. destruct (lm_replace l c f) as [x|] eqn:E.
  - intros H. inv_ok H. now apply lm_replace_get in E.
  - intros H. apply push_cap_ok in H as [-> _]. apply lm_get_snoc. now apply lm_replace_none in E.
Qed.
Lemma lm_insert_panic l c f : lm_insert l c f = Panic <-> lm_get l c = None /\ (2 <= length l)%nat.
Proof.
  unfold lm_insert. destruct (lm_replace l c f) as [x|] eqn:E.
  - split; [discriminate|]. intros [H _]. apply lm_get_none, (lm_replace_none _ _ f) in H. congruence.
  - apply lm_replace_none in E. unfold push_cap, CALLBACKS_CAPACITY. destruct (Nat.ltb_spec (length l) 2).
    + split; [discriminate|lia].
    + split; [|reflexivity]. intros _. split; [now apply lm_get_none|lia].
Qed.
