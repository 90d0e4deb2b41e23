(** Proofs about the HID reporter (C06, C07). *)
From Verif Require Import BaseFacts Output Reporter DistinctReports SpecReporter.
Local Open Scope N_scope.

Lemma mouse_eqb_eq a b : mouse_eqb a b = true <-> a = b.
Proof.
  unfold mouse_eqb. destruct a, b; cbn. rewrite !andb_true_iff, N.eqb_eq, !Z.eqb_eq.
  split; [intros [[[[-> ->] ->] ->] ->]; reflexivity|].
  intros H; injection H; intros; subst; auto.
Qed.
Lemma usage_eqb_eq a b : usage_eqb a b = true <-> a = b.
Proof.
  destruct a, b; cbn; try (split; intros H; discriminate H);
    rewrite ?N.eqb_eq, ?mouse_eqb_eq; split; congruence.
Qed.
Lemma ko_eqb_eq a b : ko_eqb a b = true <-> a = b.
Proof.
  unfold ko_eqb. destruct a, b; cbn. rewrite andb_true_iff, usage_eqb_eq, N.eqb_eq.
  split; [intros [-> ->]; reflexivity|]. intros H; injection H; auto.
Qed.

(** [d] decrements. *)
Definition dec_by (n : u8) (d : nat) : u8 := N.max 1 (n - N.of_nat d).

Lemma rep_dec_eq n : 1 <= n -> rep_dec n = dec_by n 1.
Proof. intros H. unfold rep_dec, dec_by. destruct (N.ltb_spec 1 n); lia. Qed.
Lemma dec_by_ge n d : 1 <= dec_by n d.
Proof. unfold dec_by; lia. Qed.
Lemma dec_by_0 n : 1 <= n -> dec_by n 0 = n.
Proof. unfold dec_by; lia. Qed.
Lemma dec_by_add n a b : dec_by (dec_by n a) b = dec_by n (a + b).
Proof. unfold dec_by; lia. Qed.

Lemma rest_dec (rest : list key_output) n :
  1 <= n -> fold_left (fun n _ => rep_dec n) rest n = dec_by n (length rest).
Proof.
  revert n. induction rest as [|x rest IH]; intros n Hn; cbn [fold_left length].
  - now rewrite dec_by_0.
  - rewrite rep_dec_eq by exact Hn. rewrite IH by apply dec_by_ge. now rewrite dec_by_add.
Qed.

Lemma rep_advance_spec prev ko n rest n' :
  1 <= n -> rep_advance prev ko n = (rest, n') ->
  (exists skipped, prev = skipped ++ ko :: rest /\ ~ In ko skipped /\ n' = dec_by n (length skipped))
  \/ (rest = [] /\ ~ In ko prev /\ n' = dec_by n (length prev)).
Proof.
  revert n. induction prev as [|p prev IH]; intros n Hn H; cbn in H.
  - right. inversion H; subst. rewrite dec_by_0 by exact Hn. auto.
  - destruct (ko_eqb p ko) eqn:E.
    + apply ko_eqb_eq in E; subst. inversion H; subst. left. exists [].
      rewrite dec_by_0 by exact Hn. auto.
    + assert (Hne : p <> ko) by (intros ->; assert (ko_eqb ko ko = true) by (now apply ko_eqb_eq); congruence).
      rewrite rep_dec_eq in H by exact Hn.
      apply IH in H; [|apply dec_by_ge].
      destruct H as [[sk [-> [Hi ->]]]|[-> [Hi ->]]].
      * left. exists (p :: sk). rewrite dec_by_add. cbn. intuition.
      * right. rewrite dec_by_add. cbn. intuition.
Qed.

Lemma subseq_app_skip {A} (s a b : list A) : subseq a b -> subseq a (s ++ b).
Proof. induction s; cbn; auto using sub_skip. Qed.
Lemma subseq_nil_inv {A} (a : list A) : subseq a [] -> a = [].
Proof. inversion 1; reflexivity. Qed.
Lemma subseq_length {A} (a b : list A) : subseq a b -> (length a <= length b)%nat.
Proof. induction 1; cbn; lia. Qed.
Lemma subseq_In {A} (a b : list A) x : subseq a b -> In x a -> In x b.
Proof. induction 1; cbn; intuition. Qed.
Lemma subseq_tail {A} (x : A) a b : subseq (x :: a) b -> subseq a b.
Proof.
  remember (x :: a) as l. intros H. revert x a Heql. induction H; intros y a' E.
  - discriminate.
  - subst. apply sub_skip. eauto.
  - injection E; intros; subst. now apply sub_skip.
Qed.
Lemma subseq_greedy {A} (x : A) a s b :
  ~ In x s -> subseq (x :: a) (s ++ x :: b) -> subseq a b.
Proof.
  induction s as [|y s IH]; cbn; intros Hn H.
  - inversion H; subst; [now apply subseq_tail in H2|assumption].
  - inversion H; subst; [apply IH; tauto|]. exfalso. tauto.
Qed.

(** The counter after matching: [m] outputs at the front of [new] are the
    longest prefix of [new] that is a subsequence of [prev]. *)
Lemma rep_match_spec new : forall prev n rest n',
  1 <= n -> rep_match prev new n = (rest, n') ->
  exists m, (m <= length new)%nat /\ subseq (firstn m new) prev
            /\ dec_by n' (length rest) = dec_by n (length prev - m)
            /\ 1 <= n'
            /\ (forall kept fresh, new = kept ++ fresh -> subseq kept prev -> (length kept <= m)%nat).
Proof.
  induction new as [|k new IH]; intros prev n rest n' Hn H; cbn in H.
  - inversion H; subst. exists 0%nat. rewrite Nat.sub_0_r.
    split; [cbn; lia|]. split; [apply sub_nil|]. split; [reflexivity|]. split; [exact Hn|].
    intros kept fresh E _. symmetry in E. apply app_eq_nil in E as [-> _]. auto.
  - destruct (rep_advance prev k n) as [prev' n1] eqn:Ea.
    apply rep_advance_spec in Ea; [|exact Hn].
    destruct Ea as [[sk [-> [Hi ->]]]|[-> [Hi ->]]].
    + apply IH in H; [|apply dec_by_ge].
      destruct H as (m & Hm & Hs & Hd & Hn' & Hmax).
      exists (S m). cbn [firstn length]. split; [|split; [|split; [|split]]].
      * lia.
      * apply subseq_app_skip. now apply sub_keep.
      * rewrite Hd, dec_by_add. f_equal. rewrite app_length. cbn.
        apply subseq_length in Hs. rewrite firstn_length in Hs. lia.
      * exact Hn'.
      * intros kept fresh E Hk. destruct kept as [|k' kept]; [cbn; lia|].
        cbn in E. injection E; intros E2 ->. cbn. apply le_n_S.
        eapply Hmax; [exact E2|]. eapply subseq_greedy; eauto.
    + exists 0%nat. rewrite Nat.sub_0_r.
      assert (Hz : rest = [] /\ n' = dec_by n (length prev)).
      { clear IH. revert H. generalize (dec_by n (length prev)). 
        induction new as [|k2 new IH2]; intros x H; cbn in H.
        - inversion H; auto.
        - eapply IH2; exact H. }
      destruct Hz as [-> ->]. split; [|split; [|split; [|split]]].
      * lia.
      * apply sub_nil.
      * rewrite dec_by_add. cbn [length]. now rewrite Nat.add_0_r.
      * apply dec_by_ge.
      * intros kept fresh E Hk. destruct kept as [|k' kept]; [cbn; lia|].
        cbn in E. injection E; intros E2 ->. exfalso. apply Hi.
        eapply subseq_In; [exact Hk|left; reflexivity].
Qed.

Lemma rep_update_spec r new :
  1 <= rp_num r ->
  exists m, (m <= length new)%nat /\ subseq (firstn m new) (rp_pressed r)
            /\ rp_pressed (rep_update r new) = new
            /\ rp_num (rep_update r new) = dec_by (rp_num r) (length (rp_pressed r) - m)
            /\ (forall kept fresh, new = kept ++ fresh -> subseq kept (rp_pressed r) ->
                  (length kept <= m)%nat).
Proof.
  intros Hn. unfold rep_update. destruct (rep_match (rp_pressed r) new (rp_num r)) as [rest n'] eqn:E.
  apply rep_match_spec in E; [|exact Hn]. destruct E as (m & Hm & Hs & Hd & Hn' & Hmax).
  exists m. cbn [rp_pressed rp_num]. rewrite rest_dec by exact Hn'. auto.
Qed.

(** The invariant of the reporter. *)
Definition rep_inv (r : reporter) : Prop :=
  1 <= rp_num r /\ rp_num r <= N.max 1 (N.of_nat (length (rp_pressed r))).

Lemma rep_inv_new : rep_inv rep_new.
Proof. split; cbn; lia. Qed.
Lemma rep_inv_update r new : rep_inv r -> rep_inv (rep_update r new).
Proof.
  intros [H1 H2]. destruct (rep_update_spec r new H1) as (m & Hm & Hs & Hp & Hn & _).
  unfold rep_inv. rewrite Hp, Hn. split; [apply dec_by_ge|]. unfold dec_by.
  apply subseq_length in Hs. rewrite firstn_length in Hs. lia.
Qed.
Lemma rep_inv_sent r : rep_inv r -> rep_inv (rep_sent r).
Proof.
  intros [H1 H2]. unfold rep_sent. destruct (N.ltb_spec (rp_num r) (N.of_nat (length (rp_pressed r)))).
  - split; cbn; lia.
  - now split.
Qed.
Lemma rep_inv_step r o : rep_inv r -> rep_inv (rep_step r o).
Proof. destruct o; cbn; auto using rep_inv_update, rep_inv_sent. intros _. apply rep_inv_new. Qed.

Lemma rep_run_app ops o : rep_run (ops ++ [o]) = rep_step (rep_run ops) o.
Proof. unfold rep_run. now rewrite fold_left_app. Qed.
Lemma rep_run_inv ops : rep_inv (rep_run ops).
Proof.
  induction ops as [|o ops IH] using rev_ind; [apply rep_inv_new|].
  rewrite rep_run_app. now apply rep_inv_step.
Qed.

Lemma rp_pressed_sent r : rp_pressed (rep_sent r) = rp_pressed r.
Proof. unfold rep_sent. destruct (_ <? _); reflexivity. Qed.

Lemma rp_pressed_run ops : rp_pressed (rep_run ops) = pressed_after ops.
Proof.
  induction ops as [|o ops IH] using rev_ind; [reflexivity|].
  rewrite rep_run_app. unfold pressed_after. rewrite fold_left_app. cbn [fold_left].
  fold (pressed_after ops). destruct o; cbn [rep_step].
  - unfold rep_update. destruct (rep_match _ _ _). reflexivity.
  - rewrite rp_pressed_sent. exact IH.
  - reflexivity.
Qed.

Lemma firstn_nonempty {A} n (l : list A) : (1 <= n)%nat -> l <> [] -> firstn n l <> [].
Proof. destruct n, l; cbn; intros; try lia; congruence. Qed.

Lemma reporter_prefix ops :
  exists rest, pressed_after ops = rep_reportable (rep_run ops) ++ rest
               /\ (pressed_after ops <> [] -> rep_reportable (rep_run ops) <> []).
Proof.
  rewrite <- rp_pressed_run. destruct (rep_run_inv ops) as [H1 H2].
  exists (skipn (N.to_nat (rp_num (rep_run ops))) (rp_pressed (rep_run ops))).
  unfold rep_reportable. split.
  - symmetry. apply firstn_skipn.
  - intros H. apply firstn_nonempty; [lia|exact H].
Qed.

(** ** At most one new output per report *)
Lemma subseq_firstn {A} (a b : list A) :
  subseq a b -> forall n x, In x (firstn (n - (length b - length a)) a) -> In x (firstn n b).
Proof.
  induction 1 as [l|y a b H IH|y a b H IH]; intros n x Hi.
  - rewrite firstn_nil in Hi. destruct Hi.
  - pose proof (subseq_length _ _ H) as Hl.
    replace (length (y :: b) - length a)%nat with (S (length b - length a)) in Hi by (cbn [length]; lia).
    destruct n as [|n]; [cbn in Hi; destruct Hi|]. cbn [firstn]. right. apply IH.
    now replace (n - (length b - length a))%nat with (S n - S (length b - length a))%nat by lia.
  - cbn [length] in Hi. pose proof (subseq_length _ _ H) as Hl.
    replace (S (length b) - S (length a))%nat with (length b - length a)%nat in Hi by lia.
    destruct (n - (length b - length a))%nat as [|j] eqn:Ej; [cbn in Hi; destruct Hi|].
    destruct n as [|n]; [lia|]. cbn [firstn] in *. destruct Hi as [->|Hi]; [now left|right].
    apply IH. now replace (n - (length b - length a))%nat with j by lia.
Qed.

Lemma existsb_ko_In ko l : existsb (ko_eqb ko) l = true <-> In ko l.
Proof.
  rewrite existsb_exists. split.
  - intros [x [Hx E]]. apply ko_eqb_eq in E; subst; exact Hx.
  - intros H. exists ko. split; [exact H|]. now apply ko_eqb_eq.
Qed.

Lemma filter_length_le {A} (f : A -> bool) l : (length (filter f l) <= length l)%nat.
Proof. induction l as [|x l IH]; cbn; [lia|]. destruct (f x); cbn; lia. Qed.

Lemma count_new_firstn before l k j :
  (forall x, In x (firstn k l) -> In x before) ->
  (count_new before (firstn (k + j) l) <= j)%nat.
Proof.
  revert l. induction k as [|k IH]; intros l H.
  - cbn. unfold count_new. etransitivity; [apply filter_length_le|]. rewrite firstn_length. lia.
  - destruct l as [|x l]; [cbn; lia|]. cbn [Nat.add firstn]. unfold count_new. cbn [filter].
    assert (E : existsb (ko_eqb x) before = true) by (apply existsb_ko_In, H; left; reflexivity).
    rewrite E. cbn [negb]. apply IH. intros y Hy. apply H. right. exact Hy.
Qed.

Lemma rep_report_num r new :
  rep_inv r ->
  exists j, (j <= 1)%nat /\
    rep_reportable (rep_sent (rep_update r new))
    = firstn (N.to_nat (rp_num (rep_update r new)) + j) new.
Proof.
  intros Hr. destruct (rep_update_spec r new (proj1 Hr)) as (m & _ & _ & Hp & _ & _).
  unfold rep_sent. rewrite Hp. destruct (N.ltb_spec (rp_num (rep_update r new)) (N.of_nat (length new))).
  - exists 1%nat. split; [lia|]. unfold rep_reportable. cbn [rp_num rp_pressed].
    f_equal. lia.
  - exists 0%nat. split; [lia|]. unfold rep_reportable. rewrite Hp, Nat.add_0_r. reflexivity.
Qed.

Lemma count_new_nil_before l n : (count_new [] (firstn n l) <= n)%nat.
Proof. unfold count_new. etransitivity; [apply filter_length_le|]. rewrite firstn_length. lia. Qed.

Lemma report_at_most_two r new :
  rep_inv r ->
  (count_new (rep_reportable r) (rep_reportable (rep_sent (rep_update r new))) <= 2)%nat.
Proof.
  intros Hr. destruct (rep_report_num r new Hr) as (j & Hj & ->).
  destruct (rep_update_spec r new (proj1 Hr)) as (m & Hm & Hs & Hp & Hn & _).
  rewrite Hn. unfold dec_by.
  set (n := N.to_nat (rp_num r)). assert (En : n = N.to_nat (rp_num r)) by reflexivity.
  set (d := (length (rp_pressed r) - m)%nat).
  assert (Hcase : (n <= d)%nat \/ length (rp_pressed r) = 0%nat \/ ((d < n)%nat /\ rp_pressed r <> []))
    by (destruct (rp_pressed r); cbn [length]; [auto|];
        destruct (Nat.le_gt_cases n d); [auto|right; right; split; [lia|congruence]]).
  destruct Hcase as [Hle|[Hz|[Hgt Hne]]].
  - assert (Hc : (count_new (rep_reportable r) (firstn (0 + (1 + j)) new) <= 1 + j)%nat)
      by (apply count_new_firstn; intros x []).
    replace (N.to_nat (N.max 1 (rp_num r - N.of_nat d)) + j)%nat with (0 + (1 + j))%nat by lia.
    lia.
  - assert (Hc : (count_new (rep_reportable r) (firstn (0 + (1 + j)) new) <= 1 + j)%nat)
      by (apply count_new_firstn; intros x []).
    replace (N.to_nat (N.max 1 (rp_num r - N.of_nat d)) + j)%nat with (0 + (1 + j))%nat
      by (destruct Hr as [Hr1 Hr2]; unfold d; lia).
    lia.
  - assert (Hl : (1 <= length (rp_pressed r))%nat) by (destruct (rp_pressed r); [congruence|cbn; lia]).
    replace (N.to_nat (N.max 1 (rp_num r - N.of_nat d)) + j)%nat with ((n - d) + j)%nat by lia.
    transitivity j; [|lia]. apply count_new_firstn. intros x Hx. unfold rep_reportable. fold n.
    apply (subseq_firstn _ _ Hs). rewrite firstn_length. 
    assert (Hmm : Nat.min m (length new) = m) by lia. rewrite Hmm. fold d.
    rewrite firstn_firstn. now replace (Nat.min (n - d) m) with (n - d)%nat; [|
      pose proof (subseq_length _ _ Hs) as HL; rewrite firstn_length, Hmm in HL;
      destruct Hr as [Hr1 Hr2]; subst n d; lia].
Qed.

Lemma reportable_length r : rep_inv r -> rp_pressed r <> [] ->
  length (rep_reportable r) = N.to_nat (rp_num r).
Proof.
  intros [H1 H2] H. unfold rep_reportable. rewrite firstn_length.
  destruct (rp_pressed r); [congruence|]. cbn [length] in *. lia.
Qed.

Lemma report_one_new r kept fresh :
  rep_inv r -> subseq kept (rp_pressed r) ->
  (length (rp_pressed r) - length kept < length (rep_reportable r))%nat ->
  (count_new (rep_reportable r) (rep_reportable (rep_sent (rep_update r (kept ++ fresh)))) <= 1)%nat.
Proof.
  intros Hr Hk Hlt. set (new := kept ++ fresh).
  assert (Hne : rp_pressed r <> []).
  { intros E. unfold rep_reportable in Hlt. rewrite E in Hlt. rewrite firstn_nil in Hlt. cbn in Hlt. lia. }
  rewrite (reportable_length r Hr Hne) in Hlt.
  assert (Hl : (1 <= length (rp_pressed r))%nat) by (destruct (rp_pressed r); [congruence|cbn; lia]).
  destruct (rep_report_num r new Hr) as (j & Hj & ->).
  destruct (rep_update_spec r new (proj1 Hr)) as (m & Hm & Hs & Hp & Hn & Hmax).
  specialize (Hmax kept fresh eq_refl Hk).
  rewrite Hn. unfold dec_by.
  set (n := N.to_nat (rp_num r)) in *. assert (En : n = N.to_nat (rp_num r)) by reflexivity.
  set (d := (length (rp_pressed r) - m)%nat).
  assert (Hgt : (d < n)%nat) by lia.
  replace (N.to_nat (N.max 1 (rp_num r - N.of_nat d)) + j)%nat with ((n - d) + j)%nat by lia.
  transitivity j; [|lia]. apply count_new_firstn. intros x Hx. unfold rep_reportable. fold n.
  apply (subseq_firstn _ _ Hs). rewrite firstn_length. 
  assert (Hmm : Nat.min m (length new) = m) by lia. rewrite Hmm. fold d.
  rewrite firstn_firstn. now replace (Nat.min (n - d) m) with (n - d)%nat; [|
      pose proof (subseq_length _ _ Hs) as HL; rewrite firstn_length, Hmm in HL;
      destruct Hr as [Hr1 Hr2]; subst n d; lia].
Qed.

(** ** Liveness *)
Lemma subseq_refl {A} (l : list A) : subseq l l.
Proof. induction l; [apply sub_nil|apply sub_keep; assumption]. Qed.

Lemma rep_update_same r : rep_inv r -> rp_num (rep_update r (rp_pressed r)) = rp_num r.
Proof.
  intros Hr. destruct (rep_update_spec r (rp_pressed r) (proj1 Hr)) as (m & Hm & Hs & Hp & Hn & Hmax).
  specialize (Hmax (rp_pressed r) [] (eq_sym (app_nil_r _)) (subseq_refl _)).
  rewrite Hn. replace (length (rp_pressed r) - m)%nat with 0%nat by lia. 
  apply dec_by_0. exact (proj1 Hr).
Qed.

Lemma rep_run_app_gen ops ops' : rep_run (ops ++ ops') = fold_left rep_step ops' (rep_run ops).
Proof. unfold rep_run. apply fold_left_app. Qed.

Lemma report_times_num r l n :
  rep_inv r -> rp_pressed r = l -> l <> [] ->
  let r' := fold_left rep_step (report_times n l) r in
  rep_inv r' /\ rp_pressed r' = l
  /\ N.min (N.of_nat (length l)) (rp_num r + N.of_nat n) <= rp_num r'.
Proof.
  revert r. induction n as [|n IH]; intros r Hr Hp Hl; cbn zeta.
  - cbn. repeat split; auto; try apply Hr. lia.
  - cbn [report_times report_once app fold_left rep_step].
    set (r1 := rep_sent (rep_update r l)).
    assert (Hi1 : rep_inv r1) by (apply rep_inv_sent, rep_inv_update, Hr).
    assert (Hu : rp_pressed (rep_update r l) = l)
      by (unfold rep_update; destruct (rep_match _ _ _); reflexivity).
    assert (Hp1 : rp_pressed r1 = l) by (unfold r1; now rewrite rp_pressed_sent).
    destruct (IH r1 Hi1 Hp1 Hl) as (HA & HB & HC). repeat split; try apply HA; auto.
    etransitivity; [|exact HC].
    assert (Hn1 : N.min (N.of_nat (length l)) (rp_num r + 1) <= rp_num r1).
    { unfold r1, rep_sent. rewrite Hu. pose proof (rep_update_same r Hr) as Hs. rewrite Hp in Hs.
      rewrite Hs. destruct (N.ltb_spec (rp_num r) (N.of_nat (length l))); cbn; lia. }
    lia.
Qed.

Lemma report_once_num r l :
  rep_inv r -> 
  let r' := fold_left rep_step (report_once l) r in
  rep_inv r' /\ rp_pressed r' = l /\ N.min (N.of_nat (length l)) 2 <= rp_num r'.
Proof.
  intros Hr. cbv zeta. cbn [report_once fold_left rep_step].
  assert (Hu : rp_pressed (rep_update r l) = l)
      by (unfold rep_update; destruct (rep_match _ _ _); reflexivity).
  pose proof (rep_inv_update r l Hr) as Hi.
  repeat split.
  - apply rep_inv_sent, Hi.
  - apply rep_inv_sent, Hi.
  - now rewrite rp_pressed_sent.
  - unfold rep_sent. rewrite Hu. destruct (N.ltb_spec (rp_num (rep_update r l)) (N.of_nat (length l))); cbn; 
      destruct Hi as [Hi _]; lia.
Qed.

Lemma report_live ops l n :
  (1 <= n)%nat -> (length l <= S n)%nat ->
  rep_reportable (rep_run (ops ++ report_times n l)) = l.
Proof.
  intros Hn Hl. rewrite rep_run_app_gen. destruct n as [|n]; [lia|].
  cbn [report_times]. rewrite fold_left_app.
  destruct (report_once_num (rep_run ops) l (rep_run_inv ops)) as (Hi & Hp & Hnum).
  set (r1 := fold_left rep_step (report_once l) (rep_run ops)) in *.
  destruct l as [|k l'] eqn:El.
  - assert (E : forall r, rp_pressed r = [] ->
      rp_pressed (fold_left rep_step (report_times n []) r) = []).
    { clear. induction n as [|n IH]; intros r Hr; [exact Hr|]. cbn [report_times report_once app fold_left].
      apply IH. cbn [rep_step]. rewrite rp_pressed_sent. unfold rep_update. destruct (rep_match _ _ _); reflexivity. }
    unfold rep_reportable. rewrite E by exact Hp. apply firstn_nil.
  - rewrite <- El in *. destruct (report_times_num r1 l n Hi Hp) as (Hi2 & Hp2 & Hn2);
      [subst; congruence|].
    unfold rep_reportable. rewrite Hp2. apply firstn_all2. lia.
Qed.

(** ** Distinct reports (C08) *)
Lemma report_eqb_eq a b : report_eqb a b = true <-> a = b.
Proof.
  revert b. induction a as [|x a IH]; intros [|y b]; cbn; try (split; congruence).
  rewrite andb_true_iff, N.eqb_eq, IH. split; [intros [-> ->]; reflexivity|].
  intros H; injection H; auto.
Qed.
Lemma report_eqb_refl a : report_eqb a a = true.
Proof. now apply report_eqb_eq. Qed.

Lemma dr_last_app l x : dr_last (l ++ [x]) = Some x.
Proof.
  induction l as [|y l IH]; [reflexivity|]. cbn [app dr_last].
  destruct (l ++ [x]) eqn:E; [now apply app_eq_nil in E as [_ ?]|exact IH].
Qed.

Lemma dr_update_changes l x r :
  dr_update (l ++ [x]) r = (l ++ [x]) ++ changes x [r].
Proof.
  unfold dr_update. rewrite dr_last_app. cbn. destruct (report_eqb x r); [now rewrite app_nil_r|reflexivity].
Qed.

Lemma dr_fold rs : forall l x,
  fold_left dr_update rs (l ++ [x]) = l ++ x :: changes x rs.
Proof.
  induction rs as [|r rs IH]; intros l x; cbn [fold_left]; [reflexivity|].
  rewrite dr_update_changes. cbn [changes]. destruct (report_eqb x r) eqn:E.
  - rewrite app_nil_r. apply IH.
  - rewrite <- app_assoc. cbn [app]. rewrite (app_assoc l [x] [r]) || idtac.
    change (l ++ [x; r]) with (l ++ [x] ++ [r]). rewrite app_assoc, IH, <- app_assoc. reflexivity.
Qed.

Lemma dr_run_eq rs : dr_run rs = zero_report :: changes zero_report rs.
Proof. unfold dr_run, dr_new. exact (dr_fold rs [] zero_report). Qed.

Lemma changes_adjacent rs : forall p i a b,
  nth_error (p :: changes p rs) i = Some a ->
  nth_error (p :: changes p rs) (S i) = Some b -> a <> b.
Proof.
  induction rs as [|r rs IH]; intros p i a b Ha Hb.
  - cbn in Hb. destruct i; discriminate.
  - cbn [changes] in *. destruct (report_eqb p r) eqn:E.
    + eapply IH; eassumption.
    + destruct i as [|i].
      * cbn in Ha, Hb. injection Ha as <-. injection Hb as <-. intros ->.
        rewrite report_eqb_refl in E. discriminate.
      * cbn [nth_error] in Ha. cbn [nth_error] in Hb. eapply IH; eassumption.
Qed.

Lemma changes_last rs : forall p, last (p :: changes p rs) p = last (p :: rs) p.
Proof.
  assert (G : forall rs p d, last (p :: changes p rs) d = last (p :: rs) d).
  { clear. induction rs as [|r rs IH]; intros p d; [reflexivity|].
    cbn [changes]. destruct (report_eqb p r) eqn:E.
    - apply report_eqb_eq in E; subst. rewrite IH. reflexivity.
    - change (last (p :: r :: changes r rs) d) with (last (r :: changes r rs) d).
      rewrite IH. reflexivity. }
  intros p. apply G.
Qed.

Lemma changes_In rs : forall p r, In r rs -> In r (p :: changes p rs).
Proof.
  induction rs as [|x rs IH]; intros p r H; [destruct H|].
  cbn [changes]. destruct (report_eqb p x) eqn:E.
  - apply report_eqb_eq in E; subst. destruct H as [->|H]; [left; reflexivity|now apply IH].
  - right. destruct H as [->|H]; [left; reflexivity|now apply IH].
Qed.

Lemma changes_subseq rs : forall p, subseq (changes p rs) rs.
Proof.
  induction rs as [|x rs IH]; intros p; cbn; [apply sub_nil|].
  destruct (report_eqb p x); [apply sub_skip, IH|apply sub_keep, IH].
Qed.

(** Reflexivity of the equality. *)
Lemma dr_eq_loop_refl l : forall fuel i,
  (length l - i < fuel)%nat -> (i <= length l)%nat -> dr_eq_loop fuel l l i i = true.
Proof.
  induction fuel as [|f IH]; intros i Hf Hi; [lia|].
  cbn [dr_eq_loop]. destruct (i <? length l)%nat eqn:E.
  - cbn [andb]. rewrite report_eqb_refl. apply Nat.ltb_lt in E.
    assert (Hs : forall n j, (j < length l)%nat -> (i <= j)%nat -> 
                   (j <= skip_zero n l j < length l)%nat).
    { intros n. induction n as [|n IHn]; intros j Hj Hij; cbn [skip_zero]; [lia|].
      destruct ((j <? length l - 1)%nat && report_eqb (at_ l j) zero_report) eqn:E2.
      - apply andb_true_iff in E2 as [E2 _]. apply Nat.ltb_lt in E2.
        specialize (IHn (S j)). lia.
      - lia. }
    specialize (Hs (length l) i E (le_n _)). apply IH; lia.
  - apply Nat.ltb_ge in E. cbn [andb]. assert (i = length l) by lia. subst. now rewrite Nat.eqb_refl.
Qed.
Lemma dr_eq_refl l : l <> [] -> dr_eq l l = true.
Proof.
  intros Hl. unfold dr_eq. rewrite report_eqb_refl. cbn [andb].
  apply dr_eq_loop_refl; [lia|]. destruct l; [congruence|cbn; lia].
Qed.
