(** The keys the chord context tracks as held, and when its steps panic (C23, C41). *)
From Verif Require Import BaseFacts Output Types Scheduler Keymap Chorded Composite SpecTap SpecChord CtxFacts ChordFacts.
Local Open Scope N_scope.

Lemma exempt_ignore c ki c' : step_chorded c (EvInput (Press ki)) = Ok c' ->
  (chx_ignore_idle c' = true <-> exempt c ki) /\ chx_config c' = chx_config c /\ chx_idle c' = chx_idle c
  /\ chx_pressed_chords c' = chx_pressed_chords c.
Proof.
  unfold step_chorded. cbn [try_event ch_handle_event]. intros H. inv_bind H. inv_bind H. inv_bind H. injection H as <-. cbn in *.
  split; [|auto]. unfold pressed_chords_indices_span in E0. cbn in E0. pose proof (span_loop_spec _ _ _ _ _ _ E0 ki) as Hs. cbn [mem existsb orb skipn] in Hs.
  change (numbered_from 0 ?x) with (numbered x) in Hs.
  assert (Hm : mem ki a0 = true <-> exists id ch, nth_error (chc_chords (chx_config c)) id = Some ch /\ In ki ch /\ nth id (chx_pressed_chords c) false = true).
  { rewrite Hs. rewrite existsb_exists. split.
    - intros ([id ch] & Hin & Hb). rewrite Nat.sub_0_r in Hb. apply andb_true_iff in Hb as [B1 B2]. exists id, ch.
      split; [now apply numbered_In|]. split; [|exact B1]. apply existsb_exists in B2 as (x & Hx & Hj). apply N.eqb_eq in Hj. now subst.
    - intros (id & ch & A & B & C). exists (id, ch). split; [now apply numbered_In|]. rewrite Nat.sub_0_r, C. cbn.
      apply existsb_exists. exists ki. split; [exact B|apply N.eqb_refl]. }
  destruct (mem ki a0) eqn:Em.
  - injection E1 as <-. split; [|reflexivity]. intros _. destruct (proj1 Hm eq_refl) as (id & ch & A & B & C). exists id, ch. auto.
  - assert (Hno : forall id ch, nth_error (chc_chords (chx_config c)) id = Some ch -> In ki ch -> nth id (chx_pressed_chords c) false = true -> False).
    { intros id ch A B C. assert (false = true) by (apply Hm; eauto). discriminate. }
    destruct (chx_latest c) as [id|] eqn:El.
    + inv_bind E1. injection E1 as <-. apply index_ok in E2. unfold has_index, mem. rewrite existsb_exists. split.
      * intros (x & Hx & Hj). apply N.eqb_eq in Hj. subst x. exists (N.to_nat id), a2. split; [exact E2|]. split; [exact Hx|].
        right. now rewrite El, N2Nat.id.
      * intros (id' & ch & A & B & [C|C]); [exfalso; eauto|]. rewrite El in C. injection C as ->. rewrite Nat2N.id in E2.
        assert (ch = a2) by congruence. subst. exists ki. split; [exact B|apply N.eqb_refl].
    + injection E1 as <-. split; [discriminate|]. intros (id' & ch & A & B & [C|C]); [exfalso; eauto|congruence].
Qed.

(** ** Held keys *)
Definition ascending (l : list u16) : Prop := forall a x b y c, l = a ++ x :: b ++ y :: c -> x < y.
Lemma ascending_cons x l : ascending (x :: l) -> ascending l /\ forall y, In y l -> x < y.
Proof.
  intros H. split.
  - intros a z b y c ->. apply (H (x :: a) z b y c). reflexivity.
  - intros y Hy. apply in_split in Hy as (b & c & ->). apply (H [] x b y c). reflexivity.
Qed.
Lemma cons_ascending x l : ascending l -> (forall y, In y l -> x < y) -> ascending (x :: l).
Proof.
  intros H Hx [|z a] u b y c E; cbn in E; injection E as -> E.
  - apply Hx. rewrite E. apply in_or_app. right. now left.
  - eapply H. exact E.
Qed.
Lemma sorted_insert_In i l x : In x (sorted_insert i l) <-> x = i \/ In x l.
Proof.
  induction l as [|y l IH]; cbn; [intuition|]. destruct (i =? y) eqn:E.
  - apply N.eqb_eq in E. subst. cbn. intuition.
  - destruct (i <? y); cbn; [intuition|]. rewrite IH. intuition.
Qed.
Lemma sorted_insert_ascending i l : ascending l -> ascending (sorted_insert i l).
Proof.
  induction l as [|y l IH]; intros H; cbn.
  - apply cons_ascending; [exact H|intros y []].
  - pose proof H as H0. apply ascending_cons in H as [H1 H2]. destruct (i =? y) eqn:E; [exact H0|]. apply N.eqb_neq in E.
    destruct (i <? y) eqn:El.
    + apply N.ltb_lt in El. apply cons_ascending; [exact H0|]. intros z [->|Hz]; [exact El|]. apply H2 in Hz. lia.
    + apply N.ltb_ge in El. apply cons_ascending; [now apply IH|]. intros z Hz. apply sorted_insert_In in Hz as [->|Hz]; [lia|auto].
Qed.
Lemma sorted_insert_length i l : ~ In i l -> length (sorted_insert i l) = S (length l).
Proof.
  induction l as [|y l IH]; intros H; cbn; [reflexivity|]. destruct (i =? y) eqn:E.
  - apply N.eqb_eq in E. subst. exfalso. apply H. now left.
  - destruct (i <? y); cbn; [reflexivity|]. rewrite IH; [reflexivity|]. intros X. apply H. now right.
Qed.
Lemma ascending_NoDup l : ascending l -> NoDup l.
Proof.
  induction l as [|x l IH]; intros H; [constructor|]. apply ascending_cons in H as [H1 H2]. constructor; [|now apply IH].
  intros X. apply H2 in X. lia.
Qed.
Lemma release_In i l x : ascending l -> In x (release_index l i) <-> In x l /\ x <> i.
Proof.
  unfold release_index. induction l as [|y l IH]; intros H; cbn; [tauto|]. apply ascending_cons in H as [H1 H2].
  destruct (i =? y) eqn:E.
  - apply N.eqb_eq in E. subst. split; [|intuition congruence]. intros X. split; [now right|]. apply H2 in X. lia.
  - apply N.eqb_neq in E. cbn. rewrite IH by exact H1. intuition congruence.
Qed.
Lemma release_ascending i l : ascending l -> ascending (release_index l i).
Proof.
  unfold release_index. induction l as [|y l IH]; intros H; cbn; [exact H|]. pose proof H as H0. apply ascending_cons in H as [H1 H2].
  destruct (i =? y); [exact H1|]. apply cons_ascending; [now apply IH|]. intros z Hz. apply H2.
  clear -Hz. induction l as [|x l IH]; cbn in *; [exact Hz|]. destruct (i =? x); [now right|]. destruct Hz; [now left|right; auto].
Qed.

Definition same_set (a b : list u16) : Prop := forall x, In x a <-> In x b.
(** Tracking the held keys. *)
Definition tracks (l held : list u16) : Prop := ascending l /\ NoDup held /\ same_set l held.
Lemma tracks_length l held : tracks l held -> length l = length held.
Proof.
  intros (A & B & C). apply Nat.le_antisymm; apply NoDup_incl_length; auto using ascending_NoDup; intros x Hx; now apply C.
Qed.
Lemma mem_In i l : mem i l = true <-> In i l.
Proof.
  unfold mem. rewrite existsb_exists. split.
  - intros (x & Hx & E). apply N.eqb_eq in E. now subst.
  - intros H. exists i. split; [exact H|apply N.eqb_refl].
Qed.
Lemma press_tracks cap l held i : tracks l held -> (0 < cap)%nat -> i <> 65535 -> In i held \/ (length held < cap)%nat ->
  exists l', press_index cap l i = Ok l' /\ tracks l' (held_step held (EvInput (Press i))).
Proof.
  intros Ht Hcap Hi Hroom. pose proof (tracks_length _ _ Ht) as Hl. destruct Ht as (A & B & C). unfold press_index. cbn [held_step].
  destruct (mem i l) eqn:Em.
  - apply mem_In in Em. apply C in Em. change (existsb (N.eqb i) held) with (mem i held). rewrite (proj2 (mem_In i held) Em).
    exists l. split; [reflexivity|]. split; [exact A|split; assumption].
  - assert (Hni : ~ In i l) by (rewrite <- mem_In; congruence). assert (Hnh : ~ In i held) by (intros X; apply Hni; now apply C).
    destruct Hroom as [X|Hroom]; [contradiction|].
    change (existsb (N.eqb i) held) with (mem i held). destruct (mem i held) eqn:Eh; [apply mem_In in Eh; contradiction|].
    destruct (cap =? 0)%nat eqn:E0; [apply Nat.eqb_eq in E0; lia|]. rewrite (proj2 (Nat.ltb_lt _ _)) by lia.
    apply N.eqb_neq in Hi. rewrite Hi. eexists. split; [reflexivity|]. split; [now apply sorted_insert_ascending|].
    split; [now constructor|]. intros x. rewrite sorted_insert_In. cbn. rewrite (C x). intuition.
Qed.
Lemma release_tracks l held i : tracks l held -> tracks (release_index l i) (held_step held (EvInput (Release i))).
Proof.
  intros (A & B & C). cbn [held_step]. split; [now apply release_ascending|]. split; [now apply NoDup_filter|].
  intros x. rewrite release_In by exact A. rewrite filter_In, negb_true_iff, N.eqb_neq, (C x). reflexivity.
Qed.

Lemma held_snoc h ev : held_keys (h ++ [ev]) = held_step (held_keys h) ev.
Proof. unfold held_keys. now rewrite fold_left_app. Qed.
Lemma context_tracks cf h c : (0 < chc_max_pressed cf)%nat -> never_full (chc_max_pressed cf) h ->
  fold_res step_chorded h (ch_ctx_new cf) = Ok c -> chx_config c = cf /\ tracks (chx_pressed_indices c) (held_keys h).
Proof.
  intros Hcap. revert c. induction h as [|ev h IH] using rev_ind; intros c [Hn Hx] H.
  - cbn in H. injection H as <-. split; [reflexivity|]. split; [|split; [constructor|intros x; reflexivity]].
    intros a x b y cc E. destruct a; discriminate.
  - assert (Hs : exists c1, fold_res step_chorded h (ch_ctx_new cf) = Ok c1 /\ step_chorded c1 ev = Ok c).
    { clear -H. revert H. generalize (ch_ctx_new cf) as c0. induction h as [|e h IH]; intros c0 H; cbn in *.
      - inv_bind H. inv_ok H. eauto.
      - destruct (step_chorded c0 e) as [c1| |]; cbn in *; try discriminate. apply IH. exact H. }
    destruct Hs as (c1 & H1 & H2). assert (Hnf : never_full (chc_max_pressed cf) h).
    { split; [|intros X; apply Hx, in_or_app; now left]. intros h1 h2 ->. apply (Hn h1 (h2 ++ [ev])). now rewrite app_assoc. }
    destruct (IH c1 Hnf H1) as [Hcf Ht]. rewrite held_snoc. unfold step_chorded in H2.
    assert (Hlen : (length (held_keys (h ++ [ev])) <= chc_max_pressed cf)%nat) by (apply (Hn (h ++ [ev]) []); now rewrite app_nil_r).
    rewrite held_snoc in Hlen.
    destruct ev as [[k|k|ko|ko]|j [x|x|x|x|x|x|x]|[cb|j ko]]; cbn [try_event as_chorded ch_handle_event] in H2;
      try (injection H2 as <-; split; [exact Hcf|exact Ht]).
    + inv_bind H2. inv_bind H2. inv_bind H2. injection H2 as <-. cbn [chx_config chx_pressed_indices]. split; [exact Hcf|].
      rewrite Hcf in E. destruct (press_tracks (chc_max_pressed cf) _ _ k Ht Hcap) as (l' & E' & Ht').
      * intros ->. apply Hx, in_or_app. right. now left.
      * cbn [held_step] in Hlen. destruct (existsb (N.eqb k) (held_keys h)) eqn:Ek; [left; now apply mem_In|].
        right. cbn [length] in Hlen. lia.
      * rewrite E in E'. injection E' as <-. exact Ht'.
    + injection H2 as <-. split; [exact Hcf|]. now apply release_tracks.
    + destruct x as [[id|]|]; cbn in H2; [inv_bind H2| |]; injection H2 as <-; (split; [exact Hcf|exact Ht]).
Qed.

Lemma span_total cap (chords : list chord) (all : list u16) pressed : (length all <= cap)%nat -> (forall ch j, In ch chords -> In j ch -> In j all) ->
  forall i acc, (forall id, nth id pressed false = true -> exists ch, nth_error chords (i + id) = Some ch) ->
  ascending acc -> incl acc all -> exists res, span_loop cap chords i pressed acc = Ok res.
Proof.
  intros Hcap Hall. induction pressed as [|b t IH]; intros i acc Hp Ha Hi; cbn [span_loop]; [eauto|].
  assert (Ht : forall id, nth id t false = true -> exists ch, nth_error chords (S i + id) = Some ch).
  { intros id Hid. destruct (Hp (S id) Hid) as [ch Hch]. exists ch. now rewrite <- Hch, Nat.add_succ_r. }
  destruct b; [|now apply IH].
  destruct (Hp 0%nat eq_refl) as [ch Hch]. rewrite Nat.add_0_r in Hch.
  assert (Hidx : index chords i = Ok ch) by (unfold index; now rewrite Hch). rewrite Hidx. cbn [bind].
  assert (G : forall (l acc : list u16), (forall j, In j l -> In j all) -> ascending acc -> incl acc all ->
    exists acc', fold_res (insert_cap cap) l acc = Ok acc' /\ ascending acc' /\ incl acc' all).
  { clear -Hcap. induction l as [|x l IH]; intros acc Hl Ha Hi; cbn [fold_res]; [eauto|]. unfold insert_cap at 1.
    destruct (mem x acc) eqn:Em; cbn [bind]; [apply IH; auto; intros; apply Hl; now right|].
    assert (Hnx : ~ In x acc) by (rewrite <- mem_In; congruence).
    assert (Hlt : (length acc < cap)%nat).
    { assert (Y : (length (x :: acc) <= length all)%nat); [|cbn in Y; lia].
      apply NoDup_incl_length; [constructor; [exact Hnx|now apply ascending_NoDup]|].
      intros z [<-|Hz]; [apply Hl; now left|now apply Hi]. }
    apply Nat.ltb_lt in Hlt. rewrite Hlt. cbn [bind]. apply IH.
    - intros; apply Hl; now right.
    - now apply sorted_insert_ascending.
    - intros z Hz. apply sorted_insert_In in Hz as [->|Hz]; [apply Hl; now left|now apply Hi]. }
  destruct (G ch acc) as (acc' & E & Ha' & Hi'); auto.
  { intros j Hj. eapply Hall; [eapply nth_error_In; exact Hch|exact Hj]. }
  rewrite E. cbn [bind]. apply IH; auto.
Qed.


Lemma fold_res_snoc {A B} (f : A -> B -> res A) l x a : fold_res f (l ++ [x]) a = (let! a' := fold_res f l a in f a' x).
Proof.
  revert a. induction l as [|y l IH]; intros a; cbn.
  - now destruct (f a x).
  - destruct (f a y); cbn; auto.
Qed.
Lemma active_resolved chords h id : active_after chords h id = true ->
  exists j n, In (EvKey j (CeChorded (ChordResolved (CrChord n)))) h /\ N.to_nat n = id.
Proof.
  assert (G : forall e t, (active_after chords t id = true -> exists j n, In (EvKey j (CeChorded (ChordResolved (CrChord n)))) t /\ N.to_nat n = id) ->
    active_after chords t id = true -> exists j n, In (EvKey j (CeChorded (ChordResolved (CrChord n)))) (e :: t) /\ N.to_nat n = id).
  { intros e t IH H. destruct (IH H) as (j & n & A & B). exists j, n. split; [now right|exact B]. }
  induction h as [|[[k|k|ko|ko]|j [x|x|[[n|]|]|x|x|x|x]|kk] t IH]; cbn; try discriminate; try (now apply G).
  - destruct (nth_error chords id) as [ch|]; [destruct (member k ch); [discriminate|]|]; now apply G.
  - destruct (N.to_nat n =? id)%nat eqn:E; [|now apply G]. apply Nat.eqb_eq in E. intros _. exists j, n. split; [now left|exact E].
Qed.
Lemma clear_chords_length chords pressed ki : length (clear_chords chords pressed ki) = length pressed.
Proof. revert pressed. induction chords as [|c cs IH]; intros [|b bs]; cbn; auto. Qed.
