(** Proofs for C81: tap-dance keys of a keymap.ncl. *)
From Coq Require Import String.
From Verif Require Import BaseFacts Output Types Scheduler Keymap SimpleKeys Layered Automation Chorded TapDance
  Composite SpecKeymap SpecPlain SpecLayer SpecBoard SpecDanceBoard Ncl NclCodegen SpecNcl NclMacroFacts
  NclLayoutFacts SpecNclBoard NclBoardFacts SpecNclKeys NclKeyFacts.
Import List.
Local Open Scope N_scope.
Local Open Scope list_scope.

Lemma choices_fun (l l' : list ref) p p' : map Some l ++ repeat None p = map Some l' ++ repeat None p' -> l = l'.
Proof.
  revert l'. induction l as [|x l IH]; intros [|x' l'] H; cbn in H.
  - reflexivity.
  - destruct p; discriminate.
  - destruct p'; discriminate.
  - injection H as -> H. f_equal. now apply IH.
Qed.

Section Dances.
  Variables (md : automation_key -> macro -> Prop) (d : key_data) (lo : layout) (refs : list ref).
  Local Notation n := (length (lo_uppers lo)).
  Hypothesis Hden : Forall2 (denotes md d) (positions lo) refs.
  Hypothesis Hlay : layout_of (dance_key n) lo.
  Hypothesis Hfit : forall k, In k (kd_layered d) -> length (lk_layered k) = n.

  (** The choices of a tap-dance key are its keys. *)
  Definition choices_are (ks : list (ukey macro)) (choices : list ref) : Prop :=
    Forall2 (fun k r => simple_key n k /\ denotes md d k r) ks choices.
  Lemma leaf_choices k1 ks r : Forall (simple_key n) (k1 :: ks) -> denotes md d (UTapDance k1 ks) r ->
    exists q choices pad, r = RTapDance q /\ nth_error (kd_tap_dance d) (N.to_nat q) = Some (map Some choices ++ repeat None pad) /\ choices_are (k1 :: ks) choices.
  Proof.
    intros Hs (i & r0 & rs & p & -> & He & H0 & Hr). exists i, (r0 :: rs), p. split; [reflexivity|]. split; [exact He|]. inversion_clear Hs as [|? ? S1 S2]. constructor; [auto|].
    clear -S2 Hr. revert rs Hr. induction S2 as [|k ks Hk S2 IH]; intros [|r rs] Hr; try contradiction; [constructor|]. destruct Hr as (A & B). constructor; [auto|now apply IH].
  Qed.
  Lemma leaf_dance_board h k r : dance_key n k -> denotes md d k r -> dance_board_key n d (S h) r.
  Proof.
    intros [Hs|(k1 & ks & -> & Hs & Hl)] Hd; [apply db_key; eapply leaf_board; eassumption|].
    destruct (leaf_choices k1 ks r Hs Hd) as (q & choices & pad & -> & Hq & Hc). eapply db_dance; [exact Hq| |].
    - apply flen in Hc. cbn [length] in Hc. lia.
    - clear -Hc. unfold choices_are in Hc. induction Hc as [|k rc l rs (A & B) Hc IH]; constructor; [eapply leaf_board; eassumption|exact IH].
  Qed.
  Lemma refs_dance_board : Forall (dance_board_key n d 2) refs.
  Proof.
    apply Forall_forall. intros r H. apply In_nth_error in H as (i & H). destruct (resolve md d lo refs _ Hden Hlay Hfit i r H) as (b & _ & Hb & [(Hd & _)|(j & lk & -> & Hj & Hl & Hd & Hr & _)]).
    - eapply leaf_dance_board; eassumption.
    - eapply db_layered; [exact Hj|exact Hl|eapply leaf_dance_board; eassumption|]. intros q Hq. destruct (Hr q Hq) as (k & Hk & Hkd). eapply leaf_dance_board; eassumption.
  Qed.
  Lemma leaf_dances on df k r choices : dance_key n k -> denotes md d k r -> dances d on df r choices -> exists k1 ks, k = UTapDance k1 ks /\ choices_are (k1 :: ks) choices.
  Proof.
    intros [Hs|(k1 & ks & -> & Hs & Hl)] Hd H.
    - destruct (simple_ref md d n k r Hs Hd) as (_ & X & Y). destruct H as [q ch p Hq|j lk r ch Hj _ _]; [now elim (X q)|now elim (Y j)].
    - destruct (leaf_choices k1 ks r Hs Hd) as (q & ch & pad & -> & Hq & Hc). exists k1, ks. split; [reflexivity|]. inversion H as [q' ch' p' Hq'|]; subst. rewrite Hq in Hq'. injection Hq' as E. apply choices_fun in E. now subst.
  Qed.
  Lemma dances_shows i r on df choices : nth_error refs i = Some r -> dances d on df r choices -> exists k1 ks, SpecNclBoard.shows lo i on df (UTapDance k1 ks) /\ choices_are (k1 :: ks) choices.
  Proof.
    intros Hi H. destruct (resolve md d lo refs _ Hden Hlay Hfit i r Hi) as (b & _ & Hb & [(Hd & Hs)|(j & lk & -> & Hj & Hl & Hd & _ & Ha & _)]).
    - destruct (leaf_dances on df b r choices Hb Hd H) as (k1 & ks & Eb & Hc). exists k1, ks. split; [apply Hs; now symmetry|exact Hc].
    - inversion H as [|? k' q ? Hk' Hq Hr]; subst. rewrite Hj in Hk'. injection Hk' as <-. destruct (Ha on df q Hq) as (k & Hs & Hk & Hkd).
      destruct (leaf_dances on df k q choices Hk Hkd Hr) as (k1 & ks & Ek & Hc). subst k. eauto.
  Qed.
  Lemma shows_dances i r on df k1 ks : nth_error refs i = Some r -> SpecNclBoard.shows lo i on df (UTapDance k1 ks) -> exists choices, dances d on df r choices /\ choices_are (k1 :: ks) choices.
  Proof.
    intros Hi H. assert (L : forall q, dance_key n (UTapDance k1 ks) -> denotes md d (UTapDance k1 ks) q -> exists choices, dances d on df q choices /\ choices_are (k1 :: ks) choices).
    { intros q [((m & Hm) & _)|(k & ks' & E & Hs & _)] Hd; [inversion Hm|]. injection E as <- <-. destruct (leaf_choices k1 ks q Hs Hd) as (i' & ch & pad & -> & Hq & Hc). exists ch. split; [econstructor; exact Hq|exact Hc]. }
    destruct (resolve md d lo refs _ Hden Hlay Hfit i r Hi) as (b & _ & Hb & [(Hd & Hs)|(j & lk & -> & Hj & Hl & Hd & _ & _ & Ha)]).
    - apply Hs in H. subst b. now apply L.
    - destruct (Ha on df _ H) as (q & Hq & Hk & Hkd). destruct (L q Hk Hkd) as (ch & X & Y). exists ch. split; [|exact Y]. eapply dances_layered; eassumption.
  Qed.
  Lemma leaf_dance_means on df k r m : dance_key n k -> denotes md d k r -> (means d on df r m <-> key_means k m).
  Proof.
    intros [[[m0 Hk] Hl]|(k1 & ks & -> & Hs & Hl)] Hd; [eapply leaf_means; eassumption|]. destruct Hd as (i & r0 & rs & p & -> & _). split; intros H; [|inversion H]. inversion H; subst; contradiction.
  Qed.
  Lemma dance_means i r on df m : nth_error refs i = Some r -> (means d on df r m <-> exists k, SpecNclBoard.shows lo i on df k /\ key_means k m).
  Proof.
    intros Hi. destruct (resolve md d lo refs _ Hden Hlay Hfit i r Hi) as (b & _ & Hb & [(Hd & Hs)|(j & lk & -> & Hj & Hl & Hd & _ & Ha & Ha')]).
    - rewrite (leaf_dance_means on df b r m Hb Hd). split; [intros H; exists b; split; [now apply Hs|exact H]|]. intros (k & Hk & H). apply Hs in Hk. now subst.
    - split.
      + intros H. inversion H as [? ? Hp|? ? Hp|? ? Hp|? k' q ? Hk' Hq Hr]; subst; [contradiction Hp|]. rewrite Hj in Hk'. injection Hk' as <-. destruct (Ha on df q Hq) as (k & Hs & Hk & Hkd).
        exists k. split; [exact Hs|]. now apply (leaf_dance_means on df k q m Hk Hkd).
      + intros (k & Hs & Hm). destruct (Ha' on df k Hs) as (q & Hq & Hk & Hkd). apply (leaf_dance_means on df k q m Hk Hkd) in Hm.
        eapply means_layered; eassumption.
  Qed.
  Lemma choice_means k1 ks choices c r on df m : choices_are (k1 :: ks) choices -> nth_error choices c = Some r ->
    exists k, nth_error (k1 :: ks) c = Some k /\ (means d on df r m <-> key_means k m).
  Proof.
    intros H. revert c. induction H as [|k r' l l' ((( m0 & Hm) & _) & Hd) H IH]; intros [|c] Hc; try discriminate Hc; [|now apply IH].
    injection Hc as <-. exists k. split; [reflexivity|]. eapply leaf_means; eassumption.
  Qed.
End Dances.
