(** Proofs for C69: the keyboard of the generated tables is that of the layout, with
    tap-hold keys. *)
From Coq Require Import String.
From Verif Require Import BaseFacts Output Types Scheduler Keymap SimpleKeys TapHold TapDance Sticky Layered Automation Chorded
  Composite SpecKeymap SpecPlain SpecLayer SpecBoard BoardFacts Ncl NclCodegen SpecNcl NclFacts NclMacroFacts NclTableFacts
  NclGenFacts NclLayoutFacts SpecNclBoard NclBoardFacts SpecTapBoard SpecNclTap.
Import List.
Local Open Scope N_scope.
Local Open Scope list_scope.

Section Leaf.
  Variables (md : automation_key -> macro -> Prop) (d : key_data).

  (** A key that is not made of other keys has no entry in the tables of tap-hold
      keys and of layered keys. *)
  Lemma leaf_plain : forall k r m, key_means k m -> denotes md d k r ->
    (forall i, r <> RTapHold i) /\ (forall i, r <> RLayered (LyLayered i)).
  Proof.
    intros k r m Hk Hd. destruct Hk; cbn in Hd; try (subst r; split; discriminate); destruct Hd as [i [-> _]]; split; discriminate.
  Qed.

  Lemma leaf_may_mean : forall n k r on df x m, tap_key n k -> denotes md d k r ->
    (may_mean d on df r x m <-> exists k', turns_out k x k' /\ key_means k' m).
  Proof.
    intros n k r on df x m [[[m0 Hk] _]|[t [h [-> [[[mt Ht] _] [[mh Hh] _]]]]]] Hd.
    - pose proof (leaf_plain _ _ _ Hk Hd) as [H1 H2]. split.
      + intros H. destruct H as [r m H|i q x m _ _|i q r x m _ _ _]; [|now elim (H1 i)|now elim (H2 i)].
        exists k. split; [constructor|]. now apply (leaf_means md d k r on df m0 Hk Hd m).
      + intros [k' [Ht Hm]]. destruct Ht; [|inversion Hk..]. constructor. now apply (leaf_means md d k r on df m0 Hk Hd m).
    - cbn [denotes] in Hd. destruct Hd as [i [rt [rh [-> [He [Hdt Hdh]]]]]]. unfold entry in He. split.
      + intros H. inversion H as [? ? Hm|? q y ? Hq Hm|]; subst.
        * inversion Hm; subst. contradiction.
        * rewrite He in Hq. injection Hq as <-. destruct y; cbn [picks th_tap th_hold] in Hm.
          -- exists t. split; [apply to_tap; auto|]. now apply (leaf_means md d t rt on df mt Ht Hdt m).
          -- exists t. split; [apply to_tap; auto|]. now apply (leaf_means md d t rt on df mt Ht Hdt m).
          -- exists h. split; [apply to_hold; auto|]. now apply (leaf_means md d h rh on df mh Hh Hdh m).
          -- exists h. split; [apply to_hold; auto|]. now apply (leaf_means md d h rh on df mh Hh Hdh m).
      + intros [k' [Hto Hm]]. inversion Hto as [|? ? y Hy|? ? y Hy]; subst.
        * inversion Hm.
        * eapply mm_tap_hold; [exact He|]. destruct Hy as [-> | ->]; cbn; now apply (leaf_means md d k' rt on df mt Ht Hdt m).
        * eapply mm_tap_hold; [exact He|]. destruct Hy as [-> | ->]; cbn; now apply (leaf_means md d k' rh on df mh Hh Hdh m).
  Qed.

  Lemma leaf_tap_board : forall n k r h, tap_key n k -> denotes md d k r -> tap_board_key n d (S h) r.
  Proof.
    intros n k r h [Hs|[t [u [-> [Ht Hu]]]]] Hd.
    - apply tb_key. eapply leaf_board; eassumption.
    - cbn [denotes] in Hd. destruct Hd as [i [rt [rh [-> [He [Hdt Hdh]]]]]]. eapply tb_tap_hold; [exact He|exact (leaf_board md d n t rt h Ht Hdt)|exact (leaf_board md d n u rh h Hu Hdh)].
  Qed.
End Leaf.

Section Board.
  Variables (md : automation_key -> macro -> Prop) (d : key_data) (lo : layout) (refs : list ref).
  Hypothesis Hden : Forall2 (denotes md d) (positions lo) refs.
  Hypothesis Htap : tap_layout lo.
  Hypothesis Hfit : forall k, In k (kd_layered d) -> length (lk_layered k) = length (lo_uppers lo).

  Lemma tap_refs_nth : forall i r, nth_error refs i = Some r ->
    exists b, nth_error (lo_base lo) i = Some b /\ denotes md d (stacked lo i b) r.
  Proof.
    intros i r H.
    assert (G : exists k, nth_error (positions lo) i = Some k /\ denotes md d k r).
    { exact (f2_nth _ _ _ _ _ _ _ Hden H). }
    destruct G as [k [E Hk]]. rewrite positions_nth in E. destruct (nth_error (lo_base lo) i) as [b|]; [|discriminate E].
    injection E as <-. exists b. split; [reflexivity|]. rewrite position_plain in Hk by apply Htap. exact Hk.
  Qed.
  Lemma base_tap : forall i b, nth_error (lo_base lo) i = Some b -> tap_key (length (lo_uppers lo)) b.
  Proof. intros i b H. destruct Htap as [_ [Hb _]]. rewrite Forall_forall in Hb. eapply Hb, nth_error_In, H. Qed.
  Lemma layer_tap : forall i j k, nth_error (column (lo_uppers lo) i) j = Some (Some k) -> tap_key (length (lo_uppers lo)) k.
  Proof.
    intros i j k H. apply column_is in H. destruct H as [row [Hr Hi]]. destruct Htap as [_ [_ [Hu _]]].
    rewrite Forall_forall in Hu. specialize (Hu _ (nth_error_In _ _ Hr)). rewrite Forall_forall in Hu.
    apply (Hu _ (nth_error_In _ _ Hi)). reflexivity.
  Qed.

  (** The entry of a key with layers. *)
  Lemma tap_stacked_entry : forall i b r, transparent (column (lo_uppers lo) i) = false -> denotes md d (stacked lo i b) r ->
    exists j rb rs, r = RLayered (LyLayered j) /\ nth_error (kd_layered d) (N.to_nat j) = Some (mkLayeredKey rb rs) /\
      denotes md d b rb /\ length rs = length (lo_uppers lo) /\
      (forall l q, defines (mkLayeredKey rb rs) l q -> exists k, on_layer_is lo i l k /\ denotes md d k q /\ tap_key (length (lo_uppers lo)) k) /\
      (forall l k, on_layer_is lo i l k -> exists q, defines (mkLayeredKey rb rs) l q /\ denotes md d k q).
  Proof.
    intros i b r Ht H. unfold stacked in H. rewrite Ht in H. destruct H as [j [rb [rs [m [-> [He [Hb Hr]]]]]]].
    assert (Hl : length (rs ++ repeat None m) = length (lo_uppers lo)).
    { unfold entry in He. apply nth_error_In in He. apply Hfit in He. exact He. }
    pose proof (all2_len _ _ _ _ _ Hr) as Hr'. unfold column in Hr'. rewrite map_length in Hr'.
    assert (m = 0%nat) by (rewrite app_length, repeat_length in Hl; lia). subst m. cbn [repeat] in *. rewrite app_nil_r in *.
    exists j, rb, rs. split; [reflexivity|]. split; [exact He|]. split; [exact Hb|]. split; [exact Hl|]. split.
    - intros l q [H1 H2]. cbn [lk_layered] in H2. destruct (proj2 (all2_nth _ _ _ _ _ _ Hr) _ H2) as [[k|] [Ek Hk]]; [|contradiction].
      exists k. split; [|split; [exact Hk|eapply layer_tap, Ek]]. split; [exact H1|]. now apply column_is.
    - intros l k [H1 H2]. apply column_is in H2. destruct (proj1 (all2_nth _ _ _ _ _ (N.to_nat (l - 1)) Hr) _ H2) as [[q|] [Eq Hq]]; [|contradiction].
      exists q. split; [|exact Hq]. split; [exact H1|exact Eq].
  Qed.

  Lemma ref_tap_board : forall r, In r refs -> tap_board_key (length (lo_uppers lo)) d 2 r.
  Proof.
    intros r H. apply In_nth_error in H. destruct H as [i H]. apply tap_refs_nth in H. destruct H as [b [Hb Hd]].
    destruct (transparent (column (lo_uppers lo) i)) eqn:Et.
    - unfold stacked in Hd. rewrite Et in Hd. eapply leaf_tap_board; [eapply base_tap, Hb|exact Hd].
    - destruct (tap_stacked_entry _ _ _ Et Hd) as [j [rb [rs [-> [He [Hrb [Hl [H1 _]]]]]]]].
      eapply tb_layered; [exact He|exact Hl|eapply leaf_tap_board; [eapply base_tap, Hb|exact Hrb]|].
      intros q Hq. cbn [lk_layered] in Hq. apply In_nth_error in Hq. destruct Hq as [x Hx].
      destruct (H1 (N.of_nat (S x)) q) as [k [_ [Hk Hs]]].
      { split; [lia|]. cbn [lk_layered]. replace (N.to_nat (N.of_nat (S x) - 1)) with x by lia. exact Hx. }
      eapply leaf_tap_board; eassumption.
  Qed.

  Lemma may_mean_shows : forall i b r on df x m, nth_error (lo_base lo) i = Some b -> denotes md d (stacked lo i b) r ->
    (may_mean d on df r x m <-> exists k k', shows lo i on df k /\ turns_out k x k' /\ key_means k' m).
  Proof.
    intros i b r on df x m Hb Hd. pose proof (base_tap _ _ Hb) as Hbt.
    destruct (transparent (column (lo_uppers lo) i)) eqn:Et.
    - unfold stacked in Hd. rewrite Et in Hd.
      assert (Hno : forall l k, ~ on_layer_is lo i l k) by (intros; now apply transparent_none).
      rewrite (leaf_may_mean md d _ b r on df x m Hbt Hd). split.
      + intros [k' Hm]. exists b, k'. split; [|exact Hm]. apply shows_base; auto.
      + intros [k [k' [Hs Hm]]]. exists k'. destruct Hs as [l k _ Hx _|l k _ _ Hx|k _ _ Hx]; try (exfalso; eapply Hno, Hx).
        rewrite Hb in Hx. injection Hx as <-. exact Hm.
    - destruct (tap_stacked_entry _ _ _ Et Hd) as [j [rb [rs [-> [He [Hrb [Hl [H1 H2]]]]]]]].
      split.
      + intros H.
        assert (G : exists q, acts_as (mkLayeredKey rb rs) (fun l => on l = true) df q /\ may_mean d on df q x m).
        { inversion H as [? ? Hm| |? k q ? ? Hk Ha Hm]; subst.
          - inversion Hm as [? ? Hp|? ? Hp|? ? Hp|? k q ? Hk Ha Hm']; subst; [contradiction Hp|].
            rewrite He in Hk. injection Hk as <-. exists q. split; [exact Ha|now constructor].
          - rewrite He in Hk. injection Hk as <-. eauto. }
        destruct G as [q [Ha Hm]].
        destruct Ha as [l q Ho Hdef Hmax|l q Hno Edf Hdef|Hno Hnod].
        * destruct (H1 _ _ Hdef) as [k [Hk [Hkd Hkt]]]. apply (leaf_may_mean md d _ k q on df x m Hkt Hkd) in Hm. destruct Hm as [k' Hm]. exists k, k'. split; [|exact Hm].
          eapply shows_layer; [exact Ho|exact Hk|]. intros l' k1 Ho' Hk'. destruct (H2 _ _ Hk') as [q' [Hq' _]]. eapply Hmax; eassumption.
        * destruct (H1 _ _ Hdef) as [k [Hk [Hkd Hkt]]]. apply (leaf_may_mean md d _ k q on df x m Hkt Hkd) in Hm. destruct Hm as [k' Hm]. exists k, k'. split; [|exact Hm].
          eapply shows_default; [|exact Edf|exact Hk]. intros l' k1 Ho' Hk'. destruct (H2 _ _ Hk') as [q' [Hq' _]]. eapply Hno; eassumption.
        * apply (leaf_may_mean md d _ b rb on df x m Hbt Hrb) in Hm. destruct Hm as [k' Hm]. exists b, k'. split; [|exact Hm].
          apply shows_base; [| |exact Hb].
          -- intros l' k1 Ho' Hk'. destruct (H2 _ _ Hk') as [q' [Hq' _]]. eapply Hno; eassumption.
          -- intros l' k1 Ho' Hk'. destruct (H2 _ _ Hk') as [q' [Hq' _]]. eapply Hnod; eassumption.
      + intros [k [k' [Hs Hm]]].
        assert (G : exists q, acts_as (mkLayeredKey rb rs) (fun l => on l = true) df q /\ denotes md d k q /\ tap_key (length (lo_uppers lo)) k).
        { destruct Hs as [l k Ho Hk Hmax|l k Hno Edf Hk|k Hno Hnod Hk].
          - destruct (H2 _ _ Hk) as [q [Hq Hqd]]. exists q. split; [|split; [exact Hqd|destruct Hk as [_ Hk]; apply column_is in Hk; eapply layer_tap, Hk]].
            eapply on_layer; [exact Ho|exact Hq|]. intros l' q' Ho' Hq'. destruct (H1 _ _ Hq') as [k1 [Hk' _]]. eapply Hmax; eassumption.
          - destruct (H2 _ _ Hk) as [q [Hq Hqd]]. exists q. split; [|split; [exact Hqd|destruct Hk as [_ Hk]; apply column_is in Hk; eapply layer_tap, Hk]].
            eapply on_default; [|exact Edf|exact Hq]. intros l' q' Ho' Hq'. destruct (H1 _ _ Hq') as [k1 [Hk' _]]. eapply Hno; eassumption.
          - rewrite Hb in Hk. injection Hk as <-. exists rb. split; [|split; [exact Hrb|exact Hbt]].
            apply (on_base (mkLayeredKey rb rs)).
            + intros l' q' Ho' Hq'. destruct (H1 _ _ Hq') as [k1 [Hk' _]]. eapply Hno; eassumption.
            + intros l' q' Ho' Hq'. destruct (H1 _ _ Hq') as [k1 [Hk' _]]. eapply Hnod; eassumption. }
        destruct G as [q [Ha [Hqd Hkt]]]. eapply mm_layered; [exact He|exact Ha|].
        apply (leaf_may_mean md d _ k q on df x m Hkt Hqd). eauto.
  Qed.

  Lemma tap_nth_refs : forall i, (i < length (lo_base lo))%nat -> exists r b, nth_error refs i = Some r /\
    nth_error (lo_base lo) i = Some b /\ denotes md d (stacked lo i b) r.
  Proof.
    intros i Hi.
    assert (Hl : length refs = length (lo_base lo)).
    { rewrite <- (flen _ _ _ _ _ Hden). unfold positions. generalize 0%nat. generalize (lo_base lo).
      induction l as [|b bs IH]; intros m; cbn; [reflexivity|]. now rewrite IH. }
    destruct (nth_error refs i) as [r|] eqn:E; [|apply nth_error_None in E; lia].
    destruct (tap_refs_nth _ _ E) as [b [Hb Hd]]. eauto.
  Qed.

  Lemma tap_board_layout : forall ir timing h later xs b cs,
    tap_run (length (lo_uppers lo)) refs d ir timing h later xs b cs <-> layout_tap_run lo ir timing h later xs b cs.
  Proof.
    intros ir timing h later xs b cs. split; intros H; induction H as [later|h ie later xs b cs xs' b' cs' _ IH Hs].
    - constructor.
    - econstructor; [exact IH|]. destruct Hs as [i r x m Hi Hr Hm Ha|ie b' Hie Hs].
      + destruct (tap_refs_nth _ _ Hr) as [k [Hk Hd]]. apply (may_mean_shows _ _ _ _ _ _ _ Hk Hd) in Hm. destruct Hm as [u [u' [Hu [Ht Hm]]]].
        eapply lt_press; [exact Hi|apply nth_error_Some; congruence|exact Hu|exact Ht|exact Hm|exact Ha].
      + apply lt_other; [exact Hie|]. destruct Hs; try (econstructor; eassumption). now elim (Hie i).
    - constructor.
    - econstructor; [exact IH|]. destruct Hs as [i k x k' m Hi Hl Hsh Ht Hm Ha|ie b' Hie Hs].
      + destruct (tap_nth_refs _ Hl) as [r [u [Hr [Hu Hd]]]]. eapply ts_press; [exact Hi|exact Hr| |exact Ha].
        apply (may_mean_shows _ _ _ _ _ _ _ Hu Hd). eauto.
      + apply ts_other; [exact Hie|]. destruct Hs; try (econstructor; eassumption). now elim (Hie i).
  Qed.
End Board.

Lemma tap_count : forall lo c, tap_layout lo -> layers_counted (positions lo) c ->
  cf_layer_count c = length (lo_uppers lo).
Proof.
  intros lo c [Hc [Hb [Hu Hne]]] [H1 H2].
  assert (Hall : forall k b ls, In k (positions lo) -> In (ULayered b ls) (all_parts k) -> length ls = length (lo_uppers lo)).
  { intros k b ls Hk Hp. apply In_nth_error in Hk. destruct Hk as [i Hk]. rewrite positions_nth in Hk.
    destruct (nth_error (lo_base lo) i) as [x|] eqn:Ex; [|discriminate Hk]. injection Hk as <-.
    rewrite position_plain in Hp by exact Hc. unfold stacked in Hp.
    assert (Hs0 : forall y, simple_key (length (lo_uppers lo)) y -> ~ In (ULayered b ls) (all_parts y)).
    { intros y [[m Hm] _] Hi. destruct Hm; cbn in Hi; destruct Hi as [Hi|[]]; discriminate Hi. }
    assert (Hs : forall y, tap_key (length (lo_uppers lo)) y -> ~ In (ULayered b ls) (all_parts y)).
    { intros y [Hy|[t [h [-> [Ht Hh]]]]] Hi; [exact (Hs0 _ Hy Hi)|]. cbn [all_parts] in Hi. destruct Hi as [Hi|Hi]; [discriminate Hi|].
      apply in_app_or in Hi. destruct Hi as [Hi|Hi]; eapply Hs0; [exact Ht|exact Hi|exact Hh|exact Hi]. }
    assert (Hx : tap_key (length (lo_uppers lo)) x) by (rewrite Forall_forall in Hb; eapply Hb, nth_error_In, Ex).
    destruct (transparent (column (lo_uppers lo) i)); [exfalso; eapply Hs; eassumption|].
    cbn [all_parts] in Hp. destruct Hp as [Hp|Hp]; [injection Hp as <- <-; unfold column; apply map_length|].
    apply in_app_or in Hp. destruct Hp as [Hp|Hp]; [exfalso; eapply Hs; eassumption|].
    apply in_flat_map in Hp. destruct Hp as [[y|] [Hy Hp]]; [|destruct Hp].
    exfalso. refine (Hs y _ Hp). apply In_nth_error in Hy. destruct Hy as [j Hj]. apply column_is in Hj.
    destruct Hj as [row [Hr Hi]]. rewrite Forall_forall in Hu. specialize (Hu _ (nth_error_In _ _ Hr)).
    rewrite Forall_forall in Hu. apply (Hu _ (nth_error_In _ _ Hi)). reflexivity. }
  destruct H2 as [H2|[k [b [ls [Hk [Hp Hl]]]]]]; [|now rewrite <- Hl; eapply Hall; eassumption].
  destruct Hne as [Hne|[i [Hi Ht]]]; [now rewrite H2, Hne|].
  destruct (nth_error (lo_base lo) i) as [b|] eqn:Eb; [|apply nth_error_None in Eb; lia].
  assert (Hin : In (position lo i b) (positions lo)).
  { apply nth_error_In with (n := i). rewrite positions_nth, Eb. reflexivity. }
  rewrite position_plain in Hin by exact Hc. unfold stacked in Hin. rewrite Ht in Hin.
  specialize (H1 _ b (column (lo_uppers lo) i) Hin (or_introl eq_refl)). unfold column in H1. rewrite map_length in H1. lia.
Qed.
