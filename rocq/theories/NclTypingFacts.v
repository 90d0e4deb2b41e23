(** Proofs for C73: the keyboard of the generated tables is that of the layout, for
    keys that act at once. *)
From Coq Require Import String.
From Verif Require Import BaseFacts Output Types Scheduler Keymap SimpleKeys TapHold TapDance Sticky Layered Automation Chorded
  Composite SpecKeymap SpecPlain SpecLayer SpecTyping TypingFacts Ncl NclCodegen SpecNcl NclFacts NclMacroFacts NclTableFacts
  NclGenFacts NclLayoutFacts SpecNclBoard NclBoardFacts SpecNclTyping.
Import List.
Local Open Scope N_scope.
Local Open Scope list_scope.

Section Leaf.
  Variables (md : automation_key -> macro -> Prop) (d : key_data).

  Lemma leaf_tmeans : forall k r on df m0, tkey_means k m0 -> denotes md d k r ->
    forall m, tmeans d on df r m <-> tkey_means k m.
  Proof.
    intros k r on df m0 Hk Hd m. destruct Hk as [c|x|c x|c|c|x ko0 E0|c|l| |x]; cbn in Hd.
    - subst r. split; intros H; inversion H; subst; cbn in *; subst; constructor. reflexivity.
    - subst r. split; intros H; inversion H; subst; cbn in *; subst; constructor. reflexivity.
    - destruct Hd as [i [-> He]]. unfold entry in He. split; intros H; inversion H; subst; cbn in *.
      + destruct H0 as [k [E ->]]. rewrite He in E. injection E as <-. constructor.
      + constructor. cbn. eauto.
    - subst r. split; intros H; inversion H; subst; cbn in *; subst; constructor. reflexivity.
    - subst r. split; intros H; inversion H; subst; cbn in *; subst; constructor. reflexivity.
    - subst r. split; intros H; inversion H; subst; cbn in *; constructor; assumption.
    - destruct Hd as [i [-> He]]. unfold entry in He. split; intros H; inversion H; subst; cbn in *; try contradiction.
      + rewrite He in H1. injection H1 as <-. constructor.
      + now apply tm_calls.
    - destruct Hd as [i [-> He]]. unfold entry in He. split; intros H; inversion H; subst; cbn in *; try contradiction.
      + rewrite He in H1. injection H1 as <-. constructor.
      + now apply tm_switches.
    - subst r. split; intros H; inversion H; subst; cbn in *; try contradiction; constructor.
    - destruct Hd as [i [-> He]]. unfold entry in He. split; intros H; inversion H; subst; cbn in *; try contradiction.
      + rewrite He in H1. injection H1 as <-. constructor.
      + now apply (tm_oneshot d on df i (mkStickyKey x)).
  Qed.

  Lemma leaf_tkey : forall n k r h, typing_key n k -> denotes md d k r -> tkey n d h r.
  Proof.
    intros n k r h [[m Hk] Hl] Hd. destruct Hk as [c|x|c x|c|c|x ko0 E0|c|l| |x]; cbn in Hd.
    - subst r. eapply tk_plain. reflexivity.
    - subst r. eapply tk_plain. reflexivity.
    - destruct Hd as [i [-> He]]. eapply tk_plain. cbn. eauto.
    - subst r. eapply tk_plain. reflexivity.
    - subst r. eapply tk_plain. reflexivity.
    - subst r. eapply tk_plain. exact E0.
    - destruct Hd as [i [-> He]]. eapply tk_callback. exact He.
    - destruct Hd as [i [-> He]]. eapply tk_modifier; [exact He|]. now apply Hl.
    - subst r. apply tk_caps.
    - destruct Hd as [i [-> He]]. eapply tk_sticky. exact He.
  Qed.
End Leaf.

Section Board.
  Variables (md : automation_key -> macro -> Prop) (d : key_data) (lo : layout) (refs : list ref).
  Hypothesis Hden : Forall2 (denotes md d) (positions lo) refs.
  Hypothesis Htyping : typing_layout lo.
  Hypothesis Hlen : Forall (fun l => (length (lo_base lo) <= length l)%nat) (lo_uppers lo).
  Hypothesis Hfit : forall k, In k (kd_layered d) -> length (lk_layered k) = length (lo_uppers lo).

  Lemma trefs_nth : forall i r, nth_error refs i = Some r ->
    exists b, nth_error (lo_base lo) i = Some b /\ denotes md d (stacked lo i b) r.
  Proof.
    intros i r H.
    assert (G : exists k, nth_error (positions lo) i = Some k /\ denotes md d k r).
    { exact (f2_nth _ _ _ _ _ _ _ Hden H). }
    destruct G as [k [E Hk]]. rewrite positions_nth in E. destruct (nth_error (lo_base lo) i) as [b|]; [|discriminate E].
    injection E as <-. exists b. split; [reflexivity|]. rewrite position_plain in Hk by apply Htyping. exact Hk.
  Qed.

  Lemma base_typing : forall i b, nth_error (lo_base lo) i = Some b -> typing_key (length (lo_uppers lo)) b.
  Proof.
    intros i b H. destruct Htyping as [_ [Hb _]]. rewrite Forall_forall in Hb. eapply Hb, nth_error_In, H.
  Qed.
  Lemma layer_typing : forall i j k, nth_error (column (lo_uppers lo) i) j = Some (Some k) ->
    typing_key (length (lo_uppers lo)) k.
  Proof.
    intros i j k H. apply column_is in H. destruct H as [row [Hr Hi]]. destruct Htyping as [_ [_ [Hu _]]].
    rewrite Forall_forall in Hu. specialize (Hu _ (nth_error_In _ _ Hr)). rewrite Forall_forall in Hu.
    apply (Hu _ (nth_error_In _ _ Hi)). reflexivity.
  Qed.

  (** The entry of a key with layers. *)
  Lemma typing_entry : forall i b r, transparent (column (lo_uppers lo) i) = false -> denotes md d (stacked lo i b) r ->
    exists j rb rs, r = RLayered (LyLayered j) /\ nth_error (kd_layered d) (N.to_nat j) = Some (mkLayeredKey rb rs) /\
      denotes md d b rb /\ length rs = length (lo_uppers lo) /\
      (forall l q, defines (mkLayeredKey rb rs) l q -> exists k, on_layer_is lo i l k /\ denotes md d k q /\ typing_key (length (lo_uppers lo)) k) /\
      (forall l k, on_layer_is lo i l k -> exists q, defines (mkLayeredKey rb rs) l q /\ denotes md d k q).
  Proof.
    intros i b r Ht H. unfold stacked in H. rewrite Ht in H. destruct H as [j [rb [rs [m [-> [He [Hb Hr]]]]]]].
    assert (Hl : length (rs ++ repeat None m) = length (lo_uppers lo)).
    { unfold entry in He. apply nth_error_In in He. apply Hfit in He. exact He. }
    pose proof (all2_len _ _ _ _ _ Hr) as Hr'. unfold column in Hr'. rewrite map_length in Hr'.
    assert (m = 0%nat) by (rewrite app_length, repeat_length in Hl; lia). subst m. cbn [repeat] in *. rewrite app_nil_r in *.
    exists j, rb, rs. split; [reflexivity|]. split; [exact He|]. split; [exact Hb|]. split; [exact Hl|]. split.
    - intros l q [H1 H2]. cbn [lk_layered] in H2. destruct (proj2 (all2_nth _ _ _ _ _ _ Hr) _ H2) as [[k|] [Ek Hk]]; [|contradiction].
      exists k. split; [|split; [exact Hk|eapply layer_typing, Ek]]. split; [exact H1|]. now apply column_is.
    - intros l k [H1 H2]. apply column_is in H2. destruct (proj1 (all2_nth _ _ _ _ _ (N.to_nat (l - 1)) Hr) _ H2) as [[q|] [Eq Hq]]; [|contradiction].
      exists q. split; [|exact Hq]. split; [exact H1|exact Eq].
  Qed.

  Lemma ref_tkey : forall r, In r refs -> tkey (length (lo_uppers lo)) d 1 r.
  Proof.
    intros r H. apply In_nth_error in H. destruct H as [i H]. apply trefs_nth in H. destruct H as [b [Hb Hd]].
    destruct (transparent (column (lo_uppers lo) i)) eqn:Et.
    - unfold stacked in Hd. rewrite Et in Hd. eapply leaf_tkey; [eapply base_typing, Hb|exact Hd].
    - destruct (typing_entry _ _ _ Et Hd) as [j [rb [rs [-> [He [Hrb [Hl [H1 _]]]]]]]].
      eapply tk_layered; [exact He|exact Hl|eapply leaf_tkey; [eapply base_typing, Hb|exact Hrb]|].
      intros q Hq. cbn [lk_layered] in Hq. apply In_nth_error in Hq. destruct Hq as [x Hx].
      destruct (H1 (N.of_nat (S x)) q) as [k [_ [Hk Hs]]].
      { split; [lia|]. cbn [lk_layered]. replace (N.to_nat (N.of_nat (S x) - 1)) with x by lia. exact Hx. }
      eapply leaf_tkey; eassumption.
  Qed.

  Lemma tmeans_shows : forall i b r on df m, nth_error (lo_base lo) i = Some b -> denotes md d (stacked lo i b) r ->
    (tmeans d on df r m <-> exists k, shows lo i on df k /\ tkey_means k m).
  Proof.
    intros i b r on df m Hb Hd. pose proof (base_typing _ _ Hb) as [[mb Hmb] _].
    destruct (transparent (column (lo_uppers lo) i)) eqn:Et.
    - unfold stacked in Hd. rewrite Et in Hd.
      assert (Hno : forall l k, ~ on_layer_is lo i l k) by (intros; now apply transparent_none).
      rewrite (leaf_tmeans md d b r on df mb Hmb Hd m). split.
      + intros Hm. exists b. split; [|exact Hm]. apply shows_base; auto.
      + intros [k [Hs Hm]]. destruct Hs as [l k _ Hx _|l k _ _ Hx|k _ _ Hx]; try (exfalso; eapply Hno, Hx).
        rewrite Hb in Hx. injection Hx as <-. exact Hm.
    - destruct (typing_entry _ _ _ Et Hd) as [j [rb [rs [-> [He [Hrb [Hl [H1 H2]]]]]]]].
      split.
      + intros H. inversion H as [? ? Hp|? ? Hp|? ? Hp| |? ? Hp|? k q ? Hk Ha Hm]; subst; [contradiction Hp|].
        rewrite He in Hk. injection Hk as <-.
        destruct Ha as [l q Ho Hdef Hmax|l q Hno Edf Hdef|Hno Hnod].
        * destruct (H1 _ _ Hdef) as [k [Hk [Hkd [[mk Hmk] _]]]]. exists k. split.
          -- eapply shows_layer; [exact Ho|exact Hk|]. intros l' k' Ho' Hk'. destruct (H2 _ _ Hk') as [q' [Hq' _]]. eapply Hmax; eassumption.
          -- now apply (leaf_tmeans md d k q on df mk Hmk Hkd m).
        * destruct (H1 _ _ Hdef) as [k [Hk [Hkd [[mk Hmk] _]]]]. exists k. split.
          -- eapply shows_default; [|exact Edf|exact Hk]. intros l' k' Ho' Hk'. destruct (H2 _ _ Hk') as [q' [Hq' _]]. eapply Hno; eassumption.
          -- now apply (leaf_tmeans md d k q on df mk Hmk Hkd m).
        * exists b. split.
          -- apply shows_base; [| |exact Hb].
             ++ intros l' k' Ho' Hk'. destruct (H2 _ _ Hk') as [q' [Hq' _]]. eapply Hno; eassumption.
             ++ intros l' k' Ho' Hk'. destruct (H2 _ _ Hk') as [q' [Hq' _]]. eapply Hnod; eassumption.
          -- now apply (leaf_tmeans md d b rb on df mb Hmb Hrb m).
      + intros [k [Hs Hm]].
        assert (G : exists q, acts_as (mkLayeredKey rb rs) (fun l => on l = true) df q /\ denotes md d k q).
        { destruct Hs as [l k Ho Hk Hmax|l k Hno Edf Hk|k Hno Hnod Hk].
          - destruct (H2 _ _ Hk) as [q [Hq Hqd]]. exists q. split; [|exact Hqd]. eapply on_layer; [exact Ho|exact Hq|].
            intros l' q' Ho' Hq'. destruct (H1 _ _ Hq') as [k' [Hk' _]]. eapply Hmax; eassumption.
          - destruct (H2 _ _ Hk) as [q [Hq Hqd]]. exists q. split; [|exact Hqd]. eapply on_default; [|exact Edf|exact Hq].
            intros l' q' Ho' Hq'. destruct (H1 _ _ Hq') as [k' [Hk' _]]. eapply Hno; eassumption.
          - rewrite Hb in Hk. injection Hk as <-. exists rb. split; [|exact Hrb].
            apply (on_base (mkLayeredKey rb rs)).
            + intros l' q' Ho' Hq'. destruct (H1 _ _ Hq') as [k' [Hk' _]]. eapply Hno; eassumption.
            + intros l' q' Ho' Hq'. destruct (H1 _ _ Hq') as [k' [Hk' _]]. eapply Hnod; eassumption. }
        destruct G as [q [Ha Hqd]]. eapply tm_layered; [exact He|exact Ha|].
        now apply (leaf_tmeans md d k q on df m Hm Hqd m).
  Qed.

  Lemma nth_trefs : forall i, (i < length (lo_base lo))%nat -> exists r b, nth_error refs i = Some r /\
    nth_error (lo_base lo) i = Some b /\ denotes md d (stacked lo i b) r.
  Proof.
    intros i Hi.
    assert (Hl : length refs = length (lo_base lo)).
    { rewrite <- (flen _ _ _ _ _ Hden). unfold positions. generalize 0%nat. generalize (lo_base lo).
      induction l as [|b bs IH]; intros m; cbn; [reflexivity|]. now rewrite IH. }
    destruct (nth_error refs i) as [r|] eqn:E; [|apply nth_error_None in E; lia].
    destruct (trefs_nth _ _ E) as [b [Hb Hd]]. eauto.
  Qed.

  Lemma tstep_layout : forall sr b ie b', tstep sr refs d b ie b' <-> layout_tstep sr lo b ie b'.
  Proof.
    intros sr b ie b'. split; intros H; [destruct H as [i Hi|i r m Hi Hr Hm|i|ko|ko]|destruct H as [i Hi|i u0 m Hi Hr Hu0 Hm|i|ko|ko]]; try (constructor; assumption).
    - destruct (trefs_nth _ _ Hr) as [k [Hk Hd]]. apply (tmeans_shows _ _ _ _ _ _ Hk Hd) in Hm. destruct Hm as [u [Hu Hm]].
      eapply lts_press; [exact Hi|apply nth_error_Some; congruence|exact Hu|exact Hm].
    - destruct (nth_trefs _ Hr) as [r [u [Hr' [Hu Hd]]]]. eapply t_press; [exact Hi|exact Hr'|].
      apply (tmeans_shows _ _ _ _ _ _ Hu Hd). eauto.
  Qed.
  Lemma trun_layout : forall sr h b, trun sr (length (lo_uppers lo)) refs d h b <-> layout_trun sr lo h b.
  Proof.
    intros sr h b. split; intros H; induction H as [|h b ie b' _ IH Hs]; try constructor.
    - econstructor; [exact IH|]. now apply tstep_layout.
    - econstructor; [exact IH|]. now apply tstep_layout.
  Qed.
  Lemma tfits_layout : forall sr h, layout_fits sr lo h -> tfits sr (length (lo_uppers lo)) refs d 0 h.
  Proof.
    intros sr h [H1 H2].
    assert (Hl : length refs = length (lo_base lo)).
    { rewrite <- (flen _ _ _ _ _ Hden). unfold positions. generalize 0%nat. generalize (lo_base lo).
      induction l as [|b bs IH]; intros m; cbn; [reflexivity|]. now rewrite IH. }
    split; [intros i Hi; rewrite Hl; now apply H1|]. intros h1 ie h2 b b' E Hr Hs. split; [|now left].
    eapply H2; [exact E|now apply trun_layout|now apply tstep_layout].
  Qed.
End Board.

(** Layers of a layout. *)
Lemma typing_count : forall lo c, typing_layout lo -> layers_counted (positions lo) c ->
  cf_layer_count c = length (lo_uppers lo).
Proof.
  intros lo c [Hc [Hb [Hu Hne]]] [H1 H2].
  assert (Hall : forall k b ls, In k (positions lo) -> In (ULayered b ls) (all_parts k) -> length ls = length (lo_uppers lo)).
  { intros k b ls Hk Hp. apply In_nth_error in Hk. destruct Hk as [i Hk]. rewrite positions_nth in Hk.
    destruct (nth_error (lo_base lo) i) as [x|] eqn:Ex; [|discriminate Hk]. injection Hk as <-.
    rewrite position_plain in Hp by exact Hc. unfold stacked in Hp.
    assert (Hs : forall y, typing_key (length (lo_uppers lo)) y -> ~ In (ULayered b ls) (all_parts y)).
    { intros y [[m Hm] _] Hi. destruct Hm; cbn in Hi; destruct Hi as [Hi|[]]; discriminate Hi. }
    assert (Hx : typing_key (length (lo_uppers lo)) x) by (rewrite Forall_forall in Hb; eapply Hb, nth_error_In, Ex).
    destruct (transparent (column (lo_uppers lo) i)); [exfalso; eapply Hs; eassumption|].
    cbn [all_parts] in Hp. destruct Hp as [Hp|Hp]; [injection Hp as <- <-; unfold column; apply map_length|].
    apply in_app_or in Hp. destruct Hp as [Hp|Hp]; [exfalso; eapply Hs; eassumption|].
    apply in_flat_map in Hp. destruct Hp as [[y|] [Hy Hp]]; [|destruct Hp].
    exfalso. refine (Hs y _ Hp). apply In_nth_error in Hy. destruct Hy as [j Hj]. apply column_is in Hj.
    destruct Hj as [row [Hr Hi]]. rewrite Forall_forall in Hu. specialize (Hu _ (nth_error_In _ _ Hr)).
    rewrite Forall_forall in Hu. apply (Hu _ (nth_error_In _ _ Hi)). reflexivity. }
  destruct H2 as [H2|[k [b [ls [Hk [Hp Hl]]]]]]; [|now rewrite <- Hl; eapply Hall; eassumption].
  destruct Hne as [Hne|[i [Hi Ht]]]; [now rewrite H2, Hne|].
  destruct (nth_error (lo_base lo) i) as [b|] eqn:Eb; [|apply nth_error_None in Eb; lia].
  assert (Hin : In (position lo i b) (positions lo)).
  { apply nth_error_In with (n := i). rewrite positions_nth, Eb. reflexivity. }
  rewrite position_plain in Hin by exact Hc. unfold stacked in Hin. rewrite Ht in Hin.
  specialize (H1 _ b (column (lo_uppers lo) i) Hin (or_introl eq_refl)). unfold column in H1. rewrite map_length in H1. lia.
Qed.
