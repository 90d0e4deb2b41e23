(** Proofs for C80 and C81: what the generated tables have at a position of a layout
    without chords, whatever kinds of keys it has. *)
From Coq Require Import String.
From Verif Require Import BaseFacts Output Types Scheduler Keymap SimpleKeys Layered Automation Chorded
  Composite SpecKeymap SpecPlain SpecLayer SpecBoard Ncl NclCodegen SpecNcl NclMacroFacts NclTableFacts
  NclGenFacts NclLayoutFacts SpecNclBoard NclBoardFacts SpecNclKeys.
Import List.
Local Open Scope N_scope.
Local Open Scope list_scope.

Section Keys.
  Variables (md : automation_key -> macro -> Prop) (d : key_data) (lo : layout) (refs : list ref) (leaf : ukey macro -> Prop).
  Hypothesis Hden : Forall2 (denotes md d) (positions lo) refs.
  Hypothesis Hlay : layout_of leaf lo.
  Hypothesis Hfit : forall k, In k (kd_layered d) -> length (lk_layered k) = length (lo_uppers lo).

  Lemma key_refs_nth : forall i r, nth_error refs i = Some r ->
    exists b, nth_error (lo_base lo) i = Some b /\ denotes md d (stacked lo i b) r.
  Proof.
    intros i r H.
    assert (G : exists k, nth_error (positions lo) i = Some k /\ denotes md d k r) by exact (f2_nth _ _ _ _ _ _ _ Hden H).
    destruct G as [k [E Hk]]. rewrite positions_nth in E. destruct (nth_error (lo_base lo) i) as [b|]; [|discriminate E].
    injection E as <-. exists b. split; [reflexivity|]. rewrite position_plain in Hk by apply Hlay. exact Hk.
  Qed.
  Lemma layer_leaf : forall i j k, nth_error (column (lo_uppers lo) i) j = Some (Some k) -> leaf k.
  Proof.
    intros i j k H. apply column_is in H. destruct H as [row [Hr Hi]]. destruct Hlay as [_ [_ [Hu _]]].
    rewrite Forall_forall in Hu. specialize (Hu _ (nth_error_In _ _ Hr)). rewrite Forall_forall in Hu.
    apply (Hu _ (nth_error_In _ _ Hi)). reflexivity.
  Qed.
  Lemma resolve : forall i r, nth_error refs i = Some r -> exists b, nth_error (lo_base lo) i = Some b /\ leaf b /\
    (denotes md d b r /\ (forall on df k, shows lo i on df k <-> k = b) \/
     exists j lk, r = RLayered (LyLayered j) /\ nth_error (kd_layered d) (N.to_nat j) = Some lk /\
       length (lk_layered lk) = length (lo_uppers lo) /\ denotes md d b (lk_base lk) /\
       (forall q, In (Some q) (lk_layered lk) -> exists k, leaf k /\ denotes md d k q) /\
       (forall on df q, acts_as lk (fun l => on l = true) df q -> exists k, shows lo i on df k /\ leaf k /\ denotes md d k q) /\
       (forall on df k, shows lo i on df k -> exists q, acts_as lk (fun l => on l = true) df q /\ leaf k /\ denotes md d k q)).
  Proof.
    intros i r H. destruct (key_refs_nth i r H) as (b & Hb & Hd). exists b. split; [exact Hb|].
    assert (Hlb : leaf b). { destruct Hlay as (_ & X & _). rewrite Forall_forall in X. eapply X, nth_error_In, Hb. }
    split; [exact Hlb|]. unfold stacked in Hd. destruct (transparent (column (lo_uppers lo) i)) eqn:Et.
    - left. split; [exact Hd|]. assert (Hno : forall l k, ~ on_layer_is lo i l k) by (intros; now apply transparent_none). intros on df k. split.
      + intros Hs. destruct Hs as [l k _ Hx _|l k _ _ Hx|k _ _ Hx]; try (exfalso; eapply Hno, Hx). congruence.
      + intros ->. apply shows_base; auto.
    - right. destruct Hd as [j [rb [rs [m [-> [He [Hrb Hr]]]]]]].
      assert (Hl : length (rs ++ repeat None m) = length (lo_uppers lo)).
      { unfold entry in He. apply nth_error_In in He. apply Hfit in He. exact He. }
      pose proof (all2_len _ _ _ _ _ Hr) as Hr'. unfold column in Hr'. rewrite map_length in Hr'.
      assert (m = 0%nat) by (rewrite app_length, repeat_length in Hl; lia). subst m. cbn [repeat] in *. rewrite app_nil_r in *.
      assert (H1 : forall l q, defines (mkLayeredKey rb rs) l q -> exists k, on_layer_is lo i l k /\ denotes md d k q /\ leaf k).
      { intros l q [G1 G2]. cbn [lk_layered] in G2. destruct (proj2 (all2_nth _ _ _ _ _ _ Hr) _ G2) as [[k|] [Ek Hk]]; [|contradiction].
        exists k. split; [|split; [exact Hk|eapply layer_leaf, Ek]]. split; [exact G1|]. now apply column_is. }
      assert (H2 : forall l k, on_layer_is lo i l k -> exists q, defines (mkLayeredKey rb rs) l q /\ denotes md d k q).
      { intros l k [G1 G2]. apply column_is in G2. destruct (proj1 (all2_nth _ _ _ _ _ (N.to_nat (l - 1)) Hr) _ G2) as [[q|] [Eq Hq]]; [|contradiction].
        exists q. split; [|exact Hq]. split; [exact G1|exact Eq]. }
      exists j, (mkLayeredKey rb rs). split; [reflexivity|]. split; [exact He|]. split; [exact Hl|]. split; [exact Hrb|]. split; [|split].
      + intros q Hq. cbn [lk_layered] in Hq. apply In_nth_error in Hq. destruct Hq as [x Hx].
        destruct (H1 (N.of_nat (S x)) q) as [k [_ [Hk Hs]]]; [|eauto].
        split; [lia|]. cbn [lk_layered]. replace (N.to_nat (N.of_nat (S x) - 1)) with x by lia. exact Hx.
      + intros on df q Ha. destruct Ha as [l q Ho Hdef Hmax|l q Hno Edf Hdef|Hno Hnod].
        * destruct (H1 _ _ Hdef) as [k [Hk [Hkd Hkt]]]. exists k. split; [|auto]. eapply shows_layer; [exact Ho|exact Hk|]. intros l' k1 Ho' Hk'. destruct (H2 _ _ Hk') as [q' [Hq' _]]. eapply Hmax; eassumption.
        * destruct (H1 _ _ Hdef) as [k [Hk [Hkd Hkt]]]. exists k. split; [|auto]. eapply shows_default; [|exact Edf|exact Hk]. intros l' k1 Ho' Hk'. destruct (H2 _ _ Hk') as [q' [Hq' _]]. eapply Hno; eassumption.
        * exists b. split; [|auto]. apply shows_base; [| |exact Hb].
          -- intros l' k1 Ho' Hk'. destruct (H2 _ _ Hk') as [q' [Hq' _]]. eapply Hno; eassumption.
          -- intros l' k1 Ho' Hk'. destruct (H2 _ _ Hk') as [q' [Hq' _]]. eapply Hnod; eassumption.
      + intros on df k Hs. destruct Hs as [l k Ho Hk Hmax|l k Hno Edf Hk|k Hno Hnod Hk].
        * destruct (H2 _ _ Hk) as [q [Hq Hqd]]. exists q. split; [|split; [destruct Hk as [_ Hk]; apply column_is in Hk; eapply layer_leaf, Hk|exact Hqd]].
          eapply on_layer; [exact Ho|exact Hq|]. intros l' q' Ho' Hq'. destruct (H1 _ _ Hq') as [k1 [Hk' _]]. eapply Hmax; eassumption.
        * destruct (H2 _ _ Hk) as [q [Hq Hqd]]. exists q. split; [|split; [destruct Hk as [_ Hk]; apply column_is in Hk; eapply layer_leaf, Hk|exact Hqd]].
          eapply on_default; [|exact Edf|exact Hq]. intros l' q' Ho' Hq'. destruct (H1 _ _ Hq') as [k1 [Hk' _]]. eapply Hno; eassumption.
        * assert (k = b) as -> by congruence. exists rb. split; [|auto]. apply (on_base (mkLayeredKey rb rs)).
          -- intros l' q' Ho' Hq'. destruct (H1 _ _ Hq') as [k1 [Hk' _]]. eapply Hno; eassumption.
          -- intros l' q' Ho' Hq'. destruct (H1 _ _ Hq') as [k1 [Hk' _]]. eapply Hnod; eassumption.
  Qed.
  Lemma key_refs_length : length refs = length (lo_base lo).
  Proof.
    rewrite <- (flen _ _ _ _ _ Hden). unfold positions. generalize 0%nat. generalize (lo_base lo).
    induction l as [|b bs IH]; intros m; cbn; [reflexivity|]. now rewrite IH.
  Qed.
End Keys.

Lemma layout_count : forall leaf lo c, layout_of leaf lo -> (forall k b ls, leaf k -> ~ In (ULayered b ls) (all_parts k)) ->
  layers_counted (positions lo) c -> cf_layer_count c = length (lo_uppers lo).
Proof.
  intros leaf lo c [Hc [Hb [Hu Hne]]] Hs [H1 H2].
  assert (Hall : forall k b ls, In k (positions lo) -> In (ULayered b ls) (all_parts k) -> length ls = length (lo_uppers lo)).
  { intros k b ls Hk Hp. apply In_nth_error in Hk. destruct Hk as [i Hk]. rewrite positions_nth in Hk.
    destruct (nth_error (lo_base lo) i) as [x|] eqn:Ex; [|discriminate Hk]. injection Hk as <-.
    rewrite position_plain in Hp by exact Hc. unfold stacked in Hp.
    assert (Hx : leaf x) by (rewrite Forall_forall in Hb; eapply Hb, nth_error_In, Ex).
    destruct (transparent (column (lo_uppers lo) i)); [exfalso; eapply Hs; eassumption|].
    cbn [all_parts] in Hp. destruct Hp as [Hp|Hp]; [injection Hp as <- <-; unfold column; apply map_length|].
    apply in_app_or in Hp. destruct Hp as [Hp|Hp]; [exfalso; eapply Hs; eassumption|].
    apply in_flat_map in Hp. destruct Hp as [[y|] [Hy Hp]]; [|destruct Hp].
    exfalso. refine (Hs y _ _ _ Hp). apply In_nth_error in Hy. destruct Hy as [j Hj]. apply column_is in Hj.
    destruct Hj as [row [Hr Hi]]. rewrite Forall_forall in Hu. specialize (Hu _ (nth_error_In _ _ Hr)).
    rewrite Forall_forall in Hu. apply (Hu _ (nth_error_In _ _ Hi)). reflexivity. }
  destruct H2 as [H2|[k [b [ls [Hk [Hp Hl]]]]]]; [|now rewrite <- Hl; eapply Hall; eassumption].
  destruct Hne as [Hne|[i [Hi Ht]]]; [now rewrite H2, Hne|].
  destruct (nth_error (lo_base lo) i) as [b|] eqn:Eb; [|apply nth_error_None in Eb; lia].
  assert (Hin : In (position lo i b) (positions lo)).
  { apply nth_error_In with (n := i). rewrite positions_nth, Eb. reflexivity. }
  rewrite position_plain in Hin by exact Hc. unfold stacked in Hin. rewrite Ht in Hin.
  specialize (H1 _ b (column (lo_uppers lo) i) Hin (or_introl eq_refl)). unfold column in H1. rewrite map_length in H1. lia.
Qed.

(** A key of C65 is none of the keys below. *)
Lemma simple_no_layers : forall n k b ls, simple_key n k -> ~ In (ULayered b ls) (all_parts k).
Proof. intros n k b ls [[m Hm] _] Hi. destruct Hm; cbn in Hi; destruct Hi as [Hi|[]]; discriminate Hi. Qed.
Lemma simple_ref : forall md d n k r, simple_key n k -> denotes md d k r ->
  (forall q, r <> RAutomation q) /\ (forall q, r <> RTapDance q) /\ (forall j, r <> RLayered (LyLayered j)).
Proof. intros md d n k r [[m Hm] _] Hd. destruct Hm; cbn in Hd; try (subst r; repeat split; discriminate); destruct Hd as [i [-> _]]; repeat split; discriminate. Qed.
