(** Proofs for C72: the keyboard of the generated tables is that of the layout, with
    chords. *)
From Coq Require Import String.
From Verif Require Import BaseFacts Output Types Scheduler Keymap SimpleKeys TapHold TapDance Sticky Layered Automation Chorded
  Composite SpecKeymap SpecPlain SpecLayer SpecBoard BoardFacts Ncl NclCodegen SpecNcl NclFacts NclMacroFacts NclTableFacts
  NclGenFacts NclLayoutFacts SpecNclBoard NclBoardFacts SpecTapBoard SpecChord SpecChordBoard PropertiesChordBoard SpecNclChord.
Import List.
Local Open Scope N_scope.
Local Open Scope list_scope.

(** The layout without its chords is one of C65. *)
Definition unchorded (lo : layout) : layout := mkLayout (lo_base lo) (lo_uppers lo) [].
Lemma unchorded_simple lo : chord_layout lo -> simple_layout (unchorded lo).
Proof. intros (_ & A & B & C). split; [reflexivity|]. auto. Qed.
Lemma unchorded_shows lo i on df k : shows (unchorded lo) i on df k <-> shows lo i on df k.
Proof.
  assert (E : forall l k, on_layer_is (unchorded lo) i l k <-> on_layer_is lo i l k) by (intros; reflexivity).
  split; intros [l k' A B C|l k' A B C|k' A B C];
    [eapply shows_layer|eapply shows_default|eapply shows_base|eapply shows_layer|eapply shows_default|eapply shows_base]; eauto.
Qed.

(** The chords that a position leads. *)
Lemma led_by_in i cs : forall n id k, In (id, k) (led_by i n cs) <->
  exists j rest, id = n + N.of_nat j /\ nth_error cs j = Some (N.of_nat i :: rest, k).
Proof.
  induction cs as [|[keys k0] cs IH]; intros n id k; cbn [led_by].
  - split; [intros []|]. intros (j & rest & _ & E). destruct j; discriminate.
  - assert (G : In (id, k) (led_by i (n + 1) cs) <-> exists j rest, id = n + N.of_nat (S j) /\ nth_error ((keys, k0) :: cs) (S j) = Some (N.of_nat i :: rest, k)).
    { rewrite IH. split; intros (j & rest & A & B); exists j, rest; (split; [lia|exact B]). }
    destruct keys as [|a keys]; cbn [first_in fst snd].
    + rewrite G. split; [intros (j & rest & A & B); eauto|]. intros (j & rest & A & B). destruct j as [|j]; [discriminate|eauto].
    + destruct (N.eqb_spec a (N.of_nat i)) as [->|Hne].
      * cbn [In]. rewrite G. split.
        -- intros [X|(j & rest & A & B)]; [|eauto]. injection X as <- <-. exists 0%nat, keys. split; [lia|reflexivity].
        -- intros (j & rest & A & B). destruct j as [|j]; [|eauto]. left. cbn in B. injection B as -> ->. f_equal. lia.
      * rewrite G. split; [intros (j & rest & A & B); eauto|]. intros (j & rest & A & B). destruct j as [|j]; [|eauto]. cbn in B. congruence.
Qed.
Lemma led_by_find i cs : forall n j, n <= j -> forall e, find (fun e : N * ukey macro => fst e =? j) (led_by i n cs) = Some e ->
  exists rest, nth_error cs (N.to_nat (j - n)) = Some (N.of_nat i :: rest, snd e).
Proof.
  intros n j Hj [id k] E. apply find_some in E as (A & B). cbn in B. apply N.eqb_eq in B as ->. apply led_by_in in A as (x & rest & Hx & E).
  exists rest. now replace (N.to_nat (j - n)) with x by lia.
Qed.
(** References in step with the keys they denote. *)
Lemma find_keys (R : ukey macro -> ref -> Prop) j : forall (cs : list (N * ukey macro)) (rs : list (chord_id * ref)),
  all2 (fun e f => match e, f with (n, k), (n', r) => n = n' /\ R k r end) cs rs ->
  match find (fun e => fst e =? j) cs, find (fun f => fst f =? j) rs with
  | Some e, Some f => R (snd e) (snd f)
  | None, None => True
  | _, _ => False
  end.
Proof.
  induction cs as [|[n k] cs IH]; intros [|[n' r] rs] H; cbn in H |- *; try contradiction; [exact Logic.I|].
  destruct H as ((<- & Hr) & H). destruct (n =? j); [exact Hr|]. now apply IH.
Qed.
Lemma all2_in {A B} (R : A -> B -> Prop) : forall l m y, all2 R l m -> In y m -> exists x, In x l /\ R x y.
Proof.
  induction l as [|x l IH]; intros [|z m] y H Hy; cbn in H; try contradiction. destruct H as (H1 & H2), Hy as [->|Hy].
  - exists x. split; [now left|exact H1].
  - destruct (IH _ _ H2 Hy) as (x' & X & Y). exists x'. split; [now right|exact Y].
Qed.

Lemma in_chord_part lo i : existsb (part_of i) (lo_chords lo) = true <-> in_chord lo (N.of_nat i).
Proof.
  rewrite existsb_exists. unfold in_chord, part_of. split.
  - intros ((keys & k) & A & B). exists keys, k. split; [exact A|]. apply existsb_exists in B as (j & X & Y). apply N.eqb_eq in Y. now subst.
  - intros (keys & k & A & B). exists (keys, k). split; [exact A|]. apply existsb_exists. exists (N.of_nat i). split; [exact B|apply N.eqb_refl].
Qed.

Section Board.
  Variables (md : automation_key -> macro -> Prop) (d : key_data) (lo : layout) (refs : list ref).
  Hypothesis Hden : Forall2 (denotes md d) (positions lo) refs.
  Hypothesis Hcl : chord_layout lo.
  Hypothesis Hfit : forall k, In k (kd_layered d) -> length (lk_layered k) = length (lo_uppers lo).
  Local Notation chords := (map fst (lo_chords lo)).

  Lemma chord_refs_nth : forall i r, nth_error refs i = Some r ->
    exists b, nth_error (lo_base lo) i = Some b /\ denotes md d (position lo i b) r.
  Proof.
    intros i r H. destruct (f2_nth _ _ _ _ _ _ _ Hden H) as [k [E Hk]]. rewrite positions_nth in E.
    destruct (nth_error (lo_base lo) i) as [b|]; [|discriminate E]. injection E as <-. eauto.
  Qed.
  Lemma nth_chord_refs : forall i, (i < length (lo_base lo))%nat -> exists r b, nth_error refs i = Some r /\
    nth_error (lo_base lo) i = Some b /\ denotes md d (position lo i b) r.
  Proof.
    intros i Hi.
    assert (Hl : length refs = length (lo_base lo)).
    { rewrite <- (flen _ _ _ _ _ Hden). unfold positions. generalize 0%nat. generalize (lo_base lo).
      induction l as [|b bs IH]; intros m; cbn; [reflexivity|]. now rewrite IH. }
    destruct (nth_error refs i) as [r|] eqn:E; [|apply nth_error_None in E; lia].
    destruct (chord_refs_nth _ _ E) as [b [Hb Hd]]. eauto.
  Qed.

  (** What the key at a position is when it is not part of a chord. *)
  Lemma passes i b r on df m : nth_error (lo_base lo) i = Some b -> denotes md d (stacked lo i b) r ->
    (means d on df r m <-> exists k, shows lo i on df k /\ key_means k m).
  Proof.
    intros Hb Hd. rewrite (means_shows md d (unchorded lo) (unchorded_simple _ Hcl) Hfit i b r on df m Hb Hd).
    split; intros (k & A & B); exists k; (split; [now apply unchorded_shows|exact B]).
  Qed.
  Lemma stacked_board i b r h : nth_error (lo_base lo) i = Some b -> denotes md d (stacked lo i b) r ->
    board_key (length (lo_uppers lo)) d (S h) r.
  Proof.
    intros Hb Hd. pose proof (unchorded_simple _ Hcl) as Hs.
    assert (Hsb : simple_key (length (lo_uppers lo)) b) by exact (base_simple (unchorded lo) Hs _ _ Hb).
    destruct (transparent (column (lo_uppers lo) i)) eqn:Et.
    - unfold stacked in Hd. rewrite Et in Hd. eapply leaf_board; eassumption.
    - destruct (stacked_entry md d (unchorded lo) Hs Hfit _ _ _ Et Hd) as [j [rb [rs [-> [He [Hrb [Hl [H1 _]]]]]]]].
      eapply bk_layered; [exact He|exact Hl|eapply leaf_board; eassumption|].
      intros q Hq. cbn [lk_layered] in Hq. apply In_nth_error in Hq. destruct Hq as [x Hx].
      destruct (H1 (N.of_nat (S x)) q) as [k [_ [Hk Hsk]]].
      { split; [lia|]. cbn [lk_layered]. replace (N.to_nat (N.of_nat (S x) - 1)) with x by lia. exact Hx. }
      eapply leaf_board; eassumption.
  Qed.

  (** A position is a key with chords, another key of chords, or a key without. *)
  Lemma position_cases i b r : denotes md d (position lo i b) r ->
    (exists q rs rp, r = RChorded (ChChorded q) /\ nth_error (kd_chorded d) (N.to_nat q) = Some (mkChordedKey rs rp)
       /\ all2 (fun e f => match e, f with (n, k), (n', r) => n = n' /\ denotes md d k r end) (led_by i 0 (lo_chords lo)) rs
       /\ denotes md d (stacked lo i b) rp /\ in_chord lo (N.of_nat i))
    \/ (exists q rp, r = RChorded (ChAuxiliary q) /\ nth_error (kd_chorded_aux d) (N.to_nat q) = Some (mkChordedAux rp)
       /\ denotes md d (stacked lo i b) rp /\ in_chord lo (N.of_nat i) /\ led_by i 0 (lo_chords lo) = [])
    \/ (denotes md d (stacked lo i b) r /\ ~ in_chord lo (N.of_nat i)).
  Proof.
    intros H. unfold position in H. destruct (led_by i 0 (lo_chords lo)) as [|[id k] cs] eqn:El.
    - destruct (existsb (part_of i) (lo_chords lo)) eqn:Ep.
      + destruct H as (q & rp & -> & He & Hd). right. left. exists q, rp. split; [reflexivity|]. split; [exact He|]. split; [exact Hd|].
        split; [now apply in_chord_part|reflexivity].
      + right. right. split; [exact H|]. rewrite <- in_chord_part. congruence.
    - destruct H as (q & rs & rp & -> & He & Ha & Hd). left. exists q, rs, rp. split; [reflexivity|]. split; [exact He|]. split; [exact Ha|]. split; [exact Hd|].
      assert (Hin : In (id, k) (led_by i 0 (lo_chords lo))) by (rewrite El; now left).
      apply led_by_in in Hin as (j & rest & _ & E). exists (N.of_nat i :: rest), k. split; [eapply nth_error_In, E|now left].
  Qed.
  Lemma stacked_not_chorded i b r q : nth_error (lo_base lo) i = Some b -> denotes md d (stacked lo i b) r -> r <> RChorded q.
  Proof.
    intros Hb Hd ->. pose proof (stacked_board i b _ 0 Hb Hd) as H. inversion H; subst. contradiction.
  Qed.

  Lemma chord_ref_board : forall r, In r refs -> chord_board_key d (length (lo_uppers lo)) 2 r.
  Proof.
    intros r H. apply In_nth_error in H. destruct H as [i H]. apply chord_refs_nth in H. destruct H as [b [Hb Hd]].
    destruct (position_cases _ _ _ Hd) as [(q & rs & rp & -> & He & Ha & Hp & _)|[(q & rp & -> & He & Hp & _)|(Hp & _)]].
    - eapply (cbk_chord d _ 1 _ rs rp); [exact He|exact (stacked_board _ _ _ 0 Hb Hp)|].
      intros id r Hr. destruct (all2_in _ _ _ _ Ha Hr) as ((id' & k) & Hk & <- & Hkd). apply led_by_in in Hk as (j & rest & _ & E).
      eapply leaf_board; [|exact Hkd]. destruct Hcl as (Hc & _). rewrite Forall_forall in Hc. exact (Hc _ (nth_error_In _ _ E)).
    - eapply (cbk_chord d _ 1 _ [] rp); [split; [exact He|reflexivity]|exact (stacked_board _ _ _ 0 Hb Hp)|]. intros id r [].
    - apply cbk_key. exact (stacked_board _ _ _ 1 Hb Hp).
  Qed.

  Lemma in_chords id ch : nth_error chords id = Some ch <-> exists k, nth_error (lo_chords lo) id = Some (ch, k).
  Proof.
    rewrite nth_error_map. destruct (nth_error (lo_chords lo) id) as [[ch' k]|]; cbn; [|split; [discriminate|intros (k & E); discriminate]].
    split; [intros E; injection E as <-; eauto|intros (k' & E); injection E as <- _; reflexivity].
  Qed.
  Lemma means_not_chorded on df q m : ~ means d on df (RChorded q) m.
  Proof. intros H. inversion H; subst. contradiction. Qed.

  Lemma chord_mean_layout i b r on df y m : nth_error (lo_base lo) (N.to_nat i) = Some b -> denotes md d (position lo (N.to_nat i) b) r ->
    (forall z id, y = Some z -> part z = Some id -> exists ch, nth_error chords id = Some ch /\ In i ch) ->
    (chord_mean d chords on df i r y m <-> layout_mean lo on df i y m).
  Proof.
    intros Hb Hd Hy. pose proof (position_cases _ _ _ Hd) as Hc. rewrite N2Nat.id in Hc.
    assert (Hin : forall z id, y = Some z -> part z = Some id -> in_chord lo i).
    { intros z id E1 E2. destruct (Hy z id E1 E2) as (ch & A & B). apply in_chords in A as (k & A). exists ch, k. split; [eapply nth_error_In, A|exact B]. }
    destruct Hc as [(q & rs & rp & -> & He & Ha & Hp & Hi)|[(q & rp & -> & He & Hp & Hi & Hl)|(Hp & Hi)]].
    - assert (Hk : forall id rest k, nth_error (lo_chords lo) id = Some (i :: rest, k) ->
        exists r, option_map snd (find (fun e => fst e =? N.of_nat id) rs) = Some r /\ forall on df m0, means d on df r m0 <-> key_means k m0).
      { intros id rest k E. pose proof (find_keys (denotes md d) (N.of_nat id) _ _ Ha) as X.
        destruct (find _ (led_by _ _ _)) as [e|] eqn:Ef.
        - destruct (find (fun f : N * ref => fst f =? N.of_nat id) rs) as [f|]; [|contradiction]. apply led_by_find in Ef as (rest' & E'); [|lia]. rewrite N.sub_0_r, Nat2N.id, N2Nat.id, E in E'. injection E' as _ Ek; subst k.
          exists (snd f). split; [reflexivity|]. intros on' df' m0. destruct Hcl as (Hs & _). rewrite Forall_forall in Hs. destruct (Hs _ (nth_error_In _ _ E)) as ((m1 & Hm1) & _).
          exact (leaf_means md d (snd e) (snd f) on' df' m1 Hm1 X m0).
        - exfalso. assert (Y : In (N.of_nat id, k) (led_by (N.to_nat i) 0 (lo_chords lo))) by (apply led_by_in; exists id, rest; split; [lia|now rewrite N2Nat.id]).
          pose proof (find_none _ _ Ef _ Y) as Z. cbn in Z. now rewrite N.eqb_refl in Z. }
      split.
      + intros H. inversion H as [? ? Hm|? ? ? z ? Hq Hz Hm|? ? ? z id rest r0 ? Hq Hz Hn Hf Hm|? ? ? z id first rest Hq Hz Hn Hne|?|?]; subst.
        * now apply means_not_chorded in Hm.
        * cbn in Hq. rewrite He in Hq. injection Hq as <- <-. apply (passes _ _ _ _ _ _ Hb Hp) in Hm as (k & A & B). eapply lm_own; eassumption.
        * rewrite He in Hq. injection Hq as <- <-. apply in_chords in Hn as (k & Hn). destruct (Hk _ _ _ Hn) as (r1 & A & B). rewrite Hf in A. injection A as <-.
          eapply lm_first; [exact Hz|exact Hn|now apply B in Hm].
        * destruct (Hy z id eq_refl Hz) as (ch & A & B). assert (ch = first :: rest) by (eapply (@f_equal _ _ (fun o => match o with Some x => x | None => [] end) (Some _) (Some _)); exact (eq_trans (eq_sym A) Hn)). subst ch. apply in_chords in Hn as (k & Hn).
          eapply lm_other; [exact Hz|exact Hn|exact Hne|]. destruct B as [B|B]; [contradiction|exact B].
      + intros H. destruct H as [k m Hno _ _|z k m _ Hz Hsh Hm|z id rest k m Hz Hn Hm|z id first rest k Hz Hn Hne Hr].
        * contradiction.
        * eapply cm_own; [exact He|exact Hz|]. apply (passes _ _ _ _ _ _ Hb Hp). eauto.
        * destruct (Hk _ _ _ Hn) as (r1 & A & B). eapply cm_first; [exact He|exact Hz|apply in_chords; eauto|exact A|now apply B].
        * eapply cm_other; [exact He|exact Hz|apply in_chords; eauto|exact Hne].
    - assert (Hno : forall id rest k, nth_error (lo_chords lo) id <> Some (i :: rest, k)).
      { intros id rest k E. assert (Y : In (N.of_nat id, k) (led_by (N.to_nat i) 0 (lo_chords lo))) by (apply led_by_in; exists id, rest; split; [lia|now rewrite N2Nat.id]).
        rewrite Hl in Y. destruct Y. }
      split.
      + intros H. inversion H as [? ? Hm|? ? ? z ? Hq Hz Hm|?|?|? ? z id Hq Hz|?]; subst.
        * now apply means_not_chorded in Hm.
        * cbn in Hq. destruct Hq as (Hq & ->). rewrite He in Hq. injection Hq as <-. apply (passes _ _ _ _ _ _ Hb Hp) in Hm as (k & A & B). eapply lm_own; eassumption.
        * destruct (Hy z id eq_refl Hz) as (ch & A & B). apply in_chords in A as (k & A). destruct ch as [|a ch]; [destruct B|].
          assert (a <> i) by (intros ->; exact (Hno _ _ _ A)). eapply lm_other; [exact Hz|exact A|assumption|]. destruct B as [B|B]; [contradiction|exact B].
      + intros H. destruct H as [k m Hn _ _|z k m _ Hz Hsh Hm|z id rest k m Hz Hn Hm|z id first rest k Hz Hn Hne Hr].
        * contradiction.
        * eapply cm_own; [split; [exact He|reflexivity]|exact Hz|]. apply (passes _ _ _ _ _ _ Hb Hp). eauto.
        * now apply Hno in Hn.
        * eapply cm_auxiliary; eassumption.
    - assert (Hr : forall q, r <> RChorded q) by (intros q; eapply stacked_not_chorded; eassumption).
      assert (Hmean : forall y0 m0, chord_mean d chords on df i r y0 m0 -> y0 = None /\ means d on df r m0).
      { intros y0 m0 H. destruct H as [r m0 Hm|q keys pass z m0 _ _ _|q keys pass z id rest r0 m0 _ _ _ _ _|q keys pass z id first rest _ _ _ _|q pass z id _ _|q k r z m0 Hk Ha H];
          [split; [reflexivity|exact Hm]|now elim (Hr q)|now elim (Hr (ChChorded q))|now elim (Hr (ChChorded q))|now elim (Hr (ChAuxiliary q))|].
        pose proof (stacked_board _ _ _ 0 Hb Hp) as Hbk. inversion Hbk as [? ? ? X|?|?|? ? k' Hk' Hl' Hbase Hlay]; subst; [contradiction|]. rewrite Hk in Hk'. injection Hk' as <-.
        assert (Hbk0 : board_key (length (lo_uppers lo)) d 0 r).
        { destruct Ha as [l r0 _ (_ & Hx) _|l r0 _ _ (_ & Hx)|_ _]; [eapply Hlay, nth_error_In, Hx|eapply Hlay, nth_error_In, Hx|exact Hbase]. }
        destruct H as [r m0 Hm|? ? ? ? ? _ _ _|? ? ? ? ? ? ? ? _ _ _ _ _|? ? ? ? ? ? ? _ _ _ _|? ? ? ? _ _|? ? ? ? ? _ _ _].
        - split; [reflexivity|]. eapply means_layered; eassumption.
        - inversion Hbk0; subst; contradiction.
        - inversion Hbk0; subst; contradiction.
        - inversion Hbk0; subst; contradiction.
        - inversion Hbk0; subst; contradiction.
        - inversion Hbk0; subst; contradiction. }
      split.
      + intros H. apply Hmean in H as (-> & Hm). apply (passes _ _ _ _ _ _ Hb Hp) in Hm as (k & A & B). eapply lm_key; eassumption.
      + intros H. destruct H as [k m _ Hsh Hm|z k m Hi' _ _ _|z id rest k m Hz Hn Hm|z id first rest k Hz Hn Hne Hr'].
        * apply cm_key. apply (passes _ _ _ _ _ _ Hb Hp). eauto.
        * contradiction.
        * elim Hi. eapply Hin; [reflexivity|exact Hz].
        * elim Hi. eapply Hin; [reflexivity|exact Hz].
  Qed.

  Lemma suits_chord timing before i later c z id : suits chords timing before i later c z -> part z = Some id ->
    exists ch, nth_error chords id = Some ch /\ In i ch.
  Proof.
    intros H Hz. destruct z as [id'| |x|x]; cbn in Hz; try discriminate; [injection Hz as ->| |].
    - destruct (C71_joins _ _ _ _ _ _ _ H) as (ch & A & B & _). eauto.
    - destruct (C71_chord_goes_down _ _ _ _ _ _ _ _ H Hz) as (ch & _ & _ & A & _ & B & _). eauto.
    - destruct (C71_chord_goes_down _ _ _ _ _ _ _ _ H Hz) as (ch & _ & _ & A & _ & B & _). eauto.
  Qed.

  Lemma chord_board_layout : forall timing h later ys c cs,
    chord_run d chords (length (lo_uppers lo)) refs timing h later ys c cs <-> layout_chord_run lo timing h later ys c cs.
  Proof.
    intros timing h later ys c cs. split; intros H; induction H as [later|h ie later ys c cs ys' c' cs' _ IH Hs].
    - constructor.
    - econstructor; [exact IH|]. destruct Hs as [i r y m Hi Hr Hm Ha|i b' Hs|ie b' Hie Hs].
      + destruct (chord_refs_nth _ _ Hr) as [k [Hk Hd]]. eapply lh_press; [exact Hi|apply nth_error_Some; congruence| |exact Ha].
        eapply chord_mean_layout; [exact Hk|exact Hd| |exact Hm]. intros z id -> Hz. exact (suits_chord _ _ _ _ _ _ _ (Ha z eq_refl) Hz).
      + apply lh_release. inversion Hs; subst; econstructor; eassumption.
      + apply lh_virtual; [exact Hie|]. destruct Hs; try (econstructor; eassumption); now destruct (Hie i).
    - constructor.
    - econstructor; [exact IH|]. destruct Hs as [i y m Hi Hl Hm Ha|i b' Hs|ie b' Hie Hs].
      + destruct (nth_chord_refs _ Hl) as [r [u [Hr [Hu Hd]]]]. eapply ch_press; [exact Hi|exact Hr| |exact Ha].
        eapply chord_mean_layout; [exact Hu|exact Hd| |exact Hm]. intros z id -> Hz. exact (suits_chord _ _ _ _ _ _ _ (Ha z eq_refl) Hz).
      + apply ch_release. inversion Hs; subst; econstructor; eassumption.
      + apply ch_virtual; [exact Hie|]. destruct Hs; try (econstructor; eassumption); now destruct (Hie i).
  Qed.
End Board.

Lemma chord_count : forall lo c, chord_layout lo -> layers_counted (positions lo) c ->
  cf_layer_count c = length (lo_uppers lo).
Proof.
  intros lo c [Hch [Hb [Hu Hne]]] [H1 H2].
  assert (Hs : forall b ls y, simple_key (length (lo_uppers lo)) y -> ~ In (ULayered b ls) (all_parts y)).
  { intros b ls y [[m Hm] _] Hi. destruct Hm; cbn in Hi; destruct Hi as [Hi|[]]; discriminate Hi. }
  assert (Hst : forall i x b ls, nth_error (lo_base lo) i = Some x -> In (ULayered b ls) (all_parts (stacked lo i x)) -> length ls = length (lo_uppers lo)).
  { intros i x b ls Ex Hp. unfold stacked in Hp.
    assert (Hx : simple_key (length (lo_uppers lo)) x) by (rewrite Forall_forall in Hb; eapply Hb, nth_error_In, Ex).
    destruct (transparent (column (lo_uppers lo) i)); [exfalso; eapply Hs; eassumption|].
    cbn [all_parts] in Hp. destruct Hp as [Hp|Hp]; [injection Hp as <- <-; unfold column; apply map_length|].
    apply in_app_or in Hp. destruct Hp as [Hp|Hp]; [exfalso; eapply Hs; eassumption|].
    apply in_flat_map in Hp. destruct Hp as [[y|] [Hy Hp]]; [|destruct Hp].
    exfalso. refine (Hs _ _ y _ Hp). apply In_nth_error in Hy. destruct Hy as [j Hj]. apply column_is in Hj.
    destruct Hj as [row [Hr Hi]]. rewrite Forall_forall in Hu. specialize (Hu _ (nth_error_In _ _ Hr)).
    rewrite Forall_forall in Hu. apply (Hu _ (nth_error_In _ _ Hi)). reflexivity. }
  assert (Hsub : forall i x z, In z (all_parts (stacked lo i x)) -> In z (all_parts (position lo i x))).
  { intros i x z Hz. unfold position. destruct (led_by i 0 (lo_chords lo)) as [|e es].
    - destruct (existsb _ _); [right; exact Hz|exact Hz].
    - right. apply in_or_app. right. exact Hz. }
  assert (Hall : forall k b ls, In k (positions lo) -> In (ULayered b ls) (all_parts k) -> length ls = length (lo_uppers lo)).
  { intros k b ls Hk Hp. apply In_nth_error in Hk. destruct Hk as [i Hk]. rewrite positions_nth in Hk.
    destruct (nth_error (lo_base lo) i) as [x|] eqn:Ex; [|discriminate Hk]. injection Hk as <-.
    apply (Hst i x b ls Ex). unfold position in Hp. destruct (led_by i 0 (lo_chords lo)) as [|e es] eqn:El.
    - destruct (existsb _ _); [|exact Hp]. cbn [all_parts] in Hp. destruct Hp as [Hp|Hp]; [discriminate Hp|exact Hp].
    - cbn [all_parts] in Hp. destruct Hp as [Hp|Hp]; [discriminate Hp|]. apply in_app_or in Hp as [Hp|Hp]; [|exact Hp].
      exfalso. apply in_flat_map in Hp as ((id & y) & Hy & Hp). rewrite <- El in Hy. apply led_by_in in Hy as (j & rest & _ & E).
      refine (Hs _ _ y _ Hp). rewrite Forall_forall in Hch. exact (Hch _ (nth_error_In _ _ E)). }
  destruct H2 as [H2|[k [b [ls [Hk [Hp Hl]]]]]]; [|now rewrite <- Hl; eapply Hall; eassumption].
  destruct Hne as [Hne|[i [Hi Ht]]]; [now rewrite H2, Hne|].
  destruct (nth_error (lo_base lo) i) as [b|] eqn:Eb; [|apply nth_error_None in Eb; lia].
  assert (Hin : In (position lo i b) (positions lo)).
  { apply nth_error_In with (n := i). rewrite positions_nth, Eb. reflexivity. }
  specialize (H1 _ b (column (lo_uppers lo) i) Hin). unfold column in H1 at 2. rewrite map_length in H1.
  specialize (H1 (Hsub i b _ ltac:(unfold stacked; rewrite Ht; now left))). lia.
Qed.
