(** Proofs about layers and chords in keymap.ncl (C63): the keys made from them
    are the positions of the layout. *)
From Coq Require Import String Ascii Permutation.
From Verif Require Import BaseFacts Output Types SimpleKeys TapHold TapDance Sticky Layered Automation Chorded
  Composite Ncl NclCodegen SpecNcl NclFacts NclMacroFacts NclJsonFacts NclTableFacts NclGenFacts.
Import List.
Local Open Scope string_scope.
Local Open Scope N_scope.
Local Open Scope list_scope.

(** ** Words *)

Lemma space_white : forall c, is_space c = true <-> white c.
Proof.
  intros c. unfold is_space, white. cbn [In].
  rewrite orb_true_iff, andb_true_iff, Nat.eqb_eq, !Nat.leb_le. lia.
Qed.

Definition words_from (b : bool) (s : string) : list string :=
  filter (fun w => negb (String.eqb w EmptyString)) (split_spaces (collapse b s)).

Lemma words_space : forall b c s, white c -> words_from b (String c s) = words_from true s.
Proof.
  intros b c s Hc. apply space_white in Hc. unfold words_from. cbn [collapse]. rewrite Hc.
  destruct b; [reflexivity|]. reflexivity.
Qed.
Lemma words_any : forall b s, words_from b s = words_from false s.
Proof.
  intros [] [|c s]; try reflexivity. unfold words_from. cbn [collapse]. destruct (is_space c); reflexivity.
Qed.

Lemma words_blank : forall s t, blank s -> words_from false (s ++ t)%string = words_from false t.
Proof.
  unfold blank. induction s as [|c s IH]; intros t H; [reflexivity|]. inversion H; subst.
  cbn [String.append]. rewrite words_space by assumption. rewrite words_any. now apply IH.
Qed.

Lemma collapse_word : forall w t, Forall (fun c => ~ white c) (chars w) ->
  collapse false (w ++ t)%string = (w ++ collapse false t)%string.
Proof.
  induction w as [|c w IH]; intros t H; [reflexivity|]. inversion H; subst. cbn [String.append collapse].
  assert (is_space c = false) as ->.
  { destruct (is_space c) eqn:E; [|reflexivity]. now apply space_white in E. }
  now rewrite IH.
Qed.
Lemma split_word : forall w t, Forall (fun c => ~ white c) (chars w) ->
  exists h r, split_spaces t = h :: r /\ split_spaces (w ++ t)%string = (w ++ h)%string :: r.
Proof.
  induction w as [|c w IH]; intros t H.
  - cbn [String.append]. destruct t as [|c t]; [exists EmptyString, []; auto|]. cbn [split_spaces].
    destruct (Ascii.eqb c " "); [eauto|]. destruct (split_spaces t); eauto.
  - inversion H; subst. destruct (IH t) as [h [r [E1 E2]]]; [assumption|].
    exists h, r. split; [exact E1|]. cbn [String.append split_spaces].
    destruct (Ascii.eqb_spec c " ") as [->|_].
    + exfalso. apply H2. unfold white. cbn. auto 10.
    + now rewrite E2.
Qed.

Lemma string_app_nil : forall s, (s ++ "")%string = s.
Proof. induction s as [|c s IH]; [reflexivity|]. cbn. now rewrite IH. Qed.

Lemma words_word : forall w c s, word w -> white c ->
  words_from false (w ++ String c s)%string = w :: words_from false s.
Proof.
  intros w c s [Hne Hw] Hc. unfold words_from. rewrite collapse_word by assumption.
  destruct (split_word w (collapse false (String c s)) Hw) as [h [r [E1 E2]]]. rewrite E2.
  cbn [collapse] in E1. rewrite (proj2 (space_white c) Hc) in E1. cbn [split_spaces] in E1.
  change (Ascii.eqb " " " ") with true in E1. cbv iota in E1. injection E1 as <- <-.
  rewrite string_app_nil. cbn [filter].
  assert ((w =? "")%string = false) as ->.
  { destruct (String.eqb_spec w ""); [contradiction|reflexivity]. }
  cbn [negb]. f_equal. change (words_from true s = words_from false s). apply words_any.
Qed.

Lemma words_last : forall w, word w -> words_from false w = [w].
Proof.
  intros w [Hne Hw]. unfold words_from. rewrite <- (string_app_nil w) at 1. rewrite collapse_word by assumption.
  destruct (split_word w "" Hw) as [h [r [E1 E2]]]. cbn [collapse]. rewrite E2. cbn in E1. injection E1 as <- <-.
  rewrite string_app_nil. cbn [filter].
  assert ((w =? "")%string = false) as ->.
  { destruct (String.eqb_spec w ""); [contradiction|reflexivity]. }
  reflexivity.
Qed.

Lemma spells_words : forall s ws, spells s ws -> words s = ws.
Proof.
  intros s ws H. change (words_from false s = ws).
  induction H as [s Hs|s w Hs Hw|s w t w' ws Hs Hw Ht Hne _ IH].
  - rewrite <- (string_app_nil s). now rewrite words_blank.
  - rewrite words_blank by assumption. now apply words_last.
  - rewrite words_blank by assumption. destruct t as [|c t]; [contradiction|]. inversion Ht; subst.
    cbn [String.append]. rewrite words_word by assumption. f_equal.
    rewrite words_blank; [reflexivity|assumption].
Qed.

Lemma layer_array : forall K l vs, layer_values K l vs -> layer_as_array_of_keys K l = Ok vs.
Proof.
  intros K l vs H. destruct H as [vs|s ws vs Hs H]; [reflexivity|]. cbn [layer_as_array_of_keys].
  rewrite (spells_words _ _ Hs). eapply f2_map_res; [|exact H]. intros w v ->. reflexivity.
Qed.

(** ** Keys *)

Lemma written_mono : forall M (mw : val -> M -> Prop) n v k, written mw n v k ->
  forall m, (n <= m)%nat -> written mw m v k.
Proof.
  intros M mw. induction n as [|n IH]; intros v k H m Hm; [inversion H|].
  destruct m as [|m]; [lia|]. assert (Hm' : (n <= m)%nat) by lia.
  inversion H as [|n' fs cf c h t l Hc Hh Ht Hl Hp|n' fs vs cs pv pk Hcs Hpk Hp|n' pv pk Hpk]; subst.
  - constructor.
  - eapply w_record; [exact Hc| | | |exact Hp].
    + intros v k E. eapply IH; eauto.
    + intros vs ks E. eapply f2_impl; [|eapply Ht, E]. intros. eapply IH; eauto.
    + intros vs ks E. eapply f2_impl; [|eapply Hl, E]. intros v o [|v' k Hk]; constructor. eapply IH; eauto.
  - eapply w_chorded; [| |exact Hp]; [|eapply IH; eauto]. eapply f2_impl; [|exact Hcs].
    intros v e [kv [E Hk]]. exists kv. split; [exact E|]. eapply IH; eauto.
  - constructor. eapply IH; eauto.
Qed.

Lemma written_not_null : forall M (mw : val -> M -> Prop) n k, ~ written mw n VNull k.
Proof. intros M mw n k H. inversion H. Qed.

Lemma nullable_written : forall n v k f, written macro_written n v k -> (4 * n <= f)%nat ->
  nullable_key_valid f v = Ok true.
Proof.
  intros n v k f H Hf. unfold nullable_key_valid. cbn [any_of].
  now rewrite (written_valid _ _ macro_valid _ _ _ H _ Hf).
Qed.
Lemma nullable_null : forall f, (0 < f)%nat -> nullable_key_valid f VNull = Ok true.
Proof. intros [|f] H; [lia|]. reflexivity. Qed.

Lemma contract_written : forall n v k f l, written macro_written n v k -> (4 * n <= f)%nat ->
  contract_key f l v = Ok v.
Proof.
  intros n v k f l H Hf. unfold contract_key. destruct l; [|reflexivity]. now rewrite (nullable_written _ _ _ _ H Hf).
Qed.
Lemma contract_null_or : forall n v o f l, null_or (written macro_written n) v o -> (4 * n <= f)%nat -> (0 < f)%nat ->
  contract_key f l v = Ok v.
Proof.
  intros n v o f l H Hf Hf0. destruct H as [|v k H]; [|eapply contract_written; eassumption].
  unfold contract_key. destruct l; [|reflexivity]. now rewrite nullable_null.
Qed.

(** A key under another layer's key. *)
Lemma under_layers : forall n v k lv lk,
  written macro_written n v k -> chord_free k -> is_caps k = false -> is_layered k = false ->
  Forall2 (null_or (written macro_written n)) lv lk ->
  exists fs, v = VRec fs /\ exists fs', merge fs [("layered", VArr lv)] = Ok fs' /\
    written macro_written (S n) (VRec fs') (ULayered k lk).
Proof.
  intros n v k lv lk H Hcf Hcaps Hlay Hl.
  assert (Hw : exists fs, v = VRec fs /\ forall x, In x ["chords"; "passthrough"; "layered"] -> ~ In x (names fs)).
  { inversion H as [|n' fs cf c h t l Hc Hh Ht Hl' Hp|n' fs vs cs pv pk Hcs Hpk Hp|n' pv pk Hpk]; subst.
    - discriminate Hcaps.
    - exists fs. split; [reflexivity|]. destruct l as [[? ?]|]; [discriminate Hlay|].
      intros x Hx Hi. apply (Permutation_in _ (names_perm _ _ Hp)) in Hi.
      rewrite !names_app in Hi. apply in_app_or in Hi. destruct Hi as [Hi|Hi].
      + revert Hi. eapply core_not_extra; [exact Hc|]. cbn in Hx |- *. tauto.
      + cbn in Hx. destruct h as [[? ?]|], t as [[? ?]|]; cbn in Hi; intuition (subst; discriminate).
    - inversion Hcf as [? Hx| | |]; subst. cbn in Hx. destruct (map snd cs); discriminate Hx.
    - inversion Hcf as [? Hx| | |]; subst. discriminate Hx. }
  destruct Hw as [fs [-> Hno]]. exists fs. split; [reflexivity|]. exists (fs ++ [("layered", VArr lv)]). split.
  - unfold merge. cbn [names map fst].
    assert (existsb (fun f => mem f ["layered"]) (names fs) = false) as ->; [|reflexivity].
    destruct (existsb _ (names fs)) eqn:E; [|reflexivity]. apply existsb_exists in E. destruct E as [x [Hx E]].
    cbn in E. rewrite orb_false_r in E. apply String.eqb_eq in E. subst x. exfalso. apply (Hno "layered"); [cbn; auto|exact Hx].
  - eapply add_layers; [eapply written_mono; [exact H|lia]|exact Hno|exact Hl|]. symmetry. apply Permutation_cons_append.
Qed.

Lemma f2_nth : forall A B (R : A -> B -> Prop) l m i y, Forall2 R l m -> nth_error m i = Some y ->
  exists x, nth_error l i = Some x /\ R x y.
Proof.
  intros A B R l m i y H. revert i. induction H as [|x y' l m Hx _ IH]; intros [|i] E; try discriminate E.
  - injection E as <-. exists x. auto.
  - apply IH, E.
Qed.

Section Layers.
  Variables (n f : nat) (bl : layer_src) (bvs : list val) (uls : list layer_src) (uvss : list (list val)) (lo : layout).
  Hypothesis Hf : (4 * n <= f)%nat.
  Hypothesis Hf0 : (0 < f)%nat.
  Hypothesis Hb : Forall2 (written macro_written n) bvs (lo_base lo).
  Hypothesis Hu : Forall2 (Forall2 (null_or (written macro_written n))) uvss (lo_uppers lo).
  Hypothesis Hlen : Forall (fun l => (length (lo_base lo) <= length l)%nat) (lo_uppers lo).
  Hypothesis Hcf : Forall chord_free (lo_base lo).
  Hypothesis Hst : forall i b, nth_error (lo_base lo) i = Some b -> transparent (column (lo_uppers lo) i) = false ->
     is_caps b = false /\ is_layered b = false.

  Definition column_values (i : nat) : list val := map (fun l => nth i l VNull) uvss.

  Lemma nth_written : forall vs l i, Forall2 (null_or (written macro_written n)) vs l -> (i < length l)%nat ->
    index vs i = Ok (nth i vs VNull) /\ null_or (written macro_written n) (nth i vs VNull) (nth i l None).
  Proof.
    intros vs l i Hv. revert i. induction Hv as [|v o vs l Hv _ IH]; intros i Hi; [cbn in Hi; lia|].
    destruct i as [|i]; [auto|]. cbn in *. apply IH. lia.
  Qed.

  Lemma column_written : forall i, (i < length (lo_base lo))%nat ->
    Forall2 (null_or (written macro_written n)) (column_values i) (column (lo_uppers lo) i).
  Proof.
    intros i Hi. unfold column_values, column. revert Hu Hlen. generalize (lo_uppers lo). intros ls H Hl.
    induction H as [|vs l uvss' ls Hv _ IH]; [constructor|]. inversion Hl as [|? ? H1 H2]; subst. cbn [map].
    constructor; [|auto]. apply nth_written; [exact Hv|lia].
  Qed.

  Lemma column_read : forall i, (i < length (lo_base lo))%nat -> length uls = length uvss ->
    map_res (fun l => let! v := index (snd l) i in contract_key f (fst l) v) (combine uls uvss) = Ok (column_values i).
  Proof.
    intros i Hi. unfold column_values. revert Hu Hlen. generalize (lo_uppers lo). intros ls H Hl. revert uls.
    induction H as [|vs l uvss' ls Hv _ IH]; intros [|u us] He; try discriminate He; [reflexivity|].
    inversion Hl as [|? ? H1 H2]; subst. cbn [combine map_res map fst snd].
    destruct (nth_written vs l i Hv) as [E1 E2]; [lia|]. rewrite E1. cbn [bind].
    rewrite (contract_null_or _ _ _ _ _ E2 Hf Hf0). cbn [bind].
    rewrite (IH H2) by (cbn in He; lia). reflexivity.
  Qed.

  Lemma all_null_transparent : forall vs os, Forall2 (null_or (written macro_written n)) vs os ->
    all_null vs = transparent os.
  Proof.
    induction 1 as [|v o vs os Hv _ IH]; [reflexivity|]. unfold all_null, transparent in *. cbn [forallb].
    rewrite IH. destruct Hv as [|v k Hk]; [reflexivity|]. destruct v; try reflexivity.
    exfalso. eapply written_not_null, Hk.
  Qed.

  Lemma layered_at : forall i b, nth_error (lo_base lo) i = Some b -> length uls = length uvss ->
    exists v, layered_key_at f (bl, bvs) (combine uls uvss) i = Ok v /\
      written macro_written (S n) v (stacked lo i b).
  Proof.
    intros i b Hi He. assert (Hlt : (i < length (lo_base lo))%nat) by (apply nth_error_Some; congruence).
    unfold layered_key_at. cbn [fst snd].
    destruct (f2_nth _ _ _ _ _ _ _ Hb Hi) as [bv [Eb Hbv]].
    unfold index at 1. rewrite Eb. cbn [bind]. rewrite (contract_written _ _ _ _ _ Hbv Hf). cbn [bind].
    rewrite column_read by assumption. cbn [bind]. pose proof (column_written i Hlt) as Hc.
    rewrite (all_null_transparent _ _ Hc). unfold stacked.
    destruct (transparent (column (lo_uppers lo) i)) eqn:Et.
    - exists bv. split; [reflexivity|]. eapply written_mono; [exact Hbv|lia].
    - destruct (Hst _ _ Hi Et) as [H1 H2].
      assert (Hcfb : chord_free b) by (rewrite Forall_forall in Hcf; eapply Hcf, nth_error_In, Hi).
      destruct (under_layers _ _ _ _ _ Hbv Hcfb H1 H2 Hc) as [fs [-> [fs' [E Hw]]]].
      rewrite E. cbn [bind]. exists (VRec fs'). auto.
  Qed.
End Layers.

Fixpoint stacked_from (lo : layout) (i : nat) (bs : list (ukey macro)) : list (ukey macro) :=
  match bs with [] => [] | b :: bs' => stacked lo i b :: stacked_from lo (S i) bs' end.

Lemma layered_ok : forall n f s lo bl bvs uls uvss,
  (4 * n <= f)%nat -> (0 < f)%nat -> ks_layers s = bl :: uls -> layer_values (ks_names s) bl bvs ->
  Forall2 (written macro_written n) bvs (lo_base lo) ->
  Forall2 (layer_values (ks_names s)) uls uvss ->
  Forall2 (Forall2 (null_or (written macro_written n))) uvss (lo_uppers lo) ->
  sound lo ->
  exists vs, layered_keys f (ks_names s) (ks_layers s) = Ok vs /\
    Forall2 (written macro_written (S n)) vs (stacked_from lo 0 (lo_base lo)).
Proof.
  intros n f s lo bl bvs uls uvss Hf Hf0 Es Hbl Hb Huls Hu [_ [Hlen [_ [Hcf [_ [_ [Hst _]]]]]]].
  rewrite Es. pose proof (layer_array _ _ _ Hbl) as Ebl.
  destruct uls as [|u uls].
  - inversion Huls; subst uvss. inversion Hu as [E|]; subst. cbn [layered_keys]. rewrite Ebl. cbn [bind].
    exists bvs. split.
    + apply map_res_same. intros v Hv. destruct (f2_in_l _ _ _ _ _ _ Hb Hv) as [k [_ Hk]].
      eapply contract_written; eassumption.
    + clear -Hb H. generalize 0%nat. revert Hb. generalize (lo_base lo). intros bs Hb. induction Hb as [|v b vs bs Hv _ IH]; intros i; [constructor|].
      cbn [stacked_from]. constructor; [|apply IH]. unfold stacked, column. rewrite <- H. cbn. eapply written_mono; [exact Hv|lia].
  - cbn [layered_keys]. rewrite Ebl. cbn [bind].
    assert (Eu : map_res (fun u => let! ks := layer_as_array_of_keys (ks_names s) u in Ok (u, ks)) (u :: uls)
                 = Ok (combine (u :: uls) uvss)).
    { clear -Huls. induction Huls as [|l vs ls vss Hl _ IH]; [reflexivity|]. cbn [map_res combine].
      rewrite (layer_array _ _ _ Hl). cbn [bind]. rewrite IH. reflexivity. }
    rewrite Eu. cbn [bind].
    assert (He : length (u :: uls) = length uvss) by exact (flen _ _ _ _ _ Huls).
    assert (Hb' : length bvs = length (lo_base lo)) by exact (flen _ _ _ _ _ Hb). rewrite Hb'.
    assert (Hat : forall i b, nth_error (lo_base lo) i = Some b ->
      exists v, layered_key_at f (bl, bvs) (combine (u :: uls) uvss) i = Ok v /\
        written macro_written (S n) v (stacked lo i b)).
    { intros i b Hi. apply (layered_at n f bl bvs (u :: uls) uvss lo Hf Hf0 Hb Hu Hlen Hcf Hst i b Hi He). }
    revert Hat. generalize (layered_key_at f (bl, bvs) (combine (u :: uls) uvss)). intros g Hat.
    assert (G : forall bs i, (forall j b, nth_error bs j = Some b -> exists v, g (i + j)%nat = Ok v /\
                   written macro_written (S n) v (stacked lo (i + j) b)) ->
                 exists vs, map_res g (seq i (length bs)) = Ok vs /\ Forall2 (written macro_written (S n)) vs (stacked_from lo i bs)).
    { induction bs as [|b bs IH]; intros i Hi; [exists []; split; [reflexivity|constructor]|].
      destruct (Hi 0%nat b eq_refl) as [v [Ev Hv]]. rewrite Nat.add_0_r in *.
      destruct (IH (S i)) as [vs [Evs Hvs]].
      { intros j b' Hj. specialize (Hi (S j) b' Hj). rewrite Nat.add_succ_r in Hi. exact Hi. }
      exists (v :: vs). cbn [length seq map_res stacked_from]. rewrite Ev. cbn [bind]. rewrite Evs. split; [reflexivity|].
      constructor; assumption. }
    apply G. exact Hat.
Qed.

(** ** Chords *)

Definition numbered_from {A} (m : nat) (l : list A) : list (N * A) :=
  combine (map N.of_nat (seq m (length l))) l.

Lemma numbered_cons : forall A m (x : A) l, numbered_from m (x :: l) = (N.of_nat m, x) :: numbered_from (S m) l.
Proof. reflexivity. Qed.

Definition chord_as (n : nat) (c : chord_src) (e : list N * ukey macro) : Prop :=
  cs_indices c = fst e /\ written macro_written n (cs_key c) (snd e).

Lemma led_ok : forall n i cs es, Forall2 (chord_as n) cs es -> Forall (fun c => fst c <> []) es -> forall m,
  exists led, chords_led_by (N.of_nat i) (numbered_from m cs) = Ok led /\
    Forall2 (fun e e' => fst e = fst e' /\ written macro_written n (cs_key (snd e)) (snd e')) led (led_by i (N.of_nat m) es).
Proof.
  intros n i cs es H. induction H as [|c e cs es [Hc Hw] _ IH]; intros Hne m.
  - exists []. split; [reflexivity|constructor].
  - inversion Hne as [|? ? H1 H2]; subst. destruct (IH H2 (S m)) as [led [E Hl]].
    rewrite numbered_cons. cbn [chords_led_by led_by]. unfold primary_index, first_in. rewrite Hc.
    destruct (fst e) as [|j js]; [contradiction|]. cbn [bind]. rewrite E. cbn [bind].
    replace (N.of_nat m + 1) with (N.of_nat (S m)) by lia.
    destruct (j =? N.of_nat i); eexists; (split; [reflexivity|]); [|exact Hl]. constructor; [|exact Hl]. auto.
Qed.

Lemma part_of_ok : forall n i cs es, Forall2 (chord_as n) cs es ->
  existsb (fun c => existsb (N.eqb (N.of_nat i)) (cs_indices c)) cs = existsb (part_of i) es.
Proof.
  intros n i cs es H. induction H as [|c e cs es [Hc Hw] _ IH]; [reflexivity|]. cbn [existsb]. rewrite IH. f_equal.
  unfold part_of. rewrite Hc. clear. induction (fst e) as [|j js IHj]; [reflexivity|]. cbn [existsb]. rewrite IHj. f_equal. apply N.eqb_sym.
Qed.

Lemma chorded_at : forall n f cs lo i v b, (4 * n <= f)%nat ->
  Forall2 (chord_as n) cs (lo_chords lo) -> Forall (fun c => fst c <> []) (lo_chords lo) ->
  written macro_written (S n) v (stacked lo i b) ->
  exists v', chorded_key_at f cs (N.of_nat i, v) = Ok v' /\ written macro_written (S (S n)) v' (position lo i b).
Proof.
  intros n f cs lo i v b Hf Hc Hne Hv. unfold chorded_key_at, position. cbn [fst snd].
  destruct (led_ok _ i _ _ Hc Hne 0) as [led [E Hl]]. cbn [N.of_nat] in Hl.
  unfold numbered. change (combine (map N.of_nat (seq 0 (length cs))) cs) with (numbered_from 0 cs).
  rewrite E. cbn [bind].
  destruct Hl as [|e e' led es [H1 H2] Hl].
  - rewrite (part_of_ok _ i _ _ Hc). destruct (existsb (part_of i) (lo_chords lo)).
    + eexists. split; [reflexivity|]. now constructor.
    + eexists. split; [reflexivity|]. eapply written_mono; [exact Hv|lia].
  - assert (Hmap : exists vs, map_res (chord_key_entry f) (e :: led) = Ok vs /\
      Forall2 (fun v e => exists kv, v = VArr [VNum (fst e); kv] /\ written macro_written (S n) kv (snd e)) vs (e' :: es)).
    { assert (Hall : Forall2 (fun e e' => fst e = fst e' /\ written macro_written n (cs_key (snd e)) (snd e')) (e :: led) (e' :: es))
        by (constructor; auto).
      clear -Hall Hf. induction Hall as [|x x' l l' [H1 H2] _ IH]; [exists []; split; [reflexivity|constructor]|].
      destruct IH as [vs [Ev Hvs]]. cbn [map_res]. unfold chord_key_entry at 1.
      rewrite (nullable_written _ _ _ _ H2 Hf). cbn [bind]. rewrite Ev. cbn [bind]. eexists. split; [reflexivity|].
      constructor; [|exact Hvs]. exists (cs_key (snd x)). rewrite H1. split; [reflexivity|]. eapply written_mono; [exact H2|lia]. }
    destruct Hmap as [vs [Ev Hvs]]. rewrite Ev. cbn [bind]. eexists. split; [reflexivity|].
    eapply w_chorded; [exact Hvs|exact Hv|apply Permutation_refl].
Qed.

Lemma chorded_ok : forall n f cs lo vs, (4 * n <= f)%nat ->
  Forall2 (chord_as n) cs (lo_chords lo) -> Forall (fun c => fst c <> []) (lo_chords lo) ->
  Forall2 (written macro_written (S n)) vs (stacked_from lo 0 (lo_base lo)) ->
  exists vs', chorded_keys f cs vs = Ok vs' /\ Forall2 (written macro_written (S (S n))) vs' (positions lo).
Proof.
  intros n f cs lo vs Hf Hc Hne. unfold chorded_keys, positions, numbered.
  change (combine (map N.of_nat (seq 0 (length vs))) vs) with (numbered_from 0 vs).
  generalize 0%nat. generalize (lo_base lo). intros bs. revert vs. induction bs as [|b bs IH]; intros vs i H.
  - inversion H; subst. exists []. split; [reflexivity|constructor].
  - cbn [stacked_from] in H. inversion H as [|v ? vs' ? Hv Hvs]; subst. rewrite numbered_cons. cbn [map_res positions_from].
    destruct (chorded_at n f cs lo i v b Hf Hc Hne Hv) as [v' [E Hv']]. rewrite E. cbn [bind].
    destruct (IH _ _ Hvs) as [vs2 [E2 Hvs2]]. rewrite E2. eexists. split; [reflexivity|]. constructor; assumption.
Qed.

(** ** Positions *)

Lemma chord_free_parts : forall M (k : ukey M), chord_free k -> forall p cs q, In p (all_parts k) -> p <> UChorded cs q.
Proof.
  intros M.
  induction k as [k Hk|t h IHt IHh|k ks IHk IHks|b ls IHb IHls|cs p IHcs IHp|p IHp] using ukey_ind'; intros H x cs' q' Hx.
  - destruct k; try discriminate Hk; cbn in Hx; destruct Hx as [<-|[]]; discriminate.
  - inversion H as [? E| | |]; subst; [discriminate E|]. cbn in Hx. destruct Hx as [<-|Hx]; [discriminate|].
    apply in_app_or in Hx. destruct Hx; eauto.
  - inversion H as [? E| |? ? H1 H2|]; subst; [discriminate E|]. cbn in Hx. destruct Hx as [<-|Hx]; [discriminate|].
    apply in_app_or in Hx. destruct Hx as [Hx|Hx]; [eauto|]. apply in_flat_map in Hx. destruct Hx as [y [Hy Hx]].
    rewrite Forall_forall in IHks, H2. eapply IHks; eauto.
  - inversion H as [? E| | |? ? H1 H2]; subst; [discriminate E|]. cbn in Hx. destruct Hx as [<-|Hx]; [discriminate|].
    apply in_app_or in Hx. destruct Hx as [Hx|Hx]; [eauto|]. apply in_flat_map in Hx. destruct Hx as [[y|] [Hy Hx]]; [|destruct Hx].
    eapply IHls; eauto.
  - inversion H as [? E| | |]; subst. cbn in E. destruct (map snd cs); discriminate E.
  - inversion H as [? E| | |]; subst. discriminate E.
Qed.

Lemma stacked_free : forall lo i b, sound lo -> In b (lo_base lo) -> chord_free (stacked lo i b).
Proof.
  intros lo i b [_ [_ [_ [H1 [H2 _]]]]] Hb. rewrite Forall_forall in H1. unfold stacked.
  destruct (transparent (column (lo_uppers lo) i)); [auto|]. apply cf_layered; [auto|].
  intros k Hk. unfold column in Hk. apply in_map_iff in Hk. destruct Hk as [l [El Hl]].
  rewrite Forall_forall in H2. specialize (H2 _ Hl). rewrite Forall_forall in H2.
  destruct (nth_in_or_default i l None) as [Hi|Hd]; [|congruence]. rewrite El in Hi. eapply H2; eauto.
Qed.

(** Chorded keys at positions. *)
Lemma position_chords : forall lo k p cs q, sound lo -> In k (positions lo) -> In p (all_parts k) ->
  p = UChorded cs q -> exists i, cs = led_by i 0 (lo_chords lo).
Proof.
  intros lo k p cs q Hs Hk Hp Ep.
  assert (Hk' : exists i b, In b (lo_base lo) /\ k = position lo i b).
  { unfold positions in Hk. revert Hk. generalize 0%nat.
    assert (Hi : incl (lo_base lo) (lo_base lo)) by apply incl_refl. revert Hi. generalize (lo_base lo) at 1 3.
    induction l as [|b bs IH]; intros Hi i Hk; [destruct Hk|]. cbn in Hk. destruct Hk as [<-|Hk].
    - exists i, b. split; [apply Hi; now left|reflexivity].
    - eapply IH; [|exact Hk]. intros x Hx. apply Hi. now right. }
  destruct Hk' as [i [b [Hb ->]]]. pose proof (stacked_free lo i b Hs Hb) as Hst.
  pose proof (chord_free_parts _ _ Hst) as Hno. unfold position in Hp.
  assert (Hled : forall e, In e (led_by i 0 (lo_chords lo)) -> chord_free (snd e)).
  { destruct Hs as [_ [_ [_ [_ [_ [Hc _]]]]]]. revert Hc. generalize 0. generalize (lo_chords lo).
    induction l as [|c l IH]; intros n Hc e He; [destruct He|]. inversion Hc; subst. cbn in He.
    destruct (first_in i c); [destruct He as [<-|He]|]; eauto. }
  destruct (led_by i 0 (lo_chords lo)) as [|e es] eqn:El.
  - destruct (existsb (part_of i) (lo_chords lo)).
    + cbn in Hp. destruct Hp as [<-|Hp]; [discriminate Ep|]. exfalso. eapply Hno; eauto.
    + exfalso. eapply Hno; eauto.
  - rewrite <- El in *. cbn [all_parts] in Hp. destruct Hp as [<-|Hp].
    + injection Ep as <- <-. eauto.
    + apply in_app_or in Hp. destruct Hp as [Hp|Hp]; [|exfalso; eapply Hno; eauto].
      apply in_flat_map in Hp. destruct Hp as [[m y] [Hy Hp]]. exfalso.
      eapply (chord_free_parts _ _ (Hled _ Hy)); eauto.
Qed.

Lemma led_numbers : forall i cs n e, In e (led_by i n cs) -> fst e < n + N.of_nat (length cs).
Proof.
  intros i. induction cs as [|c cs IH]; intros n e H; [destruct H|]. cbn [led_by length] in *.
  destruct (first_in i c); [destruct H as [<-|H]; [cbn; lia|]|]; apply IH in H; lia.
Qed.

Lemma fold_max_in : forall l a x, In x l -> (x <= fold_left Nat.max l a)%nat.
Proof.
  assert (Hm : forall l b, (b <= fold_left Nat.max l b)%nat).
  { induction l as [|y l IH]; intros b; cbn; [lia|]. etransitivity; [|apply IH]. lia. }
  induction l as [|y l IH]; intros a x H; [destruct H|]. cbn. destruct H as [->|H]; [|auto].
  etransitivity; [|apply Hm]. lia.
Qed.

Lemma overlapping_max : forall cs m i, max_overlapping (map fst cs) = Ok m -> (length (led_by i 0 cs) <= m)%nat.
Proof.
  intros cs m i H. unfold max_overlapping in H. inv_bind H. injection H as <-.
  assert (El : forall n, length (led_by i n cs) = length (filter (N.eqb (N.of_nat i)) a)).
  { revert a E. induction cs as [|c cs IH]; intros a E n; cbn [map map_res] in E; [injection E as <-; reflexivity|].
    inv_bind E. inv_bind E. injection E as <-. cbn [led_by]. unfold first_in. destruct (fst c) as [|j js]; [discriminate E0|].
    injection E0 as <-. cbn [filter]. rewrite N.eqb_sym.
    destruct (N.of_nat i =? j); cbn [length]; now rewrite (IH _ E1). }
  rewrite El. clear El E. destruct (in_dec N.eq_dec (N.of_nat i) a) as [Hi|Hi].
  - apply fold_max_in. apply in_map_iff. exists (N.of_nat i). auto.
  - assert (filter (N.eqb (N.of_nat i)) a = []) as ->; [|cbn; lia].
    clear -Hi. induction a as [|x a IH]; [reflexivity|]. cbn. destruct (N.eqb_spec (N.of_nat i) x) as [E|_].
    + exfalso. apply Hi. left. now symmetry.
    + apply IH. intros H. apply Hi. now right.
Qed.

(** ** From keymap.ncl to the tables *)

Lemma build_json : forall n s lo f, writes n s lo -> sound lo -> (4 * (n + 2) <= f)%nat ->
  exists vs is ks I, json_keymap f s = Ok (mkKeymapJson (map json ks) is (map fst (lo_chords lo)) (ks_options s)) /\
    Forall2 instruction_written is I /\ Forall2 (written auto_written (n + 2)) vs ks /\
    Forall2 (lowers I) (positions lo) ks /\ length I = list_sum (map code_size (positions lo)) /\
    Forall (fun k => Forall plain_ranged (all_parts k)) ks.
Proof.
  intros n s lo f [bl [bvs [uls [uvss [Es [Hbl [Hb [Huls [Hu Hc]]]]]]]]] Hs Hf.
  destruct (layered_ok n f s lo bl bvs uls uvss) as [v1 [E1 H1]]; try assumption; try lia.
  assert (Hne : Forall (fun c => fst c <> []) (lo_chords lo)) by apply Hs.
  destruct (chorded_ok n f (ks_chords s) lo v1 ltac:(lia) Hc Hne H1) as [v2 [E2 H2]].
  assert (Hm : Forall macros_near (positions lo)) by apply Hs.
  destruct (all_accum_ok (S (S n)) f v2 (positions lo) H2 Hm ltac:(lia)) as [is [v3 [ks [I [E3 [H3 [H4 [H5 H6]]]]]]]].
  exists v3, is, ks, I. replace (n + 2)%nat with (S (S n)) by lia.
  split; [|split; [assumption|split; [assumption|split; [assumption|split; [assumption|]]]]].
  - unfold json_keymap. rewrite E1. cbn [bind]. rewrite E2. cbn [bind]. rewrite E3. cbn [bind].
    assert (Hf' : (4 * S (S n) <= f)%nat) by lia.
    rewrite (map_res_ok _ _ _ (key_to_json f) json _ _ _ (fun v k Hk => written_json _ v k Hk f Hf') H4).
    cbn [bind]. do 2 f_equal. clear -Hc. induction Hc as [|c e cs es [H _] _ IH]; [reflexivity|]. cbn. now rewrite H, IH.
  - clear -H4. induction H4; constructor; eauto using written_ranged.
Qed.

Lemma f2_compose : forall A B C (R : A -> B -> Prop) (Q : B -> C -> Prop) (T : A -> C -> Prop) l m n,
  (forall x y z, R x y -> Q y z -> T x z) -> Forall2 R l m -> Forall2 Q m n -> Forall2 T l n.
Proof.
  intros A B C R Q T l m n H H1. revert n. induction H1; intros n H2; inversion H2; subst; constructor; eauto.
Qed.

Lemma chords_counted : forall lo I ks, sound lo -> Forall2 (lowers I) (positions lo) ks ->
  forall n, max_overlapping (map fst (lo_chords lo)) = Ok n -> forall k p, In k ks -> In p (all_parts k) ->
  match p with UChorded cs _ => (length cs <= n)%nat | _ => True end.
Proof.
  intros lo I ks Hs Hl n Hn k' p' Hk Hp. destruct p' as [| | | | | | | | | | | | | |cs' q'|]; try exact Logic.I.
  destruct (f2_in_r _ _ _ _ _ _ Hl Hk) as [k [Hk' Hu]]. apply umap_parts in Hu.
  destruct (f2_in_r _ _ _ _ _ _ Hu Hp) as [p [Hp' Hpp]]. destruct p; cbn in Hpp; try contradiction.
  destruct Hpp as [Hcs _]. apply all2_len in Hcs. rewrite <- Hcs.
  destruct (position_chords _ _ _ _ _ Hs Hk' Hp' eq_refl) as [i ->]. now apply overlapping_max.
Qed.

Lemma build_sound : forall n s lo f g, writes n s lo -> sound lo -> (4 * (n + 2) <= f)%nat -> build f s = Ok g ->
  Forall2 (denotes (is_macro (auc_instructions (cf_automation (gn_config g)))) (gn_data g)) (positions lo) (gn_refs g) /\
  configured (ks_options s) (map fst (lo_chords lo)) (gn_config g) /\
  chords_fit (map fst (lo_chords lo)) (gn_config g) /\
  layers_fit (gn_data g) (gn_config g) /\
  layers_counted (positions lo) (gn_config g).
Proof.
  intros n s lo f g Hw Hs Hf H.
  destruct (build_json n s lo f Hw Hs Hf) as [vs [is [ks [I [E [H1 [H2 [H3 [H4 H5]]]]]]]]].
  unfold build in H. rewrite E in H. cbn [bind] in H.
  assert (Hd : Forall (fun k => depth k f) ks).
  { clear -H2 Hf. induction H2; constructor; [|assumption]. eapply depth_mono; [eapply written_depth; eassumption|lia]. }
  destruct (codegen_sound f ks is I _ _ Hd H1 (chords_counted lo I ks Hs H3) g H) as [C1 [C2 [C3 [C4 [C5 C6]]]]].
  rewrite C5. split; [|split; [exact C2|split; [exact C3|split; [exact C4|]]]].
  - eapply f2_compose; [|exact H3|exact C1].
    intros k k' r Hu Hk. eapply denotes_umap; [exact Hu|exact Hk].
  - split.
    + intros k b ls Hk Hp. destruct (f2_in_l _ _ _ _ _ _ H3 Hk) as [k' [Hk' Hu]]. apply umap_parts in Hu.
      destruct (f2_in_l _ _ _ _ _ _ Hu Hp) as [p' [Hp' Hpp]]. destruct p'; cbn in Hpp; try contradiction.
      destruct Hpp as [_ Hpp]. apply all2_len in Hpp. rewrite Hpp. apply (layers_max _ _ C6 _ _ Hk' Hp').
    + destruct (cf_layer_count (gn_config g)) as [|m] eqn:Em; [now left|]. right.
      destruct (layers_attained _ _ C6) as [Hx|[k' [p' [Hk' [Hp' Hl]]]]]; [discriminate Hx|].
      destruct (f2_in_r _ _ _ _ _ _ H3 Hk') as [k [Hk Hu]]. apply umap_parts in Hu.
      destruct (f2_in_r _ _ _ _ _ _ Hu Hp') as [p [Hp Hpp]]. destruct p'; try discriminate Hl.
      destruct p; cbn in Hpp; try contradiction. destruct Hpp as [_ Hpp]. apply all2_len in Hpp.
      exists k, p, layers0. split; [exact Hk|]. split; [exact Hp|]. cbn [layers_of] in Hl. lia.
Qed.

Lemma sum_flat : forall A B (g : A -> list B) l, length (flat_map g l) = list_sum (map (fun x => length (g x)) l).
Proof. induction l as [|x l IH]; [reflexivity|]. cbn. now rewrite app_length, IH. Qed.

Lemma build_total : forall n s lo f, writes n s lo -> sound lo -> (4 * (n + 2) <= f)%nat ->
  room (positions lo) -> chords_in_range lo -> options_in_range (ks_options s) ->
  exists g, build f s = Ok g.
Proof.
  intros n s lo f Hw Hs Hf [Hr Hi] [Hc1 Hc2] Ho.
  destruct (build_json n s lo f Hw Hs Hf) as [vs [is [ks [I [E [H1 [H2 [H3 [H4 H5]]]]]]]]].
  unfold build. rewrite E. cbn [bind].
  assert (Hd : Forall (fun k => depth k f) ks).
  { clear -H2 Hf. induction H2; constructor; [|assumption]. eapply depth_mono; [eapply written_depth; eassumption|lia]. }
  apply codegen_total with (I := I); try assumption.
  - exact (chords_counted lo I ks Hs H3).
  - intros ->. inversion H3 as [Hx|]. destruct Hs as [Hne _]. unfold positions in Hx.
    destruct (lo_base lo); [contradiction|discriminate Hx].
  - assert (HI : N.of_nat (length I) <= 65535).
    { rewrite H4. unfold code_size. rewrite <- (sum_flat _ _ (fun k => flat_map code_of (all_parts k))).
      replace (flat_map (fun k => flat_map code_of (all_parts k)) (positions lo)) with (flat_map code_of (flat_map all_parts (positions lo)));
        [exact Hi|]. generalize (positions lo). intros l. induction l as [|x l IH]; [reflexivity|]. cbn. now rewrite flat_map_app, IH. }
    assert (HC : Forall chords_ranged (positions lo)).
    { apply Forall_forall. intros k Hk. apply Forall_forall. intros p Hp.
      destruct p as [| | | | | | | | | | | | | |cs q|]; try exact Logic.I.
      destruct (position_chords _ _ _ _ _ Hs Hk Hp eq_refl) as [i ->]. apply Forall_forall. intros e He.
      apply led_numbers in He. lia. }
    clear -H3 H5 HI HC. induction H3 as [|k k' l l' Hk _ IH]; [constructor|]. inversion H5; inversion HC; subst.
    constructor; [|auto]. eapply lowers_ranged; eassumption.
  - intros t. specialize (Hr t). rewrite filter_flat in Hr.
    assert (Ec : map (count t) ks = map (count t) (positions lo)).
    { clear -H3. induction H3 as [|k k' l l' Hk _ IH]; [reflexivity|]. cbn. rewrite IH. f_equal. symmetry. eapply umap_count, Hk. }
    rewrite Ec. exact Hr.
  - destruct Hs as [_ [_ [Hne _]]]. clear -Hne. induction Hne; constructor; auto.
  - clear -Hc2. induction Hc2; constructor; auto.
Qed.
