(** Proofs for C79. *)
From Coq Require Import String.
From Verif Require Import BaseFacts Output Types Keymap Composite SpecKeymap SpecPlain SpecBoard Ncl NclRemap SpecNcl SpecNclBoard NclLayoutFacts SpecRemap.
Import List.
Local Open Scope N_scope.
Local Open Scope list_scope.

Lemma map_res_spec {A B} (f : A -> res B) l : forall l', map_res f l = Ok l' <-> Forall2 (fun x y => f x = Ok y) l l'.
Proof.
  induction l as [|x l IH]; intros l'; cbn [map_res].
  - split; [intros H; injection H as <-; constructor|]. intros H. inversion H. reflexivity.
  - split.
    + intros H. inv_bind H. inv_bind H. injection H as <-. constructor; [exact E|]. now apply IH.
    + intros H. inversion H as [|? y ? t Hx Ht]; subst. rewrite Hx. cbn [bind]. apply IH in Ht. rewrite Ht. reflexivity.
Qed.
Lemma from_layout_ok {A} n L (d : A) l : within n L -> length l = n -> from_layout n L d l = Ok (map (taken d l) L).
Proof.
  intros HL Hl. unfold from_layout. rewrite (proj2 (Nat.eqb_eq _ _) Hl). apply map_res_spec.
  induction L as [|o L IH]; [constructor|]. cbn [map]. constructor.
  - destruct o as [i|]; [|reflexivity]. unfold index. assert (i < length l)%nat by (rewrite Hl; apply HL; now left).
    rewrite (nth_error_nth' l d) by lia. reflexivity.
  - apply IH. intros i Hi. apply HL. now right.
Qed.
Lemma from_layout_inv {A} n L (d : A) l l' : from_layout n L d l = Ok l' -> within n L /\ length l = n /\ l' = map (taken d l) L.
Proof.
  unfold from_layout. destruct (length l =? n)%nat eqn:En; [|discriminate]. apply Nat.eqb_eq in En. intros H. 
  assert (HL : within n L).
  { apply map_res_spec in H. clear -H En. intros i Hi. induction H as [|o x L l' Ho H IH]; [destruct Hi|]. destruct Hi as [->|Hi]; [|now apply IH].
    unfold index in Ho. destruct (nth_error l i) as [y|] eqn:Ei; [|discriminate]. assert (i < length l)%nat by (apply nth_error_Some; congruence). lia. }
  split; [exact HL|]. split; [exact En|]. pose proof (from_layout_ok n L d l HL En) as K. unfold from_layout in K. rewrite (proj2 (Nat.eqb_eq _ _) En) in K. congruence.
Qed.
Lemma indices_ok n L : within n L -> remapped_indices n L = Ok (numbered (map (option_map N.of_nat) L)).
Proof.
  intros HL. unfold remapped_indices. rewrite from_layout_ok; [|exact HL|rewrite map_length; apply seq_length]. cbn [bind]. f_equal.
  assert (X : forall {A} (l : list A), filter (fun _ => true) l = l) by (induction l; cbn; congruence). rewrite X. f_equal. apply map_ext_in.
  intros [i|] Hi; [|reflexivity]. cbn [taken option_map]. apply HL in Hi. rewrite (nth_indep _ None (Some (N.of_nat 0))) by (rewrite map_length, seq_length; exact Hi).
  rewrite (map_nth (fun i => Some (N.of_nat i))). rewrite seq_nth by exact Hi. reflexivity.
Qed.
Lemma indices_inv n L rs : remapped_indices n L = Ok rs -> within n L.
Proof. unfold remapped_indices. intros H. inv_bind H. now apply from_layout_inv in E. Qed.

Definition is_at (i : nat) (o : option nat) : bool := match o with Some j => (j =? i)%nat | None => false end.
Lemma place_count L : forall i a, 
  match filter (fun r : N * option N => match snd r with Some j => j =? N.of_nat i | None => false end) (combine (map N.of_nat (seq a (length L))) (map (option_map N.of_nat) L)) with
  | [] => filter (is_at i) L = []
  | [r] => length (filter (is_at i) L) = 1%nat /\ fst r = N.of_nat (a + place L i)
  | _ => (2 <= length (filter (is_at i) L))%nat
  end.
Proof.
  induction L as [|o L IH]; intros i a; [reflexivity|]. cbn [length seq map combine filter snd].
  assert (Q : match option_map N.of_nat o with Some j => j =? N.of_nat i | None => false end = is_at i o).
  { destruct o as [j|]; [|reflexivity]. cbn. destruct (Nat.eqb_spec j i); [subst; apply N.eqb_refl|apply N.eqb_neq; lia]. }
  rewrite Q. specialize (IH i (S a)). destruct (is_at i o) eqn:Eo.
  - destruct o as [j|]; [|discriminate]. cbn [is_at] in Eo. cbn [place]. rewrite Eo. destruct (filter _ (combine _ _)) as [|r [|r' l]].
    + rewrite IH. cbn. split; [reflexivity|]. f_equal. lia.
    + cbn [length]. destruct IH. lia.
    + cbn [length]. lia.
  - destruct (filter _ (combine _ _)) as [|r [|r' l]]; [exact IH| |exact IH]. destruct IH as (IH1 & IH2). split; [exact IH1|]. rewrite IH2.
    destruct o as [j|]; cbn [place]; [cbn [is_at] in Eo; rewrite Eo|]; f_equal; lia.
Qed.
Lemma remap_index_ok n L rs i t : remapped_indices n L = Ok rs -> (let! o := remap_index rs i in unwrap o) = Ok t <-> once L (N.to_nat i) /\ t = moved L i.
Proof.
  intros H. pose proof (indices_inv _ _ _ H) as HL. rewrite (indices_ok _ _ HL) in H. injection H as <-. unfold remap_index, numbered, once, moved.
  pose proof (place_count L (N.to_nat i) 0) as K. rewrite N2Nat.id in K. rewrite map_length. fold (is_at (N.to_nat i)).
  destruct (filter _ (combine _ _)) as [|r [|r' l]]; cbn [bind unwrap].
  - rewrite K. split; [discriminate|]. intros (X & _). discriminate X.
  - destruct K as (K1 & K2). rewrite K2. split; [intros X; injection X as <-; auto|]. intros (_ & ->). reflexivity.
  - split; [discriminate|]. intros (X & _). lia.
Qed.
Lemma remap_chord_ok n L rs c c' : remapped_indices n L = Ok rs -> remap_chord rs c = Ok c' <-> Forall (fun i => once L (N.to_nat i)) (cs_indices c) /\ c' = mkChordSrc (map (moved L) (cs_indices c)) (cs_key c).
Proof.
  intros H. unfold remap_chord. destruct (map_res _ (cs_indices c)) as [l| |] eqn:E; cbn [bind].
  - apply map_res_spec in E. assert (K : Forall (fun i => once L (N.to_nat i)) (cs_indices c) /\ l = map (moved L) (cs_indices c)).
    { clear c'. induction E as [|i t is l Hi E IH]; [split; [constructor|reflexivity]|]. destruct IH as (IH1 & ->). apply (remap_index_ok n L rs i t H) in Hi as (Hi & ->). split; [now constructor|reflexivity]. }
    destruct K as (K1 & ->). split; [intros X; injection X as <-; auto|]. intros (_ & ->). reflexivity.
  - split; [discriminate|]. intros (K & _). assert (X : map_res (fun i => let! o := remap_index rs i in unwrap o) (cs_indices c) = Ok (map (moved L) (cs_indices c))); [|rewrite X in E; discriminate E].
    apply map_res_spec. clear E. induction K as [|i is Hi K IH]; [constructor|]. cbn [map]. constructor; [|exact IH]. apply (remap_index_ok n L rs i _ H). auto.
  - split; [discriminate|]. intros (K & _). assert (X : map_res (fun i => let! o := remap_index rs i in unwrap o) (cs_indices c) = Ok (map (moved L) (cs_indices c))); [|rewrite X in E; discriminate E].
    apply map_res_spec. clear E. induction K as [|i is Hi K IH]; [constructor|]. cbn [map]. constructor; [|exact IH]. apply (remap_index_ok n L rs i _ H). auto.
Qed.

Lemma f2_len {A B} (R : A -> B -> Prop) l m : Forall2 R l m -> length l = length m.
Proof. induction 1; cbn; congruence. Qed.
Lemma f2_taken {A B} (R : A -> B -> Prop) dx dy l m L : Forall2 R l m -> R dx dy -> Forall2 R (map (taken dx l) L) (map (taken dy m) L).
Proof.
  intros H Hd. assert (N1 : forall i, R (nth i l dx) (nth i m dy)). { induction H; intros [|i]; cbn; auto. }
  induction L as [|[i|] L IH]; cbn; constructor; auto.
Qed.
Lemma no_key_written n : (0 < n)%nat -> written macro_written n NO_KEY nothing.
Proof.
  intros Hn. destruct n as [|n]; [lia|]. unfold nothing, NO_KEY. 
  apply (w_record macro_written n _ [("key_code"%string, VNum 0)] (UCode 0) None None None); try discriminate; [constructor; lia|reflexivity].
Qed.
Lemma writes_pos n s lo : writes n s lo -> lo_base lo <> [] -> (0 < n)%nat.
Proof.
  intros (bl & bvs & uls & uvss & _ & _ & H & _) Hb. destruct H as [|v k vs ks Hk _]; [now elim Hb|]. destruct Hk; lia.
Qed.

Definition remappable (n : nat) (L : list (option nat)) (lo : layout) : Prop := complete_layers n lo /\ within n L /\ chords_kept L lo.

Lemma layers_remap K n L ls : forall vss, Forall2 (layer_values K) ls vss -> within n L -> Forall (fun vs => length vs = n) vss ->
  map_res (fun l => let! ks := layer_as_array_of_keys K l in let! ks' := from_layout n L NO_KEY ks in Ok (LKeys ks')) ls = Ok (map (fun vs => LKeys (map (taken NO_KEY vs) L)) vss).
Proof.
  intros vss H HL Hl. apply map_res_spec. induction H as [|l vs ls vss Hv H IH]; [constructor|]. inversion_clear Hl as [|? ? Hl1 Hl2]. cbn [map]. constructor; [|now apply IH].
  rewrite (layer_array _ _ _ Hv). cbn [bind]. rewrite from_layout_ok by assumption. reflexivity.
Qed.
Lemma layers_remap_inv K n L ls ls' : forall vss, Forall2 (layer_values K) ls vss ->
  map_res (fun l => let! ks := layer_as_array_of_keys K l in let! ks' := from_layout n L NO_KEY ks in Ok (LKeys ks')) ls = Ok ls' -> Forall (fun vs => length vs = n) vss.
Proof.
  intros vss H E. apply map_res_spec in E. revert ls' E. induction H as [|l vs ls vss Hv H IH]; intros ls' E; [constructor|]. inversion_clear E as [|? ? ? ? E1 E2]. constructor; [|eapply IH; exact E2].
  rewrite (layer_array _ _ _ Hv) in E1. cbn [bind] in E1. inv_bind E1. now apply from_layout_inv in E.
Qed.
Lemma remap_spec n m L s lo : writes m s lo ->
  (remappable n L lo -> exists s', into_layout n L s = Ok s') /\ (forall s', into_layout n L s = Ok s' -> remappable n L lo /\ ks_options s' = ks_options s /\ (lo_base lo <> [] -> writes m s' (laid_out L lo))).
Proof.
  intros (bl & bvs & uls & uvss & El & Hb & Hbw & Hu & Huw & Hc). 
  assert (Hall : Forall2 (layer_values (ks_names s)) (ks_layers s) (bvs :: uvss)) by (rewrite El; now constructor).
  assert (Hlen : complete_layers n lo <-> Forall (fun vs : list val => length vs = n) (bvs :: uvss)).
  { unfold complete_layers. rewrite <- (f2_len _ _ _ Hbw). clear -Huw. split; [intros (A & B); constructor; [exact A|]|intros X; inversion_clear X as [|? ? A B]; split; [exact A|]].
    - revert B. induction Huw as [|? ? ? ? Hx Huw IH]; intros B; constructor; inversion_clear B; [rewrite (f2_len _ _ _ Hx)|]; auto.
    - revert B. induction Huw as [|? ? ? ? Hx Huw IH]; intros B; constructor; inversion_clear B; [rewrite <- (f2_len _ _ _ Hx)|]; auto. }
  unfold into_layout. split.
  - intros (H1 & H2 & H3). rewrite (indices_ok _ _ H2). cbn [bind].
    assert (X : exists cs, map_res (remap_chord (numbered (map (option_map N.of_nat) L))) (ks_chords s) = Ok cs).
    { pose proof (indices_ok _ _ H2) as HI. unfold chords_kept in H3. clear -Hc H3 HI. induction Hc as [|c e cs es (Hi & _) Hc IH]; [exists []; reflexivity|]. inversion_clear H3 as [|? ? H4 H5]. destruct (IH H5) as (cs' & Ecs).
      exists (mkChordSrc (map (moved L) (cs_indices c)) (cs_key c) :: cs'). apply map_res_spec in Ecs. apply map_res_spec. constructor; [|exact Ecs]. apply (remap_chord_ok n L _ c _ HI). rewrite Hi. auto. }
    destruct X as (cs & ->). cbn [bind]. rewrite (layers_remap _ n L _ _ Hall H2) by (now apply Hlen). cbn [bind]. eauto.
  - intros s' H. inv_bind H. inv_bind H. inv_bind H. injection H as <-. pose proof (indices_inv _ _ _ E) as HL. pose proof (layers_remap_inv _ _ _ _ _ _ Hall E1) as Hls.
    rewrite (layers_remap _ n L _ _ Hall HL Hls) in E1. injection E1 as <-. apply map_res_spec in E0.
    assert (HC : chords_kept L lo /\ Forall2 (fun c e => cs_indices c = fst e /\ written macro_written m (cs_key c) (snd e)) a0 (lo_chords (laid_out L lo))).
    { cbn [laid_out lo_chords]. unfold chords_kept. clear -Hc E0 E. revert a0 E0. induction Hc as [|c e cs es (Hi & Hw) Hc IH]; intros a0 E0; inversion E0 as [|? c' ? cs' Hx Hy]; subst; [split; constructor|].
      destruct (IH _ Hy) as (A & B). apply (remap_chord_ok n L a c c' E) in Hx as (Hx & ->). rewrite Hi in Hx. cbn [map]. split; constructor; auto. cbn [cs_indices cs_key fst snd]. rewrite Hi. auto. }
    split; [split; [now apply Hlen|]; split; [exact HL|apply HC]|]. split; [reflexivity|]. intros Hne.
    exists (LKeys (map (taken NO_KEY bvs) L)), (map (taken NO_KEY bvs) L), (map (fun vs => LKeys (map (taken NO_KEY vs) L)) uvss), (map (fun vs => map (taken NO_KEY vs) L) uvss).
    cbn [ks_layers ks_names ks_chords laid_out lo_base lo_uppers lo_chords]. 
    assert (HN : written macro_written m NO_KEY nothing). { apply no_key_written. destruct Hbw as [|v k vs ks Hk _]; [now elim Hne|]. destruct Hk; lia. }
    split; [reflexivity|]. split; [constructor|]. split; [now apply f2_taken|]. split; [|split; [|apply HC]].
    + clear. induction uvss; cbn; constructor; [constructor|assumption].
    + clear -Huw HN. induction Huw as [|? ? ? ? Hx Huw IH]; cbn; constructor; [|exact IH]. apply f2_taken; [exact Hx|]. now constructor.
Qed.

(** *** Places *)
Lemma once_place L i : once L i -> nth_error L (place L i) = Some (Some i).
Proof.
  unfold once. fold (is_at i). induction L as [|o L IH]; [discriminate|]. cbn [filter]. destruct o as [j|]; cbn [place is_at].
  - destruct (j =? i)%nat eqn:E; [apply Nat.eqb_eq in E; now subst|]. intros H. now apply IH.
  - intros H. now apply IH.
Qed.
Lemma once_unique L i t : once L i -> nth_error L t = Some (Some i) -> t = place L i.
Proof.
  unfold once. fold (is_at i). revert t. induction L as [|o L IH]; intros t H Ht; [destruct t; discriminate|]. cbn [filter] in H. destruct o as [j|]; cbn [place is_at] in *.
  - destruct (j =? i)%nat eqn:E.
    + destruct t as [|t]; [reflexivity|]. exfalso. cbn [nth_error] in Ht. cbn [length] in H. injection H as H.
      assert (X : In (Some i) (filter (is_at i) L)) by (apply filter_In; split; [now apply nth_error_In in Ht|cbn; apply Nat.eqb_refl]). destruct (filter (is_at i) L); [destruct X|discriminate].
    + destruct t as [|t]; [injection Ht as ->; rewrite Nat.eqb_refl in E; discriminate|]. f_equal. now apply IH.
  - destruct t as [|t]; [discriminate|]. f_equal. now apply IH.
Qed.
Lemma moved_is L i t : once L (N.to_nat i) -> (moved L i =? N.of_nat t) = match nth_error L t with Some (Some s) => i =? N.of_nat s | _ => false end.
Proof.
  intros H. unfold moved. pose proof (once_place _ _ H) as E. destruct (N.eqb_spec (N.of_nat (place L (N.to_nat i))) (N.of_nat t)) as [X|X].
  - apply Nat2N.inj in X. subst t. rewrite E, N2Nat.id, N.eqb_refl. reflexivity.
  - destruct (nth_error L t) as [[s|]|] eqn:Et; [|reflexivity|reflexivity]. symmetry. apply N.eqb_neq. intros Y. apply X. f_equal. symmetry. apply once_unique; [exact H|]. rewrite Et, Y, Nat2N.id. reflexivity.
Qed.

(** *** Positions *)
Definition source_led (L : list (option nat)) (t : nat) (cs : list (list N * ukey macro)) n := match nth_error L t with Some (Some s) => led_by s n cs | _ => [] end.
Lemma led_moved L t cs : Forall (fun c => Forall (fun i => once L (N.to_nat i)) (fst c)) cs -> forall n,
  led_by t n (map (fun c : list N * ukey macro => (map (moved L) (fst c), snd c)) cs) = source_led L t cs n.
Proof.
  intros H. unfold source_led. induction H as [|c cs Hc H IH]; intros n; cbn [map led_by].
  - destruct (nth_error L t) as [[s|]|]; reflexivity.
  - rewrite IH. cbn [snd]. assert (X : first_in t (map (moved L) (fst c), snd c) = match nth_error L t with Some (Some s) => first_in s c | _ => false end).
    { unfold first_in. cbn [fst]. destruct Hc as [|i l Hi _]; cbn [map]; [destruct (nth_error L t) as [[s|]|]; reflexivity|apply moved_is; exact Hi]. }
    rewrite X. destruct (nth_error L t) as [[s|]|]; cbn; reflexivity.
Qed.
Lemma part_moved L t cs : Forall (fun c => Forall (fun i => once L (N.to_nat i)) (fst c)) cs ->
  existsb (part_of t) (map (fun c : list N * ukey macro => (map (moved L) (fst c), snd c)) cs) = match nth_error L t with Some (Some s) => existsb (part_of s) cs | _ => false end.
Proof.
  induction 1 as [|c cs Hc H IH]; cbn [map existsb]; [destruct (nth_error L t) as [[s|]|]; reflexivity|]. rewrite IH.
  assert (X : part_of t (map (moved L) (fst c), snd c) = match nth_error L t with Some (Some s) => part_of s c | _ => false end).
  { unfold part_of. cbn [fst]. induction Hc as [|i l Hi Hl IHl]; cbn [map existsb]; [destruct (nth_error L t) as [[s|]|]; reflexivity|]. rewrite IHl, moved_is by exact Hi. destruct (nth_error L t) as [[s|]|]; reflexivity. }
  rewrite X. destruct (nth_error L t) as [[s|]|]; reflexivity.
Qed.
Lemma taken_at {A} (d d' : A) L l t s : nth_error L t = Some (Some s) -> (s < length l)%nat -> nth t (map (taken d l) L) d' = nth s l d'.
Proof.
  intros Ht Hs. apply nth_error_nth. rewrite nth_error_map, Ht. cbn. f_equal. now apply nth_indep.
Qed.
Lemma column_moved n L us t s : within n L -> Forall (fun u : list (option (ukey macro)) => length u = n) us -> nth_error L t = Some (Some s) ->
  column (map (fun u => map (taken (Some nothing) u) L) us) t = column us s.
Proof.
  intros HL H Ht. assert (Hs : (s < n)%nat) by (apply HL; now apply nth_error_In in Ht). unfold column. rewrite map_map. apply map_ext_in. intros u Hu.
  rewrite Forall_forall in H. apply H in Hu. apply taken_at; [exact Ht|lia].
Qed.
Lemma column_none L us t : nth_error L t = Some None -> column (map (fun u => map (taken (Some nothing) u) L) us) t = repeat (Some nothing) (length us).
Proof.
  intros Ht. unfold column. rewrite map_map. induction us as [|u us IH]; [reflexivity|]. cbn [map length repeat]. f_equal; [|exact IH].
  apply nth_error_nth. rewrite nth_error_map, Ht. reflexivity.
Qed.
Definition nothing_at (lo : layout) : ukey macro := match lo_uppers lo with [] => nothing | us => ULayered nothing (repeat (Some nothing) (length us)) end.
Lemma positions_nth lo : forall bs a t, nth_error (positions_from lo a bs) t = option_map (position lo (a + t)) (nth_error bs t).
Proof.
  induction bs as [|b bs IH]; intros a [|t]; cbn; try reflexivity; [now rewrite Nat.add_0_r|]. rewrite IH. f_equal. f_equal. lia.
Qed.
Lemma positions_moved n L lo t : remappable n L lo ->
  nth_error (positions (laid_out L lo)) t = match nth_error L t with Some (Some s) => nth_error (positions lo) s | Some None => Some (nothing_at lo) | None => None end.
Proof.
  intros ((Hb & Hu) & HL & Hc). unfold positions. rewrite positions_nth. cbn [laid_out lo_base Nat.add]. rewrite nth_error_map.
  destruct (nth_error L t) as [[s|]|] eqn:Et; cbn [option_map taken]; [| |reflexivity].
  - rewrite positions_nth. assert (Hs : (s < n)%nat) by (apply HL; now apply nth_error_In in Et). rewrite (nth_error_nth' (lo_base lo) nothing) by lia. cbn [option_map Nat.add]. f_equal.
    unfold position, stacked. cbn [laid_out lo_chords lo_uppers]. rewrite led_moved, part_moved, (column_moved n L _ _ _ HL Hu Et) by exact Hc. unfold source_led. rewrite Et. reflexivity.
  - f_equal. unfold position, stacked. cbn [laid_out lo_chords lo_uppers]. rewrite led_moved, part_moved, column_none by assumption. unfold source_led. rewrite Et.
    unfold nothing_at. destruct (lo_uppers lo); reflexivity.
Qed.
Lemma positions_length lo : length (positions lo) = length (lo_base lo).
Proof. unfold positions. generalize 0%nat. generalize (lo_base lo). intros l. induction l as [|x l IH]; intros n; cbn; auto. Qed.

Lemma laid_out_sound n L lo : remappable n L lo -> sound lo -> L <> [] -> sound (laid_out L lo).
Proof.
  intros HR (S1 & S2 & S3 & S4 & S5 & S6 & S7 & S8) HLn. pose proof HR as ((Hb & Hu) & HL & Hc).
  assert (Hfree : chord_free nothing) by (constructor; reflexivity).
  split; [destruct L; [now elim HLn|discriminate]|]. cbn [laid_out lo_base lo_uppers lo_chords]. split; [|split; [|split; [|split; [|split; [|split]]]]].
  - apply Forall_forall. intros u' Hin. apply in_map_iff in Hin as (u & <- & _). rewrite !map_length. lia.
  - apply Forall_forall. intros c' Hin. apply in_map_iff in Hin as (c & <- & Hin). rewrite Forall_forall in S3. apply S3 in Hin. cbn. intros X. apply map_eq_nil in X. contradiction.
  - apply Forall_forall. intros k Hin. apply in_map_iff in Hin as ([i|] & <- & Hin); [|exact Hfree]. cbn. destruct (nth_in_or_default i (lo_base lo) nothing) as [X| ->]; [|exact Hfree]. rewrite Forall_forall in S4. now apply S4.
  - apply Forall_forall. intros u' Hin. apply in_map_iff in Hin as (u & <- & Hin). rewrite Forall_forall in S5. apply S5 in Hin. apply Forall_forall. intros o Ho k ->. apply in_map_iff in Ho as ([i|] & Ho & _); cbn in Ho; [|injection Ho as <-; exact Hfree].
    rewrite Forall_forall in Hin. destruct (nth_in_or_default i u (Some nothing)) as [X|X]; [eapply Hin; [exact X|exact Ho]|]. rewrite X in Ho. injection Ho as <-. exact Hfree.
  - apply Forall_forall. intros c' Hin. apply in_map_iff in Hin as (c & <- & Hin). rewrite Forall_forall in S6. exact (S6 c Hin).
  - intros t b Hbt Htr. rewrite nth_error_map in Hbt. destruct (nth_error L t) as [[s|]|] eqn:Et; [| |discriminate]; injection Hbt as <-.
    + rewrite (column_moved n L _ _ _ HL Hu Et) in Htr. apply (S7 s); [|exact Htr]. apply nth_error_nth'. rewrite Hb. apply HL. now apply nth_error_In in Et.
    + split; reflexivity.
  - apply Forall_forall. intros k Hin. apply In_nth_error in Hin as (t & Ht). change (nth_error (positions (laid_out L lo)) t = Some k) in Ht. rewrite (positions_moved n L lo t HR) in Ht. rewrite Forall_forall in S8.
    destruct (nth_error L t) as [[s|]|]; [apply S8; now apply nth_error_In in Ht| |discriminate]. injection Ht as <-. unfold nothing_at. destruct (lo_uppers lo) as [|u us]; [intros p []|]. intros p Hp. right.
    assert (p = nothing) as ->; [|constructor]. change (In p (nothing :: flat_map (fun o => match o with Some k => [k] | None => [] end) (repeat (Some nothing) (length (u :: us))))) in Hp.
    destruct Hp as [<-|Hp]; [reflexivity|]. apply in_flat_map in Hp as (o & Ho & Hp). apply repeat_spec in Ho. subst. destruct Hp as [<-|[]]. reflexivity.
Qed.

(** *** Behaviour *)
Lemma laid_out_simple n L lo : remappable n L lo -> simple_layout lo -> layers_left L lo -> simple_layout (laid_out L lo).
Proof.
  intros ((Hb & Hu) & HL & _) (S1 & S2 & S3 & S4) Hl. unfold simple_layout. cbn [laid_out lo_base lo_uppers lo_chords]. rewrite !map_length.
  assert (Hn : simple_key (length (lo_uppers lo)) nothing) by (split; [eexists; constructor|intros l X; discriminate X]).
  split; [rewrite S1; reflexivity|]. split; [|split].
  - apply Forall_forall. intros k Hin. apply in_map_iff in Hin as ([i|] & <- & Hin); [|exact Hn]. cbn. destruct (nth_in_or_default i (lo_base lo) nothing) as [X| ->]; [|exact Hn]. rewrite Forall_forall in S2. now apply S2.
  - apply Forall_forall. intros u' Hin. apply in_map_iff in Hin as (u & <- & Hin). rewrite Forall_forall in S3. apply S3 in Hin. apply Forall_forall. intros o Ho k ->. apply in_map_iff in Ho as ([i|] & Ho & _); cbn in Ho; [|injection Ho as <-; exact Hn].
    rewrite Forall_forall in Hin. destruct (nth_in_or_default i u (Some nothing)) as [X|X]; [eapply Hin; [exact X|exact Ho]|]. rewrite X in Ho. injection Ho as <-. exact Hn.
  - destruct (lo_uppers lo) as [|u us] eqn:Eu; [now left|]. right. destruct Hl as [Hl|[Hl|(i & Hi & Hl)]]; [rewrite Eu in Hl; discriminate Hl| |]; (apply In_nth_error in Hl as (t & Ht) || apply In_nth_error in Hi as (t & Ht)); exists t; (split; [apply nth_error_Some; congruence|]).
    + rewrite column_none by exact Ht. reflexivity.
    + rewrite (column_moved n L _ _ _ HL Hu Ht). rewrite Eu in Hl. exact Hl.
Qed.

Lemma on_layer_moved n L lo t s l k : remappable n L lo -> nth_error L t = Some (Some s) -> on_layer_is (laid_out L lo) t l k <-> on_layer_is lo s l k.
Proof.
  intros ((Hb & Hu) & HL & _) Ht. unfold on_layer_is. cbn [laid_out lo_uppers]. assert (Hs : (s < n)%nat) by (apply HL; now apply nth_error_In in Ht).
  split; intros (H1 & row & H2 & H3); (split; [exact H1|]).
  - rewrite nth_error_map in H2. destruct (nth_error (lo_uppers lo) (N.to_nat (l - 1))) as [u|] eqn:E; [|discriminate]. injection H2 as <-. exists u. split; [reflexivity|].
    rewrite nth_error_map, Ht in H3. cbn in H3. injection H3 as H3. rewrite Forall_forall in Hu. pose proof (Hu u (nth_error_In _ _ E)) as Hlu. rewrite (nth_error_nth' u (Some nothing)) by lia. now rewrite H3.
  - exists (map (taken (Some nothing) row) L). split; [rewrite nth_error_map, H2; reflexivity|]. rewrite nth_error_map, Ht. cbn. f_equal. now apply nth_error_nth.
Qed.
Lemma shows_moved n L lo t s on def k : remappable n L lo -> nth_error L t = Some (Some s) -> shows lo s on def k -> shows (laid_out L lo) t on def k.
Proof.
  intros HR Ht H. pose proof (fun l k => on_layer_moved n L lo t s l k HR Ht) as X. destruct H as [l k H1 H2 H3|l k H1 H2 H3|k H1 H2 H3].
  - eapply shows_layer; [exact H1|now apply X|]. intros l' k' A B. apply X in B. eapply H3; eassumption.
  - eapply shows_default; [|exact H2|now apply X]. intros l' k' A B. apply X in B. eapply H1; eassumption.
  - apply shows_base; [intros l' k' A B; apply X in B; eapply H1; eassumption|intros l' k' A B; apply X in B; eapply H2; eassumption|].
    cbn [laid_out lo_base]. rewrite nth_error_map, Ht. cbn. f_equal. now apply nth_error_nth.
Qed.
Lemma shows_nothing L lo t on def k : nth_error L t = Some None -> shows (laid_out L lo) t on def k -> k = nothing.
Proof.
  intros Ht H. assert (X : forall l k, on_layer_is (laid_out L lo) t l k -> k = nothing).
  { intros l k' (_ & row & H2 & H3). cbn [laid_out lo_uppers] in H2. rewrite nth_error_map in H2. destruct (nth_error (lo_uppers lo) _); [|discriminate]. injection H2 as <-. rewrite nth_error_map, Ht in H3. cbn in H3. now injection H3. }
  destruct H as [l k H1 H2 H3|l k H1 H2 H3|k H1 H2 H3]; [eapply X; exact H2|eapply X; exact H3|]. cbn [laid_out lo_base] in H3. rewrite nth_error_map, Ht in H3. cbn in H3. now injection H3.
Qed.

(** Keys that are down are placed. *)
Definition down_placed (L : list (option nat)) (b : board) : Prop := forall i m, In (inl (i, m)) (bd_down b) -> once L (N.to_nat i).
Lemma moved_inj L i j : once L (N.to_nat i) -> once L (N.to_nat j) -> moved L i = moved L j -> i = j.
Proof.
  intros Hi Hj H. unfold moved in H. apply Nat2N.inj in H. apply once_place in Hi, Hj. rewrite H in Hi. rewrite Hi in Hj. injection Hj as Hj. now apply N2Nat.inj.
Qed.
Definition move_down (L : list (option nat)) (x : u16 * meaning + key_output) : u16 * meaning + key_output := match x with inl (i, m) => inl (moved L i, m) | inr ko => inr ko end.
Lemma down_moved L b : bd_down (move_board L b) = map (move_down L) (bd_down b).
Proof. reflexivity. Qed.
Lemma this_moved L i l : once L (N.to_nat i) -> (forall j m, In (inl (j, m)) l -> once L (N.to_nat j)) ->
  existsb (this_key (moved L i)) (map (move_down L) l) = existsb (this_key i) l /\ remove_first (this_key (moved L i)) (map (move_down L) l) = map (move_down L) (remove_first (this_key i) l).
Proof.
  intros Hi. induction l as [|x l IH]; intros Hl; [split; reflexivity|]. destruct IH as (IH1 & IH2); [intros j m Hj; eapply Hl; right; exact Hj|].
  assert (X : this_key (moved L i) (move_down L x) = this_key i x).
  { destruct x as [[j m]|ko]; [|reflexivity]. cbn. destruct (N.eqb_spec i j) as [->|Hne]; [apply N.eqb_refl|]. apply N.eqb_neq. intros E. apply Hne. eapply moved_inj; [exact Hi| |exact E]. eapply Hl. now left. }
  cbn [map existsb remove_first]. rewrite X, IH1. split; [reflexivity|]. destruct (this_key i x); [reflexivity|]. cbn [map]. now rewrite IH2.
Qed.
Lemma virtual_moved L ko l : remove_first (this_virtual ko) (map (move_down L) l) = map (move_down L) (remove_first (this_virtual ko) l).
Proof.
  induction l as [|x l IH]; [reflexivity|]. cbn [map remove_first]. assert (X : this_virtual ko (move_down L x) = this_virtual ko x) by (destruct x as [[j m]|ko']; reflexivity). rewrite X. destruct (this_virtual ko x); [reflexivity|]. cbn [map]. now rewrite IH.
Qed.
Lemma remove_sub {A} (P : A -> bool) l x : In x (remove_first P l) -> In x l.
Proof. induction l as [|y l IH]; cbn; [tauto|]. destruct (P y); [now right|]. intros [->|H]; [now left|right; now apply IH]. Qed.
Lemma switch_down n e b : bd_down (switch n e b) = bd_down b.
Proof. destruct e; reflexivity. Qed.
Lemma switch_moved L n e b : switch n e (move_board L b) = move_board L (switch n e b).
Proof. destruct e; reflexivity. Qed.
Lemma step_moved n L lo b ie b' : remappable n L lo -> down_placed L b -> names_placed L ie -> layout_step lo b ie b' ->
  layout_step (laid_out L lo) (move_board L b) (move_input L ie) (move_board L b') /\ down_placed L b'.
Proof.
  intros HR Hd Hi H.
  assert (HU : length (lo_uppers (laid_out L lo)) = length (lo_uppers lo)) by (cbn; apply map_length).
  destruct H as [i H|i k m H1 H2 H3 H4|i m H|i H|ko|ko]; cbn [move_input names_placed] in *.
  - split; [|exact Hd]. apply ls_press_again. rewrite down_moved. now rewrite (proj1 (this_moved L i _ Hi Hd)).
  - pose proof (once_place _ _ Hi) as Hp. split.
    + replace (move_board L (switch (length (lo_uppers lo)) (at_press m) (set_down b (bd_down b ++ [inl (i, m)]))))
        with (switch (length (lo_uppers (laid_out L lo))) (at_press m) (set_down (move_board L b) (bd_down (move_board L b) ++ [inl (moved L i, m)]))).
      * eapply ls_press; [rewrite down_moved; now rewrite (proj1 (this_moved L i _ Hi Hd))| |unfold moved; rewrite Nat2N.id; eapply shows_moved; [exact HR|exact Hp|exact H3]|exact H4].
        unfold moved. rewrite Nat2N.id. cbn [laid_out lo_base]. rewrite map_length. apply nth_error_Some. congruence.
      * rewrite HU, <- switch_moved. f_equal. unfold set_down, move_board. cbn [bd_down bd_on bd_default]. rewrite map_app. reflexivity.
    + intros j mj Hj. rewrite switch_down in Hj. cbn [set_down bd_down] in Hj. apply in_app_or in Hj as [Hj|[Hj|[]]]; [eapply Hd; exact Hj|]. injection Hj as <- _. exact Hi.
  - split.
    + replace (move_board L (switch (length (lo_uppers lo)) (at_release m) (set_down b (remove_first (this_key i) (bd_down b)))))
        with (switch (length (lo_uppers (laid_out L lo))) (at_release m) (set_down (move_board L b) (remove_first (this_key (moved L i)) (bd_down (move_board L b))))).
      * apply ls_release. rewrite down_moved. apply in_map_iff. exists (inl (i, m)). split; [reflexivity|exact H].
      * rewrite HU, <- switch_moved. f_equal. unfold set_down, move_board. cbn [bd_down bd_on bd_default]. f_equal. apply (this_moved L i _ Hi Hd).
    + intros j mj Hj. rewrite switch_down in Hj. cbn [set_down bd_down] in Hj. apply remove_sub in Hj. eapply Hd; exact Hj.
  - split; [|exact Hd]. apply ls_release_again. rewrite down_moved. now rewrite (proj1 (this_moved L i _ Hi Hd)).
  - split.
    + replace (move_board L (set_down b (bd_down b ++ [inr ko]))) with (set_down (move_board L b) (bd_down (move_board L b) ++ [inr ko])) by (unfold set_down, move_board; cbn [bd_down bd_on bd_default]; rewrite map_app; reflexivity). constructor.
    + intros j mj Hj. cbn [set_down bd_down] in Hj. apply in_app_or in Hj as [Hj|[Hj|[]]]; [eapply Hd; exact Hj|discriminate].
  - split.
    + replace (move_board L (set_down b (remove_first (this_virtual ko) (bd_down b)))) with (set_down (move_board L b) (remove_first (this_virtual ko) (bd_down (move_board L b)))) by (unfold set_down, move_board; cbn [bd_down bd_on bd_default]; f_equal; apply virtual_moved). constructor.
    + intros j mj Hj. cbn [set_down bd_down] in Hj. apply remove_sub in Hj. eapply Hd; exact Hj.
Qed.
Lemma run_moved n L lo h b : remappable n L lo -> Forall (names_placed L) h -> layout_run lo h b ->
  layout_run (laid_out L lo) (map (move_input L) h) (move_board L b) /\ down_placed L b.
Proof.
  intros HR Hh H. induction H as [|h b ie b' H IH Hs]; [split; [constructor|intros i m []]|]. apply Forall_app in Hh as (Hh & Hi). inversion_clear Hi as [|? ? Hi' _]. destruct (IH Hh) as (IH1 & IH2).
  destruct (step_moved n L lo b ie b' HR IH2 Hi' Hs) as (A & B). split; [|exact B]. rewrite map_app. cbn [map]. eapply lr_input; eassumption.
Qed.
Lemma calls_moved n L lo h cs : remappable n L lo -> Forall (names_placed L) h -> layout_calls lo h cs -> layout_calls (laid_out L lo) (map (move_input L) h) cs.
Proof.
  intros HR Hh H. induction H as [|h b ie cs cs' Hr H IH Hs]; [constructor|]. apply Forall_app in Hh as (Hh & Hi). inversion_clear Hi as [|? ? Hi' _].
  destruct (run_moved n L lo h b HR Hh Hr) as (A & B). rewrite map_app. cbn [map]. eapply ly_input; [exact A|now apply IH|].
  destruct Hs as [i cb H1 H2 H3|i k H1 H2 H3 H4|i H1|ie H1]; cbn [move_input names_placed] in *.
  - pose proof (once_place _ _ Hi') as Hp. apply lc_call; [rewrite down_moved; now rewrite (proj1 (this_moved L i _ Hi' B))| |unfold moved; rewrite Nat2N.id; eapply shows_moved; eassumption].
    unfold moved. rewrite Nat2N.id. cbn [laid_out lo_base]. rewrite map_length. apply nth_error_Some. congruence.
  - pose proof (once_place _ _ Hi') as Hp. eapply lc_key; [rewrite down_moved; now rewrite (proj1 (this_moved L i _ Hi' B))| |unfold moved; rewrite Nat2N.id; eapply shows_moved; eassumption|exact H4].
    unfold moved. rewrite Nat2N.id. cbn [laid_out lo_base]. rewrite map_length. apply nth_error_Some. congruence.
  - apply lc_again. rewrite down_moved. now rewrite (proj1 (this_moved L i _ Hi' B)).
  - apply lc_none. intros i. destruct ie as [j|j|ko|ko]; cbn; try discriminate. exfalso. now apply (H1 j).
Qed.
Lemma output_moved L b : board_output (move_board L b) = board_output b.
Proof.
  unfold board_output. cbn [move_board bd_down]. induction (bd_down b) as [|x l IH]; [reflexivity|]. cbn [map Base.filter_map]. destruct x as [[i m]|ko]; [destruct m|]; cbn; rewrite IH; reflexivity.
Qed.

(** *** What is called is determined by the history *)
Lemma shows_fun lo i on on' def k k' : (forall l, on l = on' l) -> shows lo i on def k -> shows lo i on' def k' -> k = k'.
Proof.
  intros Ho H H'. assert (F : forall l k1 k2, on_layer_is lo i l k1 -> on_layer_is lo i l k2 -> k1 = k2).
  { intros l k1 k2 (_ & r & R1 & R2) (_ & r' & R1' & R2'). congruence. }
  destruct H as [l k H1 H2 H3|l k H1 H2 H3|k H1 H2 H3], H' as [l' k' H1' H2' H3'|l' k' H1' H2' H3'|k' H1' H2' H3'];
    try (exfalso; eapply H1'; [rewrite <- Ho; exact H1|exact H2]);
    try (exfalso; eapply H1; [rewrite Ho; exact H1'|exact H2']).
  - assert (l = l'). { apply N.le_antisymm; [eapply H3'; [rewrite <- Ho|]; eassumption|eapply H3; [rewrite Ho|]; eassumption]. } subst. eapply F; eassumption.
  - assert (l = l') by congruence. subst. eapply F; eassumption.
  - exfalso. eapply H2'; eassumption.
  - exfalso. eapply H2; eassumption.
  - congruence.
Qed.
Lemma step_calls_fun lo b b' ie c c' : same_board b b' -> layout_step_calls lo b ie c -> layout_step_calls lo b' ie c' -> c = c'.
Proof.
  intros (E1 & E2 & E3) H H'. destruct H as [i cb H1 H2 H3|i k H1 H2 H3 H4|i H1|ie H1].
  - inversion H' as [j cb' I1 I2 I3|j k' I1 I2 I3 I4|j I1|j I1]; subst; try congruence.
    + rewrite <- E3 in I3. pose proof (shows_fun _ _ _ _ _ _ _ E2 H3 I3). congruence.
    + rewrite <- E3 in I3. pose proof (shows_fun _ _ _ _ _ _ _ E2 H3 I3). subst. now destruct (I4 cb).
    + now destruct (I1 i).
  - inversion H' as [j cb' I1 I2 I3|j k' I1 I2 I3 I4|j I1|j I1]; subst; try congruence.
    rewrite <- E3 in I3. pose proof (shows_fun _ _ _ _ _ _ _ E2 H3 I3). subst. now destruct (H4 cb').
  - inversion H' as [j cb' I1 I2 I3|j k' I1 I2 I3 I4|j I1|j I1]; subst; congruence.
  - inversion H' as [j cb' I1 I2 I3|j k' I1 I2 I3 I4|j I1|j I1]; subst; try reflexivity. now destruct (H1 j).
Qed.
Lemma layout_calls_fun lo : (forall h b1 b2, layout_run lo h b1 -> layout_run lo h b2 -> same_board b1 b2) ->
  forall h cs cs', layout_calls lo h cs -> layout_calls lo h cs' -> cs = cs'.
Proof.
  intros U h cs cs' H. revert cs'. induction H as [|h b ie cs cs1 Hr H IH Hs]; intros cs' H'.
  - inversion H' as [|h' b' ie' x y Hr' Hh' Hs' Eh]; [reflexivity|]. destruct h'; discriminate.
  - inversion H' as [Eh|h' b' ie' x y Hr' Hh' Hs' Eh]; [destruct h; discriminate|]. apply app_inj_tail in Eh as (-> & ->).
    rewrite (IH _ Hh'). f_equal. eapply step_calls_fun; [|exact Hs|exact Hs']. eapply U; eassumption.
Qed.

(** *** Keys without a function make no difference *)
Definition real (L : list (option nat)) (x : u16 * meaning + key_output) : bool :=
  match x with inl (i, _) => has_place L (Press i) | inr _ => true end.
Definition mute (L : list (option nat)) (x : u16 * meaning + key_output) : Prop :=
  real L x = false -> exists i, x = inl (i, Sends (ko_from_key_code 0)).
Definition without (L : list (option nat)) (b b2 : board) : Prop :=
  bd_down b2 = filter (real L) (bd_down b) /\ bd_on b2 = bd_on b /\ bd_default b2 = bd_default b /\ Forall (mute L) (bd_down b).
Lemma filter_this L i l : has_place L (Press i) = true -> existsb (this_key i) (filter (real L) l) = existsb (this_key i) l /\
  filter (real L) (remove_first (this_key i) l) = remove_first (this_key i) (filter (real L) l).
Proof.
  intros Hi. induction l as [|x l (IH1 & IH2)]; [split; reflexivity|]. cbn [filter existsb remove_first].
  destruct (this_key i x) eqn:Ex.
  - assert (real L x = true) as ->. { destruct x as [(j & m)|ko]; [|reflexivity]. cbn in Ex. apply N.eqb_eq in Ex. subst. exact Hi. }
    cbn [existsb remove_first]. rewrite Ex. split; reflexivity.
  - destruct (real L x) eqn:Er; cbn [existsb remove_first filter]; rewrite ?Ex, ?Er, ?IH1, ?IH2; split; reflexivity.
Qed.
Lemma filter_other L i l : has_place L (Press i) = false -> filter (real L) (remove_first (this_key i) l) = filter (real L) l.
Proof.
  intros Hi. induction l as [|x l IH]; [reflexivity|]. cbn [remove_first filter]. destruct (this_key i x) eqn:Ex.
  - assert (real L x = false) as ->; [|reflexivity]. destruct x as [(j & m)|ko]; [|discriminate]. cbn in Ex. apply N.eqb_eq in Ex. subst. exact Hi.
  - cbn [filter]. now rewrite IH.
Qed.
Lemma filter_virtual L ko l : filter (real L) (remove_first (this_virtual ko) l) = remove_first (this_virtual ko) (filter (real L) l).
Proof.
  induction l as [|x l IH]; [reflexivity|]. cbn [remove_first filter]. destruct (this_virtual ko x) eqn:Ex.
  - assert (real L x = true) as -> by (destruct x as [(j & m)|?]; [discriminate|reflexivity]). cbn [remove_first]. now rewrite Ex.
  - destruct (real L x) eqn:Er; cbn [filter remove_first]; rewrite ?Ex, ?Er, ?IH; reflexivity.
Qed.
Lemma mute_remove L p l : Forall (mute L) l -> Forall (mute L) (remove_first p l).
Proof. rewrite !Forall_forall. intros H x Hx. apply H. eapply remove_sub; exact Hx. Qed.
Lemma without_step L lo b b2 ie b' : without L b b2 -> layout_step (laid_out L lo) b ie b' ->
  if has_place L ie then exists b2', layout_step (laid_out L lo) b2 ie b2' /\ without L b' b2' else without L b' b2.
Proof.
  intros (W1 & W2 & W3 & W4) H. destruct H as [i H1|i k m H1 H2 H3 H4|i m H1|i H1|ko|ko].
  - destruct (has_place L (Press i)) eqn:E; [|repeat split; assumption]. exists b2. split; [|repeat split; assumption]. apply ls_press_again. rewrite W1. now rewrite (proj1 (filter_this L i _ E)).
  - destruct (has_place L (Press i)) eqn:E.
    + eexists. split.
      * apply (ls_press _ _ i k m); [rewrite W1; now rewrite (proj1 (filter_this L i _ E))|exact H2|now rewrite W2, W3|exact H4].
      * assert (X : without L (set_down b (bd_down b ++ [inl (i, m)])) (set_down b2 (bd_down b2 ++ [inl (i, m)]))).
        { split; [|split; [|split]]; cbn [set_down bd_down bd_on bd_default]; try assumption.
          - rewrite filter_app, W1. cbn [filter]. change (real L (inl (i, m))) with (has_place L (Press i)). now rewrite E.
          - apply Forall_app. split; [exact W4|]. constructor; [|constructor]. intros X. change (real L (inl (i, m))) with (has_place L (Press i)) in X. congruence. }
        destruct (at_press m); [|exact X]. destruct X as (X1 & X2 & X3 & X4). split; [|split; [|split]]; cbn [switch bd_down bd_on bd_default]; first [exact X4|congruence].
    + assert (k = nothing) as ->. { eapply shows_nothing; [|exact H3]. cbn in E. destruct (nth_error L (N.to_nat i)) as [[?|]|]; [discriminate|reflexivity|discriminate]. }
      inversion H4; subst. cbn [at_press switch]. split; [|split; [|split]]; cbn [set_down bd_down bd_on bd_default]; try assumption.
      * rewrite filter_app, W1. cbn [filter]. change (real L (inl (i, Sends (ko_from_key_code 0)))) with (has_place L (Press i)). rewrite E. now rewrite app_nil_r.
      * apply Forall_app. split; [exact W4|]. constructor; [|constructor]. intros _. eauto.
  - change (has_place L (Release i)) with (has_place L (Press i)). destruct (has_place L (Press i)) eqn:E.
    + eexists. split.
      * apply (ls_release _ _ i m). rewrite W1. apply filter_In. split; [exact H1|exact E].
      * assert (X : without L (set_down b (remove_first (this_key i) (bd_down b))) (set_down b2 (remove_first (this_key i) (bd_down b2)))).
        { split; [|split; [|split]]; cbn [set_down bd_down bd_on bd_default]; try assumption.
          - rewrite W1. symmetry. now apply filter_this.
          - now apply mute_remove. }
        destruct (at_release m); [|exact X]. destruct X as (X1 & X2 & X3 & X4). split; [|split; [|split]]; cbn [switch bd_down bd_on bd_default]; first [exact X4|congruence].
    + rewrite Forall_forall in W4. destruct (W4 _ H1 E) as (j & Ej). injection Ej as -> ->. cbn [at_release switch].
      split; [|split; [|split]]; cbn [set_down bd_down bd_on bd_default]; try assumption.
      * rewrite W1. symmetry. now apply filter_other.
      * apply mute_remove. now apply Forall_forall.
  - change (has_place L (Release i)) with (has_place L (Press i)). destruct (has_place L (Press i)) eqn:E; [|repeat split; assumption]. exists b2. split; [|repeat split; assumption]. apply ls_release_again. rewrite W1. now rewrite (proj1 (filter_this L i _ E)).
  - cbn [has_place]. eexists. split; [apply ls_press_virtual|]. split; [|split; [|split]]; cbn [set_down bd_down bd_on bd_default]; try assumption.
    + rewrite filter_app, W1. reflexivity.
    + apply Forall_app. split; [exact W4|]. constructor; [|constructor]. intros X. discriminate X.
  - cbn [has_place]. eexists. split; [apply ls_release_virtual|]. split; [|split; [|split]]; cbn [set_down bd_down bd_on bd_default]; try assumption.
    + rewrite W1. symmetry. apply filter_virtual.
    + now apply mute_remove.
Qed.
Lemma without_run L lo h b : layout_run (laid_out L lo) h b -> exists b2, layout_run (laid_out L lo) (filter (has_place L) h) b2 /\ without L b b2.
Proof.
  intros H. induction H as [|h b ie b' H IH Hs]; [exists board_new; split; [constructor|repeat split; constructor]|]. destruct IH as (b2 & I1 & I2).
  pose proof (without_step L lo b b2 ie b' I2 Hs) as X. rewrite filter_app. cbn [filter]. destruct (has_place L ie).
  - destruct X as (b2' & X1 & X2). exists b2'. split; [|exact X2]. eapply lr_input; eassumption.
  - exists b2. rewrite app_nil_r. auto.
Qed.
Lemma without_calls L lo h cs : (forall h b1 b2, layout_run (laid_out L lo) h b1 -> layout_run (laid_out L lo) h b2 -> same_board b1 b2) ->
  layout_calls (laid_out L lo) h cs -> layout_calls (laid_out L lo) (filter (has_place L) h) cs.
Proof.
  intros U H. induction H as [|h b ie cs cs' Hr H IH Hs]; [constructor|]. rewrite filter_app. cbn [filter].
  destruct (without_run L lo h b Hr) as (b2 & R2 & W1 & W2 & W3 & W4).
  destruct (has_place L ie) eqn:E.
  - eapply ly_input; [exact R2|exact IH|]. destruct Hs as [i cb H1 H2 H3|i k H1 H2 H3 H4|i H1|ie H1].
    + apply lc_call; [rewrite W1; now rewrite (proj1 (filter_this L i _ E))|exact H2|now rewrite W2, W3].
    + eapply lc_key; [rewrite W1; now rewrite (proj1 (filter_this L i _ E))|exact H2|rewrite W2, W3; exact H3|exact H4].
    + apply lc_again. rewrite W1. now rewrite (proj1 (filter_this L i _ E)).
    + now apply lc_none.
  - rewrite app_nil_r. destruct Hs as [i cb H1 H2 H3|i k H1 H2 H3 H4|i H1|ie H1]; try (rewrite app_nil_r; exact IH).
    exfalso. assert (UCallback cb = nothing) as X; [|discriminate X]. eapply shows_nothing; [|exact H3]. cbn in E. destruct (nth_error L (N.to_nat i)) as [[?|]|]; [discriminate|reflexivity|discriminate].
Qed.
Lemma without_report L b b2 : without L b b2 -> as_hid_boot_keyboard_report (board_output b2) = as_hid_boot_keyboard_report (board_output b).
Proof.
  intros (W1 & _ & _ & W4). unfold board_output. rewrite W1. clear W1. unfold as_hid_boot_keyboard_report.
  set (f := fun x : u16 * meaning + key_output => match x with inl (_, Sends ko) => Some ko | inl _ => None | inr ko => Some ko end).
  assert (X : union_mods (Base.filter_map f (filter (real L) (bd_down b))) = union_mods (Base.filter_map f (bd_down b)) /\
    filter (fun kc => negb (kc =? 0)) (Base.filter_map keyboard_code (Base.filter_map f (filter (real L) (bd_down b)))) = filter (fun kc => negb (kc =? 0)) (Base.filter_map keyboard_code (Base.filter_map f (bd_down b)))); [|destruct X as (-> & ->); reflexivity].
  revert W4. generalize (bd_down b). intros l W4. unfold union_mods. generalize mods_new. induction W4 as [|x l Hx W4 IH]; intros a; [split; reflexivity|]. cbn [filter].
  destruct (real L x) eqn:E.
  - cbn [Base.filter_map]. destruct (f x) as [ko|]; [|apply IH]. cbn [fold_left Base.filter_map]. destruct (IH (mods_union a (ko_mods ko))) as (I1 & I2). split; [exact I1|]. destruct (keyboard_code ko); [|exact I2]. cbn [filter]. now rewrite I2.
  - destruct (Hx E) as (i & ->). cbn [Base.filter_map f]. cbn [fold_left]. replace (mods_union a (ko_mods (ko_from_key_code 0))) with a by (symmetry; apply N.lor_0_r). exact (IH a).
Qed.
