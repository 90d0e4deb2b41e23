(** Chord lookup, decision and active chords. *)
From Verif Require Import BaseFacts Output Types Scheduler Keymap Chorded Composite SpecTap SpecChord.
Local Open Scope N_scope.

Definition numbered_from (n : nat) (chords : list chord) : list (nat * chord) := combine (seq n (length chords)) chords.
Lemma numbered_from_In n chords id ch : In (id, ch) (numbered_from n chords) <-> (n <= id)%nat /\ nth_error chords (id - n) = Some ch.
Proof.
  unfold numbered_from. revert n. induction chords as [|c chords IH]; intros n; cbn.
  - split; [tauto|]. intros [_ H]. destruct (id - n)%nat; discriminate.
  - rewrite IH. split.
    + intros [H|[H1 H2]].
      * injection H as <- <-. rewrite Nat.sub_diag. auto.
      * split; [lia|]. replace (id - n)%nat with (S (id - S n)) by lia. exact H2.
    + intros [H1 H2]. destruct (Nat.eq_dec n id) as [<-|Hn].
      * rewrite Nat.sub_diag in H2. injection H2 as <-. auto.
      * right. split; [lia|]. replace (id - n)%nat with (S (id - S n)) in H2 by lia. exact H2.
Qed.
Lemma numbered_In chords id ch : In (id, ch) (numbered chords) <-> nth_error chords id = Some ch.
Proof.
  change (numbered chords) with (numbered_from 0 chords). rewrite numbered_from_In, Nat.sub_0_r. split; [now intros [_ ?]|].
  intros; split; [lia|assumption].
Qed.
Lemma find_ext {A} (f g : A -> bool) l : (forall x, In x l -> f x = g x) -> find f l = find g l.
Proof.
  induction l as [|x l IH]; intros H; [reflexivity|]. cbn. rewrite <- (H x) by now left. destruct (f x); [reflexivity|].
  apply IH. intros; apply H; now right.
Qed.
Lemma existsb_ext' {A} (f g : A -> bool) l : (forall x, In x l -> f x = g x) -> existsb f l = existsb g l.
Proof.
  induction l as [|x l IH]; intros H; [reflexivity|]. cbn. rewrite <- (H x) by now left. f_equal.
  apply IH. intros; apply H; now right.
Qed.
Lemma skipn_cons {A} (l : list A) i x : nth_error l i = Some x -> skipn i l = x :: skipn (S i) l.
Proof. revert i. induction l as [|y l IH]; intros [|i] H; try discriminate; cbn in *; [congruence|]. now apply IH. Qed.
Lemma skipn_nil' {A} (l : list A) i : nth_error l i = None -> skipn i l = [] /\ skipn (S i) l = [].
Proof. intros H. apply nth_error_None in H. split; apply skipn_all2; lia. Qed.

(** Looking for a pressed chord with a key. *)
Lemma find_pressed_chord_spec chords ki pressed : forall i o, find_pressed_chord chords i pressed ki = Ok o ->
  o = option_map (fun '(id, ch) => mkChordState id ch true)
        (find (fun '(id, ch) => nth (id - i) pressed false && member ki ch) (numbered_from i (skipn i chords))).
Proof.
  assert (Hshift : forall b t i, find (fun '(id, ch) => nth (id - i) (b :: t) false && member ki ch) (numbered_from (S i) (skipn (S i) chords))
     = find (fun '(id, ch) => nth (id - S i) t false && member ki ch) (numbered_from (S i) (skipn (S i) chords))).
  { intros b t i. apply find_ext. intros [id ch] Hin. apply numbered_from_In in Hin as [Hle _].
    replace (id - i)%nat with (S (id - S i)) by lia. reflexivity. }
  induction pressed as [|b t IH]; intros i o H; cbn [find_pressed_chord] in H.
  - inv_ok H. clear. induction (numbered_from i (skipn i chords)) as [|[id ch] l IH]; [reflexivity|]. cbn.
    destruct (id - i)%nat; exact IH.
  - assert (Hn : forall f, find f (numbered_from i (skipn i chords)) =
      match nth_error chords i with
      | Some c => if f (i, c) then Some (i, c) else find f (numbered_from (S i) (skipn (S i) chords))
      | None => find f (numbered_from (S i) (skipn (S i) chords)) end).
    { intros f. destruct (nth_error chords i) as [c|] eqn:E.
      - rewrite (skipn_cons _ _ _ E). reflexivity.
      - destruct (skipn_nil' _ _ E) as [-> ->]. reflexivity. }
    rewrite Hn, Hshift, Nat.sub_diag. cbn [nth].
    destruct b.
    + inv_bind H. apply index_ok in E. rewrite E. cbn [andb]. change (member ki a) with (has_index a ki).
      destruct (has_index a ki); [now inv_ok H|]. now apply IH.
    + rewrite (IH _ _ H). destruct (nth_error chords i); reflexivity.
Qed.

Lemma mem_sorted_insert j i l : mem j (sorted_insert i l) = mem j [i] || mem j l.
Proof.
  induction l as [|x l IH]; [cbn; now rewrite !orb_false_r|]. cbn [sorted_insert]. destruct (i =? x) eqn:E1.
  - apply N.eqb_eq in E1. subst. cbn. destruct (j =? x); reflexivity.
  - destruct (i <? x).
    + cbn. now rewrite orb_false_r.
    + cbn in IH |- *. fold (mem j (sorted_insert i l)). rewrite IH. cbn. rewrite !orb_false_r.
      destruct (j =? x), (j =? i); reflexivity.
Qed.
Lemma insert_cap_mem cap l i l' : insert_cap cap l i = Ok l' -> forall j, mem j l' = (j =? i) || mem j l.
Proof.
  unfold insert_cap. intros H j. destruct (mem i l) eqn:Em.
  - inv_ok H. destruct (j =? i) eqn:E; [|reflexivity]. apply N.eqb_eq in E. now subst.
  - destruct (length l <? cap)%nat; [|discriminate]. inv_ok H. rewrite mem_sorted_insert. cbn. now rewrite orb_false_r.
Qed.
Lemma fold_insert_mem cap c : forall acc acc', fold_res (insert_cap cap) c acc = Ok acc' ->
  forall j, mem j acc' = member j c || mem j acc.
Proof.
  induction c as [|x c IH]; intros acc acc' H j; cbn in H; [inv_ok H; reflexivity|].
  inv_bind H. rewrite (IH _ _ H), (insert_cap_mem _ _ _ _ E). cbn. unfold member. destruct (j =? x), (existsb (N.eqb j) c); reflexivity.
Qed.
Lemma span_loop_spec cap chords pressed : forall i acc res, span_loop cap chords i pressed acc = Ok res -> forall j,
  mem j res = mem j acc
    || existsb (fun '(id, ch) => nth (id - i) pressed false && member j ch) (numbered_from i (skipn i chords)).
Proof.
  induction pressed as [|b t IH]; intros i acc res H j; cbn [span_loop] in H.
  - inv_ok H. replace (existsb _ _) with false; [now rewrite orb_false_r|]. symmetry.
    induction (numbered_from i (skipn i chords)) as [|[id ch] l IH]; [reflexivity|]. cbn. destruct (id - i)%nat; exact IH.
  - assert (Hs : existsb (fun '(id, ch) => nth (id - i) (b :: t) false && member j ch) (numbered_from (S i) (skipn (S i) chords))
       = existsb (fun '(id, ch) => nth (id - S i) t false && member j ch) (numbered_from (S i) (skipn (S i) chords))).
    { apply existsb_ext'. intros [id ch] Hin. apply numbered_from_In in Hin as [Hle _].
      replace (id - i)%nat with (S (id - S i)) by lia. reflexivity. }
    assert (Hn : forall f, existsb f (numbered_from i (skipn i chords)) =
      (match nth_error chords i with Some c => f (i, c) | None => false end) || existsb f (numbered_from (S i) (skipn (S i) chords))).
    { intros f. destruct (nth_error chords i) as [c|] eqn:E.
      - rewrite (skipn_cons _ _ _ E). reflexivity.
      - destruct (skipn_nil' _ _ E) as [-> ->]. reflexivity. }
    rewrite Hn, Hs, Nat.sub_diag. cbn [nth]. destruct b.
    + inv_bind H. inv_bind H. apply index_ok in E. rewrite E. cbn [andb]. rewrite (IH _ _ _ H), (fold_insert_mem _ _ _ _ E0).
      destruct (member j a), (mem j acc); reflexivity.
    + rewrite (IH _ _ _ H). destruct (nth_error chords i); reflexivity.
Qed.
Lemma candidate_chords_spec ki span chords : forall i, candidate_chords chords i ki span =
  map (fun '(id, ch) => mkChordState id ch false)
    (filter (fun '(id, ch) => member ki ch && forallb (fun j => negb (mem j span)) ch) (numbered_from i chords)).
Proof.
  induction chords as [|c chords IH]; intros i; [reflexivity|]. cbn [candidate_chords].
  change (numbered_from i (c :: chords)) with ((i, c) :: numbered_from (S i) chords). cbn [filter].
  assert (E : (match span with [] => true | _ => forallb (fun j => negb (mem j span)) c end)
              = forallb (fun j => negb (mem j span)) c).
  { destruct span; [|reflexivity]. clear. induction c; [reflexivity|assumption]. }
  rewrite E. change (has_index c ki) with (member ki c). rewrite IH. destruct (_ && _); reflexivity.
Qed.

(** What is offered when a key is pressed. *)
Lemma chords_for_spec c ki active l :
  (forall id, nth id (chx_pressed_chords c) false = active id) ->
  chords_for_keymap_index c ki = Ok l ->
  l = match find (fun '(id, ch) => active id && member ki ch) (numbered (chc_chords (chx_config c))) with
      | Some (id, ch) => [mkChordState id ch true]
      | None => map (fun '(id, ch) => mkChordState id ch false) (offered (chc_chords (chx_config c)) active ki)
      end.
Proof.
  intros Ha H. unfold chords_for_keymap_index, pressed_chord_with_index in H. inv_bind H. apply find_pressed_chord_spec in E.
  cbn [skipn] in E. change (numbered_from 0 ?x) with (numbered x) in E.
  assert (X : find (fun '(id, ch) => nth (id - 0) (chx_pressed_chords c) false && member ki ch) (numbered (chc_chords (chx_config c)))
    = find (fun '(id, ch) => active id && member ki ch) (numbered (chc_chords (chx_config c)))).
  { apply find_ext. intros [id ch] _. now rewrite Nat.sub_0_r, Ha. }
  rewrite X in E. clear X. destruct (find _ _) as [[id ch]|]; cbn in E; subst a.
  - now inv_ok H.
  - inv_bind H. inv_ok H. rewrite candidate_chords_spec. f_equal. unfold offered. apply filter_ext. intros [id ch]. f_equal.
    assert (Y : forall j, mem j a = in_active (chc_chords (chx_config c)) active j).
    { intros j. unfold pressed_chords_indices_span in E. rewrite (span_loop_spec _ _ _ _ _ _ E j). cbn [mem existsb orb skipn].
      unfold in_active. apply existsb_ext'. intros [id' ch'] _. now rewrite Nat.sub_0_r, Ha. }
    clear -Y. induction ch as [|j ch IH]; [reflexivity|]. cbn. now rewrite Y, IH.
Qed.

(** *** The decision *)
Definition flag (ki : u16) (ps : list u16) (ch : chord) : bool := match ps with [] => false | _ => complete ki ps ch end.
Definition pks_of (ki : u16) (cands : list (nat * chord)) (ps : list u16) : ch_pks :=
  mkChPks (ki :: ps) (map (fun '(id, ch) => mkChordState id ch (flag ki ps ch)) (possible cands ps)).
Lemma first_satisfied_best cands ki ps : (forall id ch, In (id, ch) cands -> (id < 256)%nat) ->
  first_satisfied (chp_possible (pks_of ki cands ps)) = option_map N.of_nat (best cands ki ps).
Proof.
  intros Hc. cbn. unfold best.
  assert (Hp : forall id ch, In (id, ch) (possible cands ps) -> (id < 256)%nat).
  { intros id ch H. apply filter_In in H as [H _]. eauto. }
  destruct ps as [|p ps].
  - cbn [flag]. clear. induction (possible cands []) as [|[id ch] l IH]; [reflexivity|exact IH].
  - cbn [flag]. induction (possible cands (p :: ps)) as [|[id ch] l IH]; [reflexivity|]. cbn.
    destruct (complete ki (p :: ps) ch); cbn.
    + f_equal. unfold as_chord_id. apply N.mod_small. assert (id < 256)%nat by (eapply Hp; now left). lia.
    + apply IH. intros; eapply Hp; right; eauto.
Qed.
Lemma possible_snoc cands ps k : filter (fun '(_, ch) => member k ch) (possible cands ps) = possible cands (ps ++ [k]).
Proof.
  unfold possible. induction cands as [|[id ch] l IH]; [reflexivity|]. cbn. rewrite forallb_app. cbn. rewrite andb_true_r.
  destruct (forallb (fun j => member j ch) ps); cbn; [|exact IH]. destruct (member k ch); [|exact IH]. f_equal. exact IH.
Qed.
Lemma chp_press_spec max cands ki ps k : (length (ki :: ps) < max)%nat ->
  chp_press max (pks_of ki cands ps) k = Ok (pks_of ki cands (ps ++ [k])).
Proof.
  intros Hl. unfold chp_press, pks_of. cbn [chp_pressed chp_possible]. unfold push_cap.
  rewrite (proj2 (Nat.ltb_lt _ _) Hl). cbn [bind]. f_equal. f_equal. rewrite <- possible_snoc.
  induction (possible cands ps) as [|[id ch] l IH]; [reflexivity|]. cbn [map filter cs_chord].
  change (has_index ch k) with (member k ch). destruct (member k ch); [|exact IH]. cbn [map cs_index cs_chord]. f_equal; [|exact IH].
  f_equal. unfold flag. destruct (ps ++ [k]) eqn:E; [destruct ps; discriminate|]. rewrite <- E. reflexivity.
Qed.
Definition resolution_of (x : option nat) : chord_resolution :=
  match x with Some id => CrChord (N.of_nat id) | None => CrPassthrough end.
Lemma satisfied_or_pass_spec cands ki ps : (forall id ch, In (id, ch) cands -> (id < 256)%nat) ->
  chp_satisfied_or_pass (pks_of ki cands ps) = resolution_of (best cands ki ps).
Proof.
  intros H. unfold chp_satisfied_or_pass. rewrite first_satisfied_best by assumption. destruct (best cands ki ps); reflexivity.
Qed.
Lemma chp_handle_spec max cands ki hist e ev :
  (forall id ch, In (id, ch) cands -> (id < 256)%nat) ->
  (length (pressed_in (hist ++ [ev])) < max)%nat ->
  try_event as_chorded ev = Some e ->
  chp_handle_event max (pks_of ki cands (pressed_in hist)) ki e
  = Ok (match ev with EvInput (Press _) => pks_of ki cands (pressed_in (hist ++ [ev])) | _ => pks_of ki cands (pressed_in hist) end,
        option_map resolution_of (chord_rule cands ki hist ev)).
Proof.
  intros Hc Hl He.
  assert (Hpi : forall a b, pressed_in (a ++ b) = pressed_in a ++ pressed_in b).
  { clear. induction a as [|[[k|k|ko|ko]|j e|kk] a IH]; intros b; cbn; auto. now rewrite IH. }
  rewrite Hpi in Hl |- *.
  destruct ev as [[k|k|ko|ko]|j [x|x|x|x|x|x|x]|[cb|j ko]]; cbn in He; try discriminate; injection He as <-; cbn [chp_handle_event chord_rule option_map].
  - rewrite first_satisfied_best by assumption. cbn [pressed_in] in *.
    rewrite chp_press_spec by (cbn [length]; rewrite app_length in Hl; cbn in Hl; lia). cbn [bind]. f_equal. f_equal.
    unfold check_resolution. cbn [chp_possible pks_of].
    destruct (possible cands (pressed_in hist ++ [k])) as [|[id ch] [|[id2 ch2] l]] eqn:Ep; cbn [map].
    + destruct (best cands ki (pressed_in hist)); reflexivity.
    + cbn [cs_satisfied cs_index]. unfold flag. destruct (pressed_in hist ++ [k]) eqn:E; [destruct (pressed_in hist); discriminate|]. rewrite <- E in *.
      destruct (complete ki (pressed_in hist ++ [k]) ch); [|reflexivity]. cbn. f_equal. f_equal. unfold as_chord_id.
      apply N.mod_small. assert (id < 256)%nat; [|lia]. eapply Hc. eapply (proj1 (filter_In _ _ _)).
      unfold possible in Ep. rewrite Ep. now left.
    + reflexivity.
  - destruct (k =? ki); [|reflexivity]. now rewrite satisfied_or_pass_spec.
  - reflexivity.
  - reflexivity.
  - destruct x as [[id|]|]; cbn; try reflexivity. now rewrite satisfied_or_pass_spec.
  - reflexivity.
  - reflexivity.
Qed.

Lemma find_chord_key_spec {T} (l : list (chord_id * T)) id : find_chord_key l id = option_map snd (find (fun e => fst e =? id) l).
Proof. induction l as [|[i r] l IH]; [reflexivity|]. cbn. destruct (i =? id); [reflexivity|exact IH]. Qed.
Lemma chk_resolve_spec (keys : list (chord_id * ref)) pass c ki x n :
  chord_becomes (chc_chords (chx_config c)) keys pass ki x = Some n ->
  chk_resolve (mkChordedKey keys pass) c ki (resolution_of x) = Ok n.
Proof.
  destruct x as [id|]; cbn; [|now intros [= <-]]. rewrite Nat2N.id. unfold index.
  destruct (nth_error (chc_chords (chx_config c)) id) as [[|p ch]|]; try discriminate. cbn.
  destruct (p =? ki); [|now intros [= <-]]. rewrite find_chord_key_spec. destruct (find (fun e => fst e =? N.of_nat id) keys) as [e|]; [|discriminate].
  now intros [= <-].
Qed.
Lemma cha_resolve_spec pass chords ki x n :
  chord_becomes chords [] pass ki x = Some n -> cha_resolve (mkChordedAux pass) (resolution_of x) = n.
Proof.
  destruct x as [id|]; cbn; [|now intros [= <-]]. destruct (nth_error chords id) as [[|p ch]|]; try discriminate.
  destruct (p =? ki); [discriminate|]. now intros [= <-].
Qed.

Section Feed.
Variables (d : key_data) (ki : u16) (r : chorded_ref) (keys : list (chord_id * ref)) (pass : ref) (cf : chorded_config)
  (cands : list (nat * chord)).
Hypothesis Hr : chord_member d r keys pass.
Hypothesis Hc : forall id ch, In (id, ch) cands -> (id < 256)%nat.

Lemma chord_update_spec c hist ev : chx_config (cx_chorded c) = cf ->
  (length (pressed_in (hist ++ [ev])) < chc_max_chord_size cf)%nat ->
  match chord_rule cands ki hist ev with
  | Some x => forall n, chord_becomes (chc_chords cf) keys pass ki x = Some n ->
      exists p, c_update_pending d (PksChorded (pks_of ki cands (pressed_in hist))) ki c (RChorded r) ev
                = Ok (p, Some n, [resolution_event ki x])
  | None => c_update_pending d (PksChorded (pks_of ki cands (pressed_in hist))) ki c (RChorded r) ev
            = Ok (PksChorded (pks_of ki cands (pressed_in (hist ++ [ev]))), None, [])
  end.
Proof.
  intros Hcf Hl. destruct (try_event as_chorded ev) as [e|] eqn:Ee.
  - pose proof (chp_handle_spec (chc_max_chord_size cf) cands ki hist e ev Hc Hl Ee) as Hh.
    assert (Hupd : forall x n, chord_rule cands ki hist ev = Some x -> chord_becomes (chc_chords cf) keys pass ki x = Some n ->
      exists p, ch_update_pending (kd_chorded d) (kd_chorded_aux d) (pks_of ki cands (pressed_in hist)) ki (cx_chorded c) r e
        = Ok (p, Some n, [immediate (EvKey ki (ChordResolved (resolution_of x)))])).
    { intros x n Hx Hn. rewrite Hx in Hh. unfold ch_update_pending. destruct r as [i|i]; cbn in Hr.
      - unfold index. rewrite Hr. cbn [bind]. unfold chk_update_pending. rewrite Hcf, Hh. cbn [bind option_map].
        rewrite (chk_resolve_spec keys pass _ ki x n) by now rewrite Hcf. cbn. eauto.
      - destruct Hr as [Hr1 Hk]. unfold index. rewrite Hr1. cbn [bind]. unfold cha_update_pending. rewrite Hcf, Hh. cbn [bind option_map].
        rewrite Hk in Hn. rewrite (cha_resolve_spec pass _ ki x n Hn). eauto. }
    destruct (chord_rule cands ki hist ev) as [x|] eqn:Ex.
    + intros n Hn. destruct (Hupd x n eq_refl Hn) as [p Hp]. cbn [c_update_pending]. rewrite Ee, Hp. cbn. eauto.
    + cbn [c_update_pending]. rewrite Ee.
      assert (E : ch_update_pending (kd_chorded d) (kd_chorded_aux d) (pks_of ki cands (pressed_in hist)) ki (cx_chorded c) r e
        = Ok (pks_of ki cands (pressed_in (hist ++ [ev])), None, [])).
      { assert (Hpk : match ev with EvInput (Press _) => pks_of ki cands (pressed_in (hist ++ [ev])) | _ => pks_of ki cands (pressed_in hist) end
          = pks_of ki cands (pressed_in (hist ++ [ev]))).
        { assert (Hpi : forall a b, pressed_in (a ++ b) = pressed_in a ++ pressed_in b).
          { clear. induction a as [|[[k|k|ko|ko]|j e|kk] a IH]; intros b; cbn; auto. now rewrite IH. }
          destruct ev as [[k|k|ko|ko]|j x|kk]; try reflexivity; rewrite Hpi; cbn; now rewrite app_nil_r. }
        rewrite Hpk in Hh. unfold ch_update_pending. destruct r as [i|i]; cbn in Hr.
        - unfold index. rewrite Hr. cbn [bind]. unfold chk_update_pending. rewrite Hcf, Hh. reflexivity.
        - destruct Hr as [Hr1 _]. unfold index. rewrite Hr1. cbn [bind]. unfold cha_update_pending. rewrite Hcf, Hh. reflexivity. }
      rewrite E. reflexivity.
  - assert (Hno : chord_rule cands ki hist ev = None /\ pressed_in (hist ++ [ev]) = pressed_in hist).
    { assert (Hpi : forall a b, pressed_in (a ++ b) = pressed_in a ++ pressed_in b).
      { clear. induction a as [|[[k|k|ko|ko]|j e|kk] a IH]; intros b; cbn; auto. now rewrite IH. }
      rewrite Hpi. destruct ev as [ie|j [x|x|x|x|x|x|x]|kk]; cbn in Ee; try discriminate; cbn; rewrite app_nil_r; auto. }
    destruct Hno as [-> ->]. cbn [c_update_pending]. now rewrite Ee.
Qed.

Lemma chord_feed evs : Forall (fun ce => chx_config (cx_chorded (fst ce)) = cf) evs -> forall hist,
  (length (pressed_in (hist ++ map snd evs)) < chc_max_chord_size cf)%nat ->
  match first_decision (chord_rule cands ki) hist (map snd evs) with
  | Some (x, rest) => forall n, chord_becomes (chc_chords cf) keys pass ki x = Some n ->
      feed d ki (RChorded r) (PksChorded (pks_of ki cands (pressed_in hist))) evs = Ok (Became n rest, [resolution_event ki x])
  | None => exists p, feed d ki (RChorded r) (PksChorded (pks_of ki cands (pressed_in hist))) evs = Ok (Undecided p, [])
  end.
Proof.
  induction 1 as [|[c ev] evs Hcf Hevs IH]; intros hist Hl.
  - cbn. eauto.
  - cbn [map fst snd] in *. cbn [first_decision feed].
    assert (Hle : (length (pressed_in (hist ++ [ev])) <= length (pressed_in (hist ++ ev :: map snd evs)))%nat).
    { assert (Hpi : forall a b, pressed_in (a ++ b) = pressed_in a ++ pressed_in b).
      { clear. induction a as [|[[k|k|ko|ko]|j e|kk] a IH]; intros b; cbn; auto. now rewrite IH. }
      change (hist ++ ev :: map snd evs) with (hist ++ [ev] ++ map snd evs). rewrite app_assoc, (Hpi (hist ++ [ev])), app_length. lia. }
    pose proof (chord_update_spec c hist ev Hcf ltac:(lia)) as Hu.
    destruct (chord_rule cands ki hist ev) as [x|].
    + intros n Hn. destruct (Hu n Hn) as [p Hp]. rewrite Hp. reflexivity.
    + rewrite Hu. cbn [bind]. specialize (IH (hist ++ [ev])). rewrite <- app_assoc in IH. specialize (IH Hl).
      destruct (first_decision (chord_rule cands ki) (hist ++ [ev]) (map snd evs)) as [[x rest]|].
      * intros n Hn. rewrite (IH n Hn). reflexivity.
      * destruct IH as [p Hp]. exists p. rewrite Hp. reflexivity.
Qed.

(** The result of pressing the key. *)
Lemma chord_press c active pr kes :
  chx_config (cx_chorded c) = cf -> (length (chc_chords cf) <= 256)%nat ->
  (forall id, nth id (chx_pressed_chords (cx_chorded c)) false = active id) ->
  c_new_pressed_key d ki c (RChorded r) = Ok (pr, kes) ->
  (sufficient_idle_time (cx_chorded c) = false -> pr = PkNewPressedKey (NpkKey pass) /\ kes = [])
  /\ (sufficient_idle_time (cx_chorded c) = true ->
      match find (fun '(id, ch) => active id && member ki ch) (numbered (chc_chords cf)) with
      | Some (id, _) => kes = [] /\ forall n, chord_becomes (chc_chords cf) keys pass ki (Some id) = Some n -> pr = PkNewPressedKey n
      | None => match offered (chc_chords cf) active ki with
                | [] => pr = PkNewPressedKey (NpkKey pass) /\ kes = []
                | cands => pr = PkPending (undecided ki cands)
                           /\ kes = [mkSE (After (chc_timeout cf)) (EvKey ki (CeChorded ChTimeout))]
                end
      end).
Proof.
  intros Hcf Hn Ha H. cbn [c_new_pressed_key] in H. inv_bind H. destruct a as [p ke]. injection H as <- <-.
  assert (K : exists l, chords_for_keymap_index (cx_chorded c) ki = Ok l
    /\ ((exists rr, ch_initial_resolution (cx_chorded c) (mkChPks [ki] l) = PcResolved rr /\ ke = []
           /\ exists n, p = PkNewPressedKey n /\ (forall x n', rr = resolution_of x -> chord_becomes (chc_chords cf) keys pass ki x = Some n' -> n' = n))
        \/ (exists o, ch_initial_resolution (cx_chorded c) (mkChPks [ki] l) = PcPending o
           /\ p = PkPending (mkChPks [ki] l) /\ ke = [after (chc_timeout cf) (EvKey ki ChTimeout)]))).
  { assert (Hnew : forall p0, ch_pks_new (cx_chorded c) ki = Ok p0 -> exists l, chords_for_keymap_index (cx_chorded c) ki = Ok l /\ p0 = mkChPks [ki] l).
    { unfold ch_pks_new. intros p0 H. inv_bind H. inv_bind H. injection H as <-. apply push_cap_ok in E0 as [-> _]. eauto. }
    unfold ch_new_pressed_key in E. destruct r as [i|i]; cbn in Hr.
    - unfold index in E. rewrite Hr in E. cbn [bind] in E. unfold chk_new_pressed_key in E. inv_bind E.
      apply Hnew in E0 as (l & El & ->). exists l. split; [exact El|].
      destruct (ch_initial_resolution _ _) as [rr|o] eqn:Ei.
      + inv_bind E. injection E as <- <-. left. exists rr. split; [reflexivity|]. split; [reflexivity|]. exists a. split; [reflexivity|].
        intros x n' -> Hb. rewrite <- Hcf in Hb. apply chk_resolve_spec in Hb. rewrite Hb in E0. congruence.
      + injection E as <- <-. right. exists o. rewrite Hcf. auto.
    - destruct Hr as [Hr1 Hk]. unfold index in E. rewrite Hr1 in E. cbn [bind] in E. unfold cha_new_pressed_key in E. inv_bind E.
      apply Hnew in E0 as (l & El & ->). exists l. split; [exact El|].
      destruct (ch_initial_resolution _ _) as [rr|o] eqn:Ei.
      + injection E as <- <-. left. exists rr. split; [reflexivity|]. split; [reflexivity|]. eexists. split; [reflexivity|].
        intros x n' -> Hb. rewrite Hk in Hb. apply cha_resolve_spec in Hb. congruence.
      + injection E as <- <-. right. exists o. rewrite Hcf. auto. }
  destruct K as (l & El & K). apply chords_for_spec with (active := active) in El; [|exact Ha]. rewrite Hcf in El.
  unfold ch_initial_resolution in K. split; intros Hs; rewrite Hs in K.
  - destruct K as [(rr & Hrr & -> & n & -> & Hb)|(o & Ho & _)]; [|discriminate]. injection Hrr as <-.
    rewrite <- (Hb None (NpkKey pass) eq_refl eq_refl). auto.
  - destruct (find _ _) as [[id ch]|] eqn:Ef.
    + subst l. cbn [check_resolution chp_possible cs_satisfied cs_index] in K.
      destruct K as [(rr & Hrr & -> & n & -> & Hb)|(o & Ho & _)]; [|discriminate]. split; [reflexivity|]. intros n' Hn'.
      injection Hrr as <-. rewrite (Hb (Some id) n'); [reflexivity| |exact Hn']. cbn. f_equal. unfold as_chord_id. apply N.mod_small.
      apply find_some in Ef as [Ef _]. apply numbered_In in Ef. assert (id < length (chc_chords cf))%nat by (apply nth_error_Some; congruence). lia.
    + subst l. destruct (offered (chc_chords cf) active ki) as [|[id ch] t] eqn:Eo.
      * cbn in K. destruct K as [(rr & Hrr & -> & n & -> & Hb)|(o & Ho & _)]; [|discriminate]. injection Hrr as <-.
        rewrite <- (Hb None (NpkKey pass) eq_refl eq_refl). auto.
      * cbn [map check_resolution chp_possible cs_satisfied] in K.
        assert (X : exists o, match map (fun '(id, ch) => mkChordState id ch false) t with
          | [] => PcPending (first_satisfied [mkChordState id ch false])
          | _ => PcPending (first_satisfied (mkChordState id ch false :: map (fun '(id, ch) => mkChordState id ch false) t)) end = PcPending o)
          by (destruct t as [|[id2 ch2] t]; cbn; eauto).
        destruct X as [o Ho]. 
        destruct K as [(rr & Hrr & _)|(o' & Ho' & -> & ->)].
        -- exfalso. destruct t as [|[id2 ch2] t]; discriminate.
        -- split; reflexivity.
Qed.
End Feed.

(** *** Active chords *)
Lemma clear_chords_nth chords ki : forall pressed id,
  nth id (clear_chords chords pressed ki) false =
  match nth_error chords id with Some ch => if member ki ch then false else nth id pressed false | None => nth id pressed false end.
Proof.
  induction chords as [|c chords IH]; intros pressed id; cbn.
  - destruct id; reflexivity.
  - destruct pressed as [|b pressed]; cbn.
    + destruct id; cbn; [destruct (member ki c); reflexivity|]. destruct (nth_error chords id) as [ch|]; [destruct (member ki ch)|]; reflexivity.
    + destruct id; cbn; [reflexivity|apply IH].
Qed.
Lemma set_nth_nth {A} (l : list A) i v j dft : (i < length l)%nat -> nth j (set_nth l i v) dft = if (i =? j)%nat then v else nth j l dft.
Proof.
  revert i j. induction l as [|x l IH]; intros [|i] [|j] H; cbn in *; try lia; auto. apply IH. lia.
Qed.
Lemma active_chords h : forall cf c, fold_res step_chorded h (ch_ctx_new cf) = Ok c ->
  chx_config c = cf /\ forall id, nth id (chx_pressed_chords c) false = active_after (chc_chords cf) (rev h) id.
Proof.
  induction h as [|ev h IH] using rev_ind; intros cf c H.
  - cbn in H. inv_ok H. split; [reflexivity|]. intros id. cbn. revert id. generalize (chc_max_chords cf) as n.
    induction n; intros [|id]; cbn; auto.
  - assert (Hs : exists c1, fold_res step_chorded h (ch_ctx_new cf) = Ok c1 /\ step_chorded c1 ev = Ok c).
    { clear IH. revert H. generalize (ch_ctx_new cf) as c0. induction h as [|e h IH]; intros c0 H; cbn in *.
      - inv_bind H. inv_ok H. eauto.
      - destruct (step_chorded c0 e) as [c1| |]; cbn in *; try discriminate. apply IH. exact H. }
    destruct Hs as (c1 & H1 & H2). apply IH in H1 as [Hcf Ha]. rewrite rev_app_distr. cbn [rev app].
    unfold step_chorded in H2. destruct ev as [[k|k|ko|ko]|j [x|x|x|x|x|x|x]|[cb|j ko]]; cbn [try_event as_chorded ch_handle_event] in H2;
      try (injection H2 as <-; split; [exact Hcf|exact Ha]).
    + inv_bind H2. inv_bind H2. inv_bind H2. injection H2 as <-. cbn. split; [exact Hcf|exact Ha].
    + injection H2 as <-. cbn. split; [exact Hcf|]. intros id. rewrite clear_chords_nth, Hcf, Ha. reflexivity.
    + destruct x as [[id|]|]; [|injection H2 as <-; split; [exact Hcf|exact Ha]..]. cbn in H2. inv_bind H2. injection H2 as <-. cbn. split; [exact Hcf|].
      intros id'. unfold update_index in E. destruct (N.to_nat id <? length (chx_pressed_chords c1))%nat eqn:El; [|discriminate]. inv_ok E.
      apply Nat.ltb_lt in El. rewrite set_nth_nth by exact El. now rewrite Ha.
Qed.
