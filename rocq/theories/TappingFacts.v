(** Proofs for C81: what becomes of a tap-dance key that is tapped several times. *)
From Verif Require Import BaseFacts Output Types Scheduler Keymap SimpleKeys TapDance Layered Composite SpecKeymap SpecPlain SpecLayer SpecBoard SpecTapBoard SpecDanceBoard SpecTapping.
Local Open Scope N_scope.

Lemma now_app ops o : now_after (ops ++ [o]) = ck_now (clocks_step (clocks_run ops) o).
Proof. unfold now_after, clocks_run. now rewrite fold_left_app. Qed.
Lemma ms_app ops o : ck_ms (clocks_run (ops ++ [o])) = ck_ms (clocks_step (clocks_run ops) o).
Proof. unfold clocks_run. now rewrite fold_left_app. Qed.
Lemma now_tick ops : now_after (ops ++ [OpTick]) = now_after ops + ck_ms (clocks_run ops).
Proof. rewrite now_app. reflexivity. Qed.
Lemma ms_tick ops : ck_ms (clocks_run (ops ++ [OpTick])) = ck_ms (clocks_run ops).
Proof. rewrite ms_app. reflexivity. Qed.
Lemma now_input ops x : now_after (ops ++ [OpInput x]) = now_after ops.
Proof. rewrite now_app. reflexivity. Qed.
Lemma ms_input ops x : ck_ms (clocks_run (ops ++ [OpInput x])) = ck_ms (clocks_run ops).
Proof. rewrite ms_app. reflexivity. Qed.
Lemma clock_ticks t : forall ops, ck_ms (clocks_run (ops ++ repeat OpTick t)) = ck_ms (clocks_run ops)
  /\ now_after (ops ++ repeat OpTick t) = now_after ops + N.of_nat t * ck_ms (clocks_run ops).
Proof.
  induction t as [|t IH]; intros ops; cbn [repeat]; [rewrite app_nil_r; split; [reflexivity|lia]|].
  replace (ops ++ OpTick :: repeat OpTick t) with ((ops ++ [OpTick]) ++ repeat OpTick t) by (rewrite <- app_assoc; reflexivity).
  destruct (IH (ops ++ [OpTick])) as (A & B). rewrite A, B, ms_tick, now_tick. split; [reflexivity|].
  set (m := ck_ms (clocks_run ops)). replace (N.of_nat (S t)) with (1 + N.of_nat t) by lia. rewrite N.mul_add_distr_r. lia.
Qed.

Lemma last_indep {A} (l : list A) a b : l <> [] -> last l a = last l b.
Proof. induction l as [|x l IH]; [congruence|]. intros _. destruct l as [|y l]; [reflexivity|]. cbn [last] in *. apply IH. discriminate. Qed.

Section Tapping.
  Variables (n : nat) (refs : list ref) (d : key_data) (T : N).
  Variables (B : board) (calls : list callback) (i : u16) (r : ref) (choices : list ref).
  Hypothesis HT : 0 < T.
  Hypothesis Hnew : existsb (this_key i) (bd_down B) = false.
  Hypothesis Hr : nth_error refs (N.to_nat i) = Some r.
  Hypothesis Hd : dances d (bd_on B) (bd_default B) r choices.
  Local Notation run := (prompt_run n refs d T).
  Definition idle : dancing := mkDancing B None [] false calls.
  Definition st seen due busy : dancing := mkDancing B (Some (mkDance i choices seen due)) [] busy calls.

  Lemma st_ticks t : forall ops seen due busy, run ops (st seen due busy) -> now_after ops + N.of_nat t * ck_ms (clocks_run ops) < due ->
    run (ops ++ repeat OpTick t) (st seen due (match t with O => busy | S _ => false end)).
  Proof.
    induction t as [|t IH]; intros ops seen due busy H Hlt; cbn [repeat]; [now rewrite app_nil_r|].
    replace (ops ++ OpTick :: repeat OpTick t) with ((ops ++ [OpTick]) ++ repeat OpTick t) by (rewrite <- app_assoc; reflexivity).
    set (m := ck_ms (clocks_run ops)) in *. replace (N.of_nat (S t)) with (1 + N.of_nat t) in Hlt by lia. rewrite N.mul_add_distr_r in Hlt.
    assert (X : run (ops ++ [OpTick]) (st seen due false)).
    { eapply pr_call; [exact H| |].
      - eapply (dc_tick _ _ _ _ _ _ (st seen due busy)); [|apply (passes_not _ _ _ (rested (st seen due busy)))].
        unfold turn. cbn [st da_busy]. destruct busy; [reflexivity|]. now apply takes_nothing.
      - intros dn E. injection E as <-. cbn [dn_due]. rewrite now_tick. fold m. set (x := N.of_nat t * m) in *. lia. }
    specialize (IH _ _ _ _ X). rewrite ms_tick, now_tick in IH. fold m in IH. assert (now_after ops + m + N.of_nat t * m < due) as Y by (set (x := N.of_nat t * m) in *; lia).
    specialize (IH Y). now destruct t.
  Qed.
  Lemma start ops : run ops idle -> run (ops ++ [OpInput (Press i)]) (st [] (now_after ops + T) true).
  Proof.
    intros H. eapply pr_call; [exact H| |].
    - apply dc_input; [cbn; lia|]. unfold turn. cbn [heard idle da_busy da_board da_dance da_waiting da_calls app].
      refine (takes_dance n refs d T _ (mkDancing B None [Press i] false calls) i [] r choices _ _ _ _ _); try reflexivity; assumption.
    - intros dn E. injection E as <-. cbn [dn_due]. rewrite now_input. lia.
  Qed.
  Lemma input_on ops seen due x : run ops (st seen due false) -> now_after ops < due -> (taps i (seen ++ [x]) + 1 < length choices)%nat ->
    run (ops ++ [OpInput x]) (st (seen ++ [x]) (if presses_key i x then now_after ops + T else due) true).
  Proof.
    intros H Hlt Hc. eapply pr_call; [exact H| |].
    - apply dc_input; [cbn; lia|]. unfold turn. cbn [heard st da_busy da_board da_dance da_waiting da_calls app].
      refine (takes_on n refs d T _ (mkDancing B _ [x] false calls) i choices seen due x [] _ _ _); try reflexivity; assumption.
    - intros dn E. injection E as <-. cbn [dn_due]. rewrite now_input. destruct (presses_key i x); lia.
  Qed.

  (** The dance is over, and the key went down as [m]. *)
  Variable m : meaning.
  Definition B' : board := switch n (at_press m) (set_down B (bd_down B ++ [inl (i, m)])).
  Definition over (s : dancing) : Prop := da_board s = B' /\ da_dance s = None /\ da_calls s = calls ++ asks m /\ (da_waiting s = [] \/ da_waiting s = [Press i]).
  Lemma down' : existsb (this_key i) (bd_down B') = true.
  Proof.
    unfold B'. replace (bd_down (switch n (at_press m) _)) with (bd_down B ++ [inl (i, m)]) by (destruct (at_press m); reflexivity).
    rewrite existsb_app. cbn. rewrite N.eqb_refl. now rewrite orb_true_r.
  Qed.
  Lemma over_ticks t : forall ops s, run ops s -> over s -> exists s', run (ops ++ repeat OpTick t) s' /\ over s'.
  Proof.
    induction t as [|t IH]; intros ops s H Ho; cbn [repeat]; [rewrite app_nil_r; eauto|].
    replace (ops ++ OpTick :: repeat OpTick t) with ((ops ++ [OpTick]) ++ repeat OpTick t) by (rewrite <- app_assoc; reflexivity).
    destruct s as [b dn w busy cs]. destruct Ho as (O1 & O2 & Oc & O3). cbn [da_board da_dance da_waiting da_calls] in *. subst b dn.
    assert (Y : exists s1, turn n refs d T (now_after ops) (mkDancing B' None w busy cs) s1 /\ over s1).
    { unfold turn. cbn [da_busy]. destruct busy; [eexists; split; [reflexivity|]; split; [reflexivity|]; split; [reflexivity|]; split; [exact Oc|exact O3]|].
      destruct O3 as [->| ->].
      - eexists. split; [now apply takes_nothing|]. split; [reflexivity|]. split; [reflexivity|]. split; [exact Oc|now left].
      - eexists. split.
        + refine (takes_key n refs d T _ _ (Press i) [] B' [] _ _ _ _); try reflexivity; cbn [da_board]; [apply press_again|apply sc_again]; exact down'.
        + split; [reflexivity|]. split; [reflexivity|]. split; [cbn [da_calls]; now rewrite app_nil_r|now left]. }
    destruct Y as (s1 & Y1 & Y2). apply (IH _ (rested s1)); [|exact Y2].
    eapply pr_call; [exact H|eapply dc_tick; [exact Y1|apply passes_not]|]. destruct Y2 as (_ & Y2 & _). cbn [rested da_dance]. rewrite Y2. discriminate.
  Qed.

  (** The inputs of [c] more taps. *)
  Fixpoint seen_of (c : nat) : list input_event := match c with O => [] | S c => seen_of c ++ [Release i; Press i] end.
  Lemma taps_seen c : taps i (seen_of c) = c /\ taps i (seen_of c ++ [Release i]) = c /\ taps i ((seen_of c ++ [Release i]) ++ [Press i]) = S c.
  Proof.
    unfold taps. assert (H : length (filter (presses_key i) (seen_of c)) = c).
    { induction c as [|c IH]; [reflexivity|]. cbn [seen_of]. rewrite filter_app, app_length, IH. cbn. rewrite N.eqb_refl. cbn. lia. }
    split; [exact H|]. rewrite !filter_app, !app_length, H. cbn. rewrite N.eqb_refl. cbn. lia.
  Qed.
  Lemma wait_seen c : wait_again i (seen_of c) = [] \/ wait_again i (seen_of c) = [Press i].
  Proof.
    assert (H : filter (fun x => negb (about_key i x)) (seen_of c) = [] /\ filter (about_key i) (seen_of c) = seen_of c).
    { induction c as [|c (A & C)]; [split; reflexivity|]. cbn [seen_of]. rewrite !filter_app, A, C. cbn. rewrite N.eqb_refl. split; reflexivity. }
    unfold wait_again. destruct H as (-> & ->). destruct c as [|c]; [now left|right]. unfold last_one. cbn [seen_of]. rewrite rev_app_distr. reflexivity.
  Qed.
  Lemma becomes_over s due c busy0 w q : nth_error choices c = Some q -> means d (bd_on B) (bd_default B) q m -> s = mkDancing B w [] busy0 calls ->
    forall seen, (exists c', seen = seen_of c') -> exists s', becomes n d s (mkDance i choices seen due) c s' /\ over s'.
  Proof.
    intros Hq Hm -> seen (c' & ->). eexists. split; [econstructor; [exact Hq|exact Hm]|]. split; [reflexivity|]. split; [reflexivity|]. split; [reflexivity|].
    cbn [da_waiting dn_key dn_seen]. rewrite app_nil_r. apply wait_seen.
  Qed.

  (** Held after [c] further taps: the dance goes on until the time is up. *)
  Lemma hold_up t ops c due busy q : run ops (st (seen_of c) due busy) -> now_after ops < due -> nth_error choices c = Some q -> means d (bd_on B) (bd_default B) q m ->
    due <= now_after ops + N.of_nat t * ck_ms (clocks_run ops) -> exists s, run (ops ++ repeat OpTick t) s /\ over s.
  Proof.
    revert ops busy. induction t as [|t IH]; intros ops busy H Hlt Hq Hm Hle; [cbn in Hle; lia|]. cbn [repeat].
    replace (ops ++ OpTick :: repeat OpTick t) with ((ops ++ [OpTick]) ++ repeat OpTick t) by (rewrite <- app_assoc; reflexivity).
    set (k := ck_ms (clocks_run ops)) in *. replace (N.of_nat (S t)) with (1 + N.of_nat t) in Hle by lia. rewrite N.mul_add_distr_r in Hle.
    assert (Tn : turn n refs d T (now_after ops) (st (seen_of c) due busy) (st (seen_of c) due busy)).
    { unfold turn. cbn [st da_busy]. destruct busy; [reflexivity|]. now apply takes_nothing. }
    destruct (N.le_gt_cases due (now_after ops + k)) as [Hup|Hno].
    - destruct (becomes_over (rested (st (seen_of c) due busy)) due c false (Some (mkDance i choices (seen_of c) due)) q Hq Hm eq_refl (seen_of c) (ex_intro _ c eq_refl)) as (s' & Hb & Ho).
      apply (over_ticks t _ s'); [|exact Ho]. eapply pr_call; [exact H|eapply dc_tick; [exact Tn|]|].
      + eapply passes_up; [reflexivity|cbn [dn_due]; rewrite now_tick; exact Hup|]. cbn [dn_key dn_seen]. rewrite (proj1 (taps_seen c)). exact Hb.
      + destruct Ho as (_ & Ho & _). rewrite Ho. discriminate.
    - apply (IH _ false); [|rewrite now_tick; exact Hno|exact Hq|exact Hm|].
      + apply (st_ticks 1 ops _ _ busy); [exact H|]. fold k. change (N.of_nat 1) with 1. lia.
      + rewrite now_tick, ms_tick. fold k. set (x := N.of_nat t * k) in *. lia.
  Qed.

  Lemma nth_choice c q : nth_error choices c = Some q -> (c < length choices)%nat.
  Proof. intros H. apply nth_error_Some. congruence. Qed.
  Lemma press_seen c : seen_of (S c) = (seen_of c ++ [Release i]) ++ [Press i].
  Proof. cbn [seen_of]. rewrite <- app_assoc. reflexivity. Qed.

  (** One more tap. *)
  Lemma release_on ops c due held up : run ops (st (seen_of c) due true) -> due = now_after ops + T -> (1 <= held)%nat -> (1 <= up)%nat ->
    N.of_nat (held + up) * ck_ms (clocks_run ops) < T -> (c + 1 < length choices)%nat ->
    let ops' := (ops ++ repeat OpTick held ++ [OpInput (Release i)]) ++ repeat OpTick up in
    run ops' (st (seen_of c ++ [Release i]) due false) /\ now_after ops' < due /\ ck_ms (clocks_run ops') = ck_ms (clocks_run ops).
  Proof.
    intros H -> Hh Hu Ht Hc. set (k := ck_ms (clocks_run ops)) in *. cbv zeta.
    replace (N.of_nat (held + up)) with (N.of_nat held + N.of_nat up) in Ht by lia. rewrite N.mul_add_distr_r in Ht.
    pose proof (st_ticks held ops _ _ _ H ltac:(fold k; set (x := N.of_nat held * k) in *; lia)) as H1. destruct held as [|held]; [lia|]. set (h := S held) in *.
    destruct (clock_ticks h ops) as (M1 & N1). fold k in M1, N1.
    assert (H2 := input_on _ _ _ (Release i) H1). rewrite N1 in H2. specialize (H2 ltac:(set (x := N.of_nat h * k) in *; lia) ltac:(rewrite (proj1 (proj2 (taps_seen c))); exact Hc)). cbn [presses_key] in H2.
    rewrite app_assoc. set (o2 := (ops ++ repeat OpTick h) ++ [OpInput (Release i)]) in *.
    assert (N2 : now_after o2 = now_after ops + N.of_nat h * k) by (unfold o2; rewrite now_input; exact N1).
    assert (M2 : ck_ms (clocks_run o2) = k) by (unfold o2; rewrite ms_input; exact M1).
    destruct (clock_ticks up o2) as (M3 & N3). rewrite M2 in M3, N3. rewrite N2 in N3.
    assert (Hlt : now_after o2 + N.of_nat up * ck_ms (clocks_run o2) < now_after ops + T) by (rewrite N2, M2; set (x := N.of_nat h * k) in *; set (y := N.of_nat up * k) in *; lia).
    split; [|split; [rewrite N3; rewrite N2, M2 in Hlt; exact Hlt|exact M3]].
    pose proof (st_ticks up o2 _ _ _ H2 Hlt) as H3. destruct up; [lia|exact H3].
  Qed.

  Lemma tapping_eq held up down rest : tapping i held ((up, down) :: rest) = (OpInput (Press i) :: repeat OpTick held ++ [OpInput (Release i)]) ++ repeat OpTick up ++ tapping i down rest.
  Proof. cbn [tapping]. rewrite <- !app_comm_cons, <- !app_assoc. reflexivity. Qed.

  (** The last press has just been made: the rest of the taps. *)
  Definition after_press (ops : list op) (c : nat) : Prop := run ops (st (seen_of c) (now_after ops + T) true).
  Lemma tapping_tail i' held again : tapping i' held again = OpInput (Press i') :: tl (tapping i' held again).
  Proof. destruct again as [|[u dn] rest]; reflexivity. Qed.
  Lemma last_press ops c due q : run ops (st (seen_of c ++ [Release i]) due false) -> (length choices = S c + 1)%nat -> nth_error choices (S c) = Some q ->
    means d (bd_on B) (bd_default B) q m -> exists s, run (ops ++ [OpInput (Press i)]) s /\ over s.
  Proof.
    intros H HL Hq Hm.
    destruct (becomes_over (mkDancing B None [] true calls) due (length choices - 1) true None q) with (seen := seen_of (S c)) as (s' & Hb & Ho); [|exact Hm|reflexivity|eauto|].
    { replace (length choices - 1)%nat with (S c) by lia. exact Hq. }
    exists s'. split; [|exact Ho]. eapply pr_call; [exact H| |destruct Ho as (_ & -> & _); discriminate].
    apply dc_input; [cbn; lia|]. unfold turn. cbn [heard st da_busy da_board da_dance da_waiting da_calls app].
    rewrite press_seen in Hb. refine (takes_last n refs d T _ (mkDancing B _ [Press i] false calls) i choices (seen_of c ++ [Release i]) due (Press i) [] s' _ _ _ Hb); try reflexivity.
    rewrite (proj2 (proj2 (taps_seen c))). lia.
  Qed.
  Lemma taps_run again : forall ops c held, after_press ops c -> in_time T (ck_ms (clocks_run ops)) held again -> (c + length again < length choices)%nat ->
    (N.of_nat (last_held held again) * ck_ms (clocks_run ops) < T -> (again = [] \/ c + length again + 1 < length choices)%nat ->
      exists seen due busy, run (ops ++ tl (tapping i held again)) (st seen due busy)) /\
    (forall q, nth_error choices (c + length again) = Some q -> means d (bd_on B) (bd_default B) q m ->
      T <= N.of_nat (last_held held again) * ck_ms (clocks_run ops) \/ (again <> [] /\ c + length again + 1 = length choices)%nat ->
      exists s, run (ops ++ tl (tapping i held again)) s /\ over s).
  Proof.
    induction again as [|[up down] rest IH]; intros ops c held H Hin Hc.
    - unfold last_held. cbn [last map length tapping tl] in *. rewrite app_nil_r. split.
      + intros Ht _. eexists _, _, _. eapply st_ticks; [exact H|]. lia.
      + intros q Hq Hm [Ht|(Hn & _)]; [|congruence]. rewrite Nat.add_0_r in Hq. eapply hold_up; [exact H|lia|exact Hq|exact Hm|]. lia.
    - cbn [in_time] in Hin. destruct Hin as (I1 & I2 & I3 & I4). cbn [length] in *.
      destruct (release_on ops c _ held up H eq_refl I1 I2 I3 ltac:(lia)) as (R1 & R2 & R3).
      set (o1 := (ops ++ repeat OpTick held ++ [OpInput (Release i)]) ++ repeat OpTick up) in *.
      assert (El : last_held held ((up, down) :: rest) = last_held down rest) by (unfold last_held; cbn [map snd]; destruct rest as [|p rest]; [reflexivity|]; exact (last_indep (map snd (p :: rest)) held down ltac:(discriminate))).
      assert (Eo : ops ++ tl (tapping i held ((up, down) :: rest)) = (o1 ++ [OpInput (Press i)]) ++ tl (tapping i down rest)).
      { unfold o1. rewrite tapping_eq, (tapping_tail i down rest). cbn [app tl]. rewrite <- !app_assoc. reflexivity. }
      rewrite El, Eo. rewrite <- R3 in I4 |- *. replace (c + S (length rest))%nat with (S c + length rest)%nat in * by lia.
      destruct (Nat.lt_ge_cases (S c + 1) (length choices)) as [Hmore|Hlast].
      + assert (H2 := input_on _ _ _ (Press i) R1 R2). rewrite <- press_seen in H2. specialize (H2 ltac:(rewrite press_seen, (proj2 (proj2 (taps_seen c))); lia)).
        cbn [presses_key] in H2. rewrite N.eqb_refl in H2.
        destruct (IH (o1 ++ [OpInput (Press i)]) (S c) down) as (X & Y); [unfold after_press; rewrite now_input; exact H2|rewrite ms_input; exact I4|exact Hc|].
        rewrite ms_input in X, Y. split.
        * intros Ht [Hn|Hn]; [discriminate Hn|]. apply X; [exact Ht|right; exact Hn].
        * intros q Hq Hm Ht. apply (Y q Hq Hm). destruct Ht as [Ht|(_ & Ht)]; [left; exact Ht|]. right. split; [|exact Ht]. intros ->. cbn [length] in Ht. lia.
      + destruct rest as [|p rest]; [|cbn [length] in Hc; lia]. cbn [length] in *. rewrite Nat.add_0_r in *. split.
        * intros _ [Hn|Hn]; [discriminate Hn|lia].
        * intros q Hq Hm _. destruct (last_press o1 c _ q R1 ltac:(lia) Hq Hm) as (s & Hs & Ho). cbn [tapping tl]. rewrite app_nil_r. eapply over_ticks; eassumption.
  Qed.
End Tapping.
