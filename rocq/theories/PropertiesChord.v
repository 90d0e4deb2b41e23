(** C29, C30, C41 and the chord part of C23. *)
From Verif Require Import BaseFacts Output Types Scheduler Keymap SimpleKeys TapHold TapDance Sticky CapsWord
  Layered Automation Chorded Composite SpecTap SpecChord CtxFacts LayerFacts ChordFacts ChordHeld Samples.
Local Open Scope N_scope.

(** ** C29 *)

(** An undecided chord key, fed any events (with fewer presses than a chord can
    have keys): it becomes what the first deciding event says (see [chord_rule]),
    with the events after it left, and announces the decision. *)
Theorem C29_decision : forall d ki r keys pass cf cands evs,
  chord_member d r keys pass ->
  (forall id ch, In (id, ch) cands -> (id < 256)%nat) ->
  Forall (fun ce => chx_config (cx_chorded (fst ce)) = cf) evs ->
  (length (pressed_in (map snd evs)) < chc_max_chord_size cf)%nat ->
  match first_decision (chord_rule cands ki) [] (map snd evs) with
  | Some (x, rest) => forall n, chord_becomes (chc_chords cf) keys pass ki x = Some n ->
      feed d ki (RChorded r) (undecided ki cands) evs = Ok (Became n rest, [resolution_event ki x])
  | None => exists p, feed d ki (RChorded r) (undecided ki cands) evs = Ok (Undecided p, [])
  end.
Proof.
  intros d ki r keys pass cf cands evs Hr Hc Hevs Hl.
  pose proof (chord_feed d ki r keys pass cf cands Hr Hc evs Hevs [] Hl) as H. cbn [pressed_in] in H.
  replace (PksChorded (pks_of ki cands [])) with (undecided ki cands) in H; [exact H|].
  unfold undecided, pks_of, possible, flag. cbn [forallb]. f_equal. f_equal.
  clear. induction cands as [|[id ch] l IH]; [reflexivity|]. cbn. f_equal. exact IH.
Qed.
(** It becomes a chord only if that was offered and all its keys were pressed. *)
Theorem C29_all_pressed : forall cands ki evs id rest,
  first_decision (chord_rule cands ki) [] evs = Some (Some id, rest) ->
  exists used ch, evs = used ++ rest /\ In (id, ch) cands
    /\ forall j, In j ch -> j = ki \/ In (EvInput (Press j)) used.
Proof.
  assert (Hpi : forall a b, pressed_in (a ++ b) = pressed_in a ++ pressed_in b).
  { induction a as [|[[k|k|ko|ko]|j e|kk] a IH]; intros b; cbn; auto. now rewrite IH. }
  assert (Hin : forall h j, In j (pressed_in h) -> In (EvInput (Press j)) h).
  { induction h as [|[[k|k|ko|ko]|j0 e|kk] h IH]; intros j; cbn; try (intros H; right; now apply IH); [tauto|].
    intros [->|H]; [now left|right; now apply IH]. }
  assert (Hmem : forall j l, member j l = true -> In j l).
  { intros j l H. apply existsb_exists in H as (x & Hx & Hj). apply N.eqb_eq in Hj. now subst. }
  assert (Hcomp : forall ki ps ch, complete ki ps ch = true -> forall j, In j ch -> j = ki \/ In j ps).
  { intros ki ps ch H j Hj. unfold complete in H. rewrite forallb_forall in H. apply H, Hmem in Hj. destruct Hj as [->|Hj]; auto. }
  assert (Hbest : forall cands ki ps id, best cands ki ps = Some id -> exists ch, In (id, ch) cands /\ forall j, In j ch -> j = ki \/ In j ps).
  { intros cands ki ps id H. unfold best in H. destruct ps as [|p ps]; [discriminate|].
    destruct (find _ _) as [[id' ch]|] eqn:E; [|discriminate]. injection H as <-. apply find_some in E as [A B].
    apply filter_In in A as [A _]. exists ch. split; [exact A|]. now apply Hcomp. }
  assert (Hrule : forall cands ki h ev id, chord_rule cands ki h ev = Some (Some id) ->
    exists ch, In (id, ch) cands /\ forall j, In j ch -> j = ki \/ In j (pressed_in (h ++ [ev]))).
  { intros cands ki h ev id H.
    assert (Hb : best cands ki (pressed_in h) = Some id -> exists ch, In (id, ch) cands /\ forall j, In j ch -> j = ki \/ In j (pressed_in (h ++ [ev]))).
    { intros X. apply Hbest in X as (ch & A & B). exists ch. split; [exact A|]. intros j Hj. rewrite Hpi.
      destruct (B j Hj); [now left|]. right. apply in_or_app. now left. }
    destruct ev as [[k|k|ko|ko]|j [x|x|[rr|]|x|x|x|x]|kk]; cbn in H; try discriminate.
    - destruct (possible cands (pressed_in h ++ [k])) as [|[id' ch] [|]] eqn:Ep; try discriminate.
      + injection H as H. now apply Hb.
      + destruct (complete ki (pressed_in h ++ [k]) ch) eqn:Ec; [|discriminate]. injection H as <-. exists ch.
        assert (Hi : In (id', ch) (possible cands (pressed_in h ++ [k]))) by (rewrite Ep; now left).
        apply filter_In in Hi as [Hi _]. split; [exact Hi|]. rewrite Hpi. now apply Hcomp.
    - destruct (k =? ki); [|discriminate]. injection H as H. now apply Hb.
    - injection H as H. now apply Hb. }
  intros cands ki evs id rest H.
  assert (G : forall evs h, first_decision (chord_rule cands ki) h evs = Some (Some id, rest) ->
    exists used ch, evs = used ++ rest /\ In (id, ch) cands /\ forall j, In j ch -> j = ki \/ In j (pressed_in (h ++ used))).
  { clear evs H. induction evs as [|ev evs IH]; intros h H; [discriminate|]. cbn in H.
    destruct (chord_rule cands ki h ev) as [x|] eqn:E.
    - injection H as -> ->. apply Hrule in E as (ch & A & B). exists [ev], ch. auto.
    - apply IH in H as (used & ch & -> & A & B). exists (ev :: used), ch. split; [reflexivity|]. split; [exact A|].
      rewrite <- app_assoc in B. exact B. }
  apply G in H as (used & ch & A & B & C). exists used, ch. split; [exact A|]. split; [exact B|].
  intros j Hj. destruct (C j Hj); auto.
Qed.

(** Pressing a chord key after enough idle time, with the given chords active:
    if it belongs to an active chord it acts as part of that; otherwise it is
    undecided among the chords offered, or on its own if there are none. *)
Theorem C29_press : forall d ki r keys pass c active pr kes,
  let cf := chx_config (cx_chorded c) in
  chord_member d r keys pass -> (length (chc_chords cf) <= 256)%nat ->
  (forall id, nth id (chx_pressed_chords (cx_chorded c)) false = active id) ->
  ~ too_soon (chc_required_idle cf) (chx_idle (cx_chorded c)) ->
  c_new_pressed_key d ki c (RChorded r) = Ok (pr, kes) ->
  match find (fun '(id, ch) => active id && member ki ch) (numbered (chc_chords cf)) with
  | Some (id, _) => kes = [] /\ forall n, chord_becomes (chc_chords cf) keys pass ki (Some id) = Some n -> pr = PkNewPressedKey n
  | None => match offered (chc_chords cf) active ki with
            | [] => pr = PkNewPressedKey (NpkKey pass) /\ kes = []
            | cands => pr = PkPending (undecided ki cands)
                       /\ kes = [mkSE (After (chc_timeout cf)) (EvKey ki (CeChorded ChTimeout))]
            end
  end.
Proof.
  intros d ki r keys pass c active pr kes cf Hr Hn Ha Hs H.
  apply (chord_press d ki r keys pass cf [] Hr (fun _ _ F => match F with end)) with (active := active) in H; [|reflexivity|exact Hn|exact Ha].
  apply H. unfold sufficient_idle_time. fold cf. destruct (chc_required_idle cf) as [q|] eqn:E.
  - destruct (q <=? chx_idle (cx_chorded c)) eqn:El; [reflexivity|]. exfalso. apply Hs. apply N.leb_gt in El. exists q. auto.
  - rewrite (proj2 (N.leb_le 0 _)) by apply N.le_0_l. reflexivity.
Qed.

(** ** C30 *)

(** After any history of events a chord is active iff it was resolved and none of
    its keys has been released since. *)
Theorem C30_active_chords : forall cf h c, fold_res step_chorded h (ch_ctx_new cf) = Ok c ->
  forall id, nth id (chx_pressed_chords c) false = active_after (chc_chords cf) (rev h) id.
Proof. intros cf h c H. exact (proj2 (active_chords h cf c H)). Qed.
(** Chords offered to a key contain it and share no key with an active chord. *)
Theorem C30_no_overlap : forall chords active ki id ch, In (id, ch) (offered chords active ki) ->
  nth_error chords id = Some ch /\ In ki ch
  /\ forall id' ch' j, nth_error chords id' = Some ch' -> active id' = true -> In j ch -> ~ In j ch'.
Proof.
  intros chords active ki id ch H. apply filter_In in H as [H1 H2]. apply numbered_In in H1. split; [exact H1|].
  apply andb_true_iff in H2 as [H2 H3]. split.
  - apply existsb_exists in H2 as (x & Hx & Hj). apply N.eqb_eq in Hj. now subst.
  - intros id' ch' j Hc' Ha Hj Hj'. rewrite forallb_forall in H3. apply H3 in Hj. apply negb_true_iff in Hj.
    assert (X : in_active chords active j = true); [|congruence]. apply existsb_exists. exists (id', ch'). split; [now apply numbered_In|].
    rewrite Ha. cbn. apply existsb_exists. exists j. split; [exact Hj'|apply N.eqb_refl].
Qed.
(** When a chord is decided, the key that is first in it acts as the chord's key
    and any other member does nothing. *)
Theorem C30_only_first_acts : forall (chords : list chord) keys pass ki id first rest,
  nth_error chords id = Some (first :: rest) ->
  (first <> ki -> chord_becomes chords keys pass ki (Some id) = Some NpkNoOp)
  /\ (first = ki -> forall n, chord_becomes chords keys pass ki (Some id) = Some n -> exists r, In (N.of_nat id, r) keys /\ n = NpkKey r).
Proof.
  intros chords keys pass ki id first rest H. cbn. rewrite H. split; intros E.
  - apply N.eqb_neq in E. now rewrite E.
  - subst. rewrite N.eqb_refl. intros n Hn.
    destruct (find (fun e : N * ref => fst e =? N.of_nat id) keys) as [[i r]|] eqn:Ef; [|discriminate]. injection Hn as <-.
    apply find_some in Ef as [A B]. cbn in B. apply N.eqb_eq in B. subst. eauto.
Qed.
(** An undecided key waits for chords that contain it and share no key with one that
    is active when it is pressed. *)
Theorem C30_waits_for_free_chords : forall d ki r keys pass c p kes st,
  chord_member d r keys pass -> (length (chc_chords (chx_config (cx_chorded c))) <= 256)%nat ->
  c_new_pressed_key d ki c (RChorded r) = Ok (PkPending (PksChorded p), kes) -> In st (chp_possible p) ->
  nth_error (chc_chords (chx_config (cx_chorded c))) (cs_index st) = Some (cs_chord st) /\ In ki (cs_chord st)
  /\ forall id' ch' j, nth_error (chc_chords (chx_config (cx_chorded c))) id' = Some ch' -> nth id' (chx_pressed_chords (cx_chorded c)) false = true ->
      In j (cs_chord st) -> ~ In j ch'.
Proof.
  intros d ki r keys pass c p kes st Hr Hn H Hin.
  destruct (chord_press d ki r keys pass _ [] Hr (fun _ _ F => match F with end) c (fun id => nth id (chx_pressed_chords (cx_chorded c)) false) _ _ eq_refl Hn (fun _ => eq_refl) H) as (A & B).
  destruct (sufficient_idle_time (cx_chorded c)); [|destruct (A eq_refl); discriminate]. specialize (B eq_refl).
  destruct (find _ _) as [[id ch]|] eqn:Ef.
  - exfalso.
    assert (K : kes <> []); [|destruct B; congruence]. clear -H. cbn [c_new_pressed_key] in H. inv_bind H. destruct a as [q ke]. injection H as Hq <-.
    unfold ch_new_pressed_key in E. destruct r as [i|i]; inv_bind E; [unfold chk_new_pressed_key in E|unfold cha_new_pressed_key in E]; inv_bind E;
      destruct (ch_initial_resolution _ _); try (inv_bind E); injection E as <- <-; discriminate.
  - destruct (offered _ _ _) as [|x l] eqn:Eo; [destruct B; discriminate|]. destruct B as (B & _). injection B as ->. 
    change (In st (map (fun '(id, ch) => mkChordState id ch false) (x :: l))) in Hin. rewrite <- Eo in Hin. apply in_map_iff in Hin as ([id ch] & <- & Hi). cbn [cs_index cs_chord]. now apply C30_no_overlap in Hi.
Qed.
(** Whatever an undecided key waits for: when an event decides that it is part of a
    chord, it is the chord's key if it is first in the chord, and nothing otherwise. *)
Theorem C30_only_first_acts_composite : forall d ki r keys pass c p ev p' n id first others kes,
  chord_member d r keys pass -> nth_error (chc_chords (chx_config (cx_chorded c))) (N.to_nat id) = Some (first :: others) ->
  c_update_pending d (PksChorded p) ki c (RChorded r) ev = Ok (p', Some n, kes) ->
  In (mkSE Immediate (EvKey ki (CeChorded (ChordResolved (CrChord id))))) kes ->
  (first <> ki -> n = NpkNoOp) /\ (first = ki -> keys <> [] -> exists r', In (id, r') keys /\ n = NpkKey r').
Proof.
  intros d ki r keys pass c p ev p' n id first others kes Hr Hc H Hin. cbn [c_update_pending] in H.
  destruct (try_event as_chorded ev) as [e|]; [|discriminate]. inv_bind H. destruct a as [[p2 n2] ke]. injection H as <- -> <-.
  unfold ch_update_pending in E. destruct r as [i|i]; cbn [chord_member] in Hr.
  - unfold index in E. rewrite Hr in E. cbn [bind] in E. unfold chk_update_pending in E. inv_bind E. destruct a as [p3 [rr|]]; [|discriminate].
    inv_bind E. injection E as <- <- <-. destruct Hin as [Hin|[]]. injection Hin as ->. cbn [chk_resolve] in E1. unfold index in E1. rewrite Hc in E1. cbn [bind nth_error] in E1.
    split; intros Hf.
    + apply N.eqb_neq in Hf. rewrite Hf in E1. congruence.
    + intros _. subst. rewrite N.eqb_refl in E1. cbn [chk_chords] in E1. destruct (find_chord_key keys id) as [q0|] eqn:E2; [|discriminate].
      injection E1 as <-. exists q0. split; [|reflexivity]. clear -E2.
      induction keys as [|[j q] keys IH]; cbn in E2; [discriminate|]. destruct (j =? id) eqn:Ej; [|right; now apply IH].
      apply N.eqb_eq in Ej. injection E2 as ->. subst. now left.
  - destruct Hr as (Hr & ->). unfold index in E. rewrite Hr in E. cbn [bind] in E. unfold cha_update_pending in E. inv_bind E. destruct a as [p3 [rr|]]; [|discriminate].
    injection E as <- <- <-. destruct Hin as [Hin|[]]. injection Hin as ->. split; [reflexivity|]. intros _ X. now elim X.
Qed.
(** The composite context handles events for chords in just this way. *)
Theorem C30_composite : forall c ev c' kes, cctx_handle_event c ev = Ok (c', kes) ->
  step_chorded (cx_chorded c) ev = Ok (cx_chorded c').
Proof. intros c ev c' kes H. now apply cctx_inv in H as (? & ? & ? & _ & _ & H & _). Qed.

(** Three chords; keys 15, 16 and 17. *)
Definition chord_config : chorded_config := mkChConfig 200 [[15; 16]; [15; 16; 17]; [17; 18]] None 4 16 32.
Definition chord_data : key_data :=
  mkData [] [] [mkChordedKey [(0, kC); (1, kD)] kA] [mkChordedAux kB] [] [] [] [] [] [].
Definition chord_ctx : cctx :=
  ctx_from_config (mkConfig (cf_automation sample_config) chord_config sticky_config_default tapdance_config_default taphold_config_default 3).
(** Key 15 pressed: chords 0 and 1.  Then 16: chord 0 is complete but 1 still
    possible; then a key outside: chord 0. *)
Example C29_example :
  c_new_pressed_key chord_data 15 chord_ctx (RChorded (ChChorded 0))
  = Ok (PkPending (undecided 15 [(0%nat, [15; 16]); (1%nat, [15; 16; 17])]), [mkSE (After 200) (EvKey 15 (CeChorded ChTimeout))])
  /\ chord_member chord_data (ChChorded 0) [(0, kC); (1, kD)] kA
  /\ feed chord_data 15 (RChorded (ChChorded 0)) (undecided 15 [(0%nat, [15; 16]); (1%nat, [15; 16; 17])])
       (map (fun e => (chord_ctx, e)) [EvInput (Press 16); EvInput (Release 16); EvInput (Press 3); EvInput (Release 15)])
     = Ok (Became (NpkKey kC) [EvInput (Release 15)], [resolution_event 15 (Some 0%nat)])
  /\ feed chord_data 16 (RChorded (ChAuxiliary 0)) (undecided 16 [(0%nat, [15; 16]); (1%nat, [15; 16; 17])])
       (map (fun e => (chord_ctx, e)) [EvInput (Press 17); EvInput (Press 15)])
     = Ok (Became NpkNoOp [], [resolution_event 16 (Some 1%nat)]).
Proof. vm_compute. repeat split; reflexivity. Qed.
Example C30_example :
  let h := [EvInput (Press 15); EvInput (Press 16); EvKey 15 (CeChorded (ChordResolved (CrChord 0))); EvInput (Release 17)] in
  returns (fold_res step_chorded h (ch_ctx_new chord_config)) (fun c => chx_pressed_chords c = [true; false; false; false])
  /\ offered (chc_chords chord_config) (active_after (chc_chords chord_config) (rev h)) 17 = [(2%nat, [17; 18])]
  /\ active_after (chc_chords chord_config) (rev (h ++ [EvInput (Release 16)])) 0 = false
  /\ returns (c_new_pressed_key chord_data 15 chord_ctx (RChorded (ChChorded 0))) (fun '(pr, _) => match pr with PkPending (PksChorded p) => map cs_chord (chp_possible p) = [[15; 16]; [15; 16; 17]] | _ => False end)
  /\ returns (c_update_pending chord_data (undecided 15 [(0%nat, [15; 16])]) 15 chord_ctx (RChorded (ChChorded 0)) (EvInput (Press 16)))
       (fun '(_, n, kes) => n = Some (NpkKey kC) /\ kes = [mkSE Immediate (EvKey 15 (CeChorded (ChordResolved (CrChord 0))))])
  /\ returns (c_update_pending chord_data (undecided 16 [(0%nat, [15; 16])]) 16 chord_ctx (RChorded (ChAuxiliary 0)) (EvInput (Press 15)))
       (fun '(_, n, kes) => n = Some NpkNoOp /\ kes = [mkSE Immediate (EvKey 16 (CeChorded (ChordResolved (CrChord 0))))]).
Proof. vm_compute. repeat split; reflexivity. Qed.

(** ** C23, chords *)

(** After any history of basic calls: a chord key pressed before the required idle
    time has passed, and not exempt, acts as its own key at once and starts no timer.
    Otherwise it is decided or undecided just as in [C29_press]. *)
Theorem C23_chord_required_idle : forall refs d pos debug fuel cf ops k c ke ki r keys pass active pr kes,
  let chords := chc_chords (cf_chorded cf) in
  Forall basic_op ops ->
  run_ops (cconf refs d pos debug) fuel ops (km_new (ctx_from_config cf)) = Ok k ->
  cctx_handle_event (km_ctx k) (EvInput (Press ki)) = Ok (c, ke) ->
  chord_member d r keys pass -> (length chords <= 256)%nat ->
  (forall id, nth id (chx_pressed_chords (cx_chorded (km_ctx k))) false = active id) ->
  c_new_pressed_key d ki c (RChorded r) = Ok (pr, kes) ->
  (too_soon (chc_required_idle (cf_chorded cf)) (idle_seen ops) -> ~ exempt (cx_chorded (km_ctx k)) ki ->
   pr = PkNewPressedKey (NpkKey pass) /\ kes = [])
  /\ (~ too_soon (chc_required_idle (cf_chorded cf)) (idle_seen ops) \/ exempt (cx_chorded (km_ctx k)) ki ->
      match find (fun '(id, ch) => active id && member ki ch) (numbered chords) with
      | Some (id, _) => kes = [] /\ forall n, chord_becomes chords keys pass ki (Some id) = Some n -> pr = PkNewPressedKey n
      | None => match offered chords active ki with
                | [] => pr = PkNewPressedKey (NpkKey pass) /\ kes = []
                | cands => pr = PkPending (undecided ki cands)
                           /\ kes = [mkSE (After (chc_timeout (cf_chorded cf))) (EvKey ki (CeChorded ChTimeout))]
                end
      end).
Proof.
  intros refs d pos debug fuel cf ops k c ke ki r keys pass active pr kes chords Hb H Hev Hr Hn Ha Hp.
  apply reach_idle in H as (_ & Hi & _ & Hc & _); [|exact Hb]. apply C30_composite in Hev.
  apply exempt_ignore in Hev as (He & Hcf & Hid & Hpc). rewrite Hc in Hcf. rewrite Hi in Hid.
  apply (chord_press d ki r keys pass (cf_chorded cf) [] Hr (fun _ _ F => match F with end)) with (active := active) in Hp as [P1 P2];
    [|exact Hcf|exact Hn|intros id; rewrite Hpc; apply Ha].
  unfold sufficient_idle_time in P1, P2. rewrite Hcf, Hid in P1, P2. split.
  - intros (q & Hq & Hlt) Hne. apply P1. rewrite Hq. apply N.leb_gt in Hlt. rewrite Hlt. cbn.
    destruct (chx_ignore_idle (cx_chorded c)); [|reflexivity]. exfalso. apply Hne. now apply He.
  - intros Hor. apply P2. destruct Hor as [Hs|Hx].
    + destruct (chc_required_idle (cf_chorded cf)) as [q|] eqn:E.
      * destruct (q <=? idle_seen ops) eqn:El; [reflexivity|]. exfalso. apply Hs. apply N.leb_gt in El. exists q. auto.
      * rewrite (proj2 (N.leb_le 0 _)) by apply N.le_0_l. reflexivity.
    + apply He in Hx. rewrite Hx. apply orb_true_r.
Qed.
(** Required idle time 5 ms: too soon after another key, A at once. *)
Definition idle_chord_config : config :=
  mkConfig (cf_automation sample_config) (mkChConfig 200 [[15; 16]] (Some 5) 4 16 32) sticky_config_default tapdance_config_default taphold_config_default 3.
Example C23_chord_example :
  let ops := [P 1; OpTick; Rl 1; OpTick; OpTick; OpTick] in
  Forall basic_op ops /\ too_soon (chc_required_idle (cf_chorded idle_chord_config)) (idle_seen ops)
  /\ returns (run_ops sample 60 (ops ++ [P 15]) (km_new (ctx_from_config idle_chord_config))) (fun k =>
       km_pressed_keys sample k = Ok [out 4] /\ km_has_scheduled_events k = false /\ chx_latest (cx_chorded (km_ctx k)) = None)
  /\ returns (run_ops sample 60 (ops ++ ticks 5 ++ [P 15]) (km_new (ctx_from_config idle_chord_config))) (fun k =>
       km_pressed_keys sample k = Ok [] /\ km_has_scheduled_events k = true).
Proof.
  split; [repeat constructor|]. split; [exists 5; split; reflexivity|]. vm_compute. repeat split; reflexivity.
Qed.

(** ** C41 *)

(** The exact condition: with as many keys held as the array has entries, a
    further press panics if its index is larger than all of them. *)
Theorem C41_press_panics : forall cf h c i,
  (0 < chc_max_pressed cf)%nat -> never_full (chc_max_pressed cf) h ->
  fold_res step_chorded h (ch_ctx_new cf) = Ok c ->
  length (held_keys h) = chc_max_pressed cf -> (forall j, In j (held_keys h) -> j < i) ->
  step_chorded c (EvInput (Press i)) = Panic.
Proof.
  intros cf h c i Hcap Hn H Hl Hi. destruct (context_tracks cf h c Hcap Hn H) as [Hcf Ht].
  pose proof (tracks_length _ _ Ht) as Hlen. destruct Ht as (A & B & C). unfold step_chorded. cbn [try_event ch_handle_event].
  rewrite Hcf. unfold press_index. destruct (mem i (chx_pressed_indices c)) eqn:Em.
  { apply mem_In in Em. apply C, Hi in Em. lia. }
  destruct (chc_max_pressed cf =? 0)%nat eqn:E0; [apply Nat.eqb_eq in E0; lia|].
  rewrite (proj2 (Nat.ltb_ge _ _)) by lia. rewrite (proj2 (forallb_forall _ _)); [reflexivity|].
  intros x Hx. apply N.ltb_lt, Hi, C, Hx.
Qed.

(** Missing from the full property: any number of keys the keymap supports (see
    [C41_holding_five_keys_refuted]).
    What holds: no step panics while no more keys are held than the array has entries
    (for configurations whose chords together have no more keys than that either,
    and events that name configured chords). *)
Theorem C41_never_panics_partial : forall cf h all,
  (0 < chc_max_pressed cf)%nat -> never_full (chc_max_pressed cf) h ->
  (length all <= chc_max_pressed cf)%nat -> (forall ch j, In ch (chc_chords cf) -> In j ch -> In j all) ->
  (length (chc_chords cf) <= chc_max_chords cf)%nat ->
  (forall j id, In (EvKey j (CeChorded (ChordResolved (CrChord id)))) h -> (N.to_nat id < length (chc_chords cf))%nat) ->
  exists c, fold_res step_chorded h (ch_ctx_new cf) = Ok c.
Proof.
  intros cf h all Hcap Hn Hall Hin Hmax Hids.
  cut (exists c, fold_res step_chorded h (ch_ctx_new cf) = Ok c /\ length (chx_pressed_chords c) = chc_max_chords cf
    /\ forall id, chx_latest c = Some id -> (N.to_nat id < length (chc_chords cf))%nat).
  { intros (c & Hc & _). eauto. }
  revert Hn Hids. induction h as [|ev h IH] using rev_ind; intros Hn Hids.
  - exists (ch_ctx_new cf). split; [reflexivity|]. split; [apply repeat_length|discriminate].
  - destruct Hn as [Hn Hx]. assert (Hnf : never_full (chc_max_pressed cf) h).
    { split; [|intros X; apply Hx, in_or_app; now left]. intros h1 h2 ->. apply (Hn h1 (h2 ++ [ev])). now rewrite app_assoc. }
    destruct IH as (c1 & H1 & Hlen & Hlat); [exact Hnf|intros j id X; apply (Hids j), in_or_app; now left|].
    destruct (context_tracks cf h c1 Hcap Hnf H1) as [Hcf Ht]. destruct (active_chords h cf c1 H1) as [_ Hact].
    assert (Hl : (length (held_keys (h ++ [ev])) <= chc_max_pressed cf)%nat) by (apply (Hn (h ++ [ev]) []); now rewrite app_nil_r).
    rewrite held_snoc in Hl. rewrite fold_res_snoc, H1. cbn [bind]. unfold step_chorded.
    destruct ev as [[k|k|ko|ko]|j [x|x|x|x|x|x|x]|[cb|j ko]]; cbn [try_event as_chorded ch_handle_event]; try (exists c1; now auto).
    + rewrite Hcf. destruct (press_tracks (chc_max_pressed cf) _ _ k Ht Hcap) as (l' & -> & _).
      * intros ->. apply Hx, in_or_app. right. now left.
      * cbn [held_step] in Hl. destruct (existsb (N.eqb k) (held_keys h)) eqn:Ek; [left; now apply mem_In|].
        right. cbn [length] in Hl. lia.
      * cbn [bind]. unfold pressed_chords_indices_span. cbn [chx_config chx_pressed_chords chx_latest].
        destruct (span_total (chc_max_pressed cf) (chc_chords cf) all (chx_pressed_chords c1) Hall Hin 0 []) as (res & ->).
        -- intros id Hid. rewrite Hact in Hid. apply active_resolved in Hid as (j & n & A & <-). apply in_rev in A.
           destruct (nth_error (chc_chords cf) (0 + N.to_nat n)) as [ch|] eqn:E; [eauto|]. apply nth_error_None in E.
           exfalso. assert (N.to_nat n < length (chc_chords cf))%nat by (apply (Hids j), in_or_app; now left). cbn in E. lia.
        -- intros a x b y cc E. destruct a; discriminate.
        -- intros x [].
        -- cbn [bind]. destruct (mem k res); cbn [bind]; [eexists; split; [reflexivity|]; now split|].
           destruct (chx_latest c1) as [id|] eqn:El; cbn [bind].
           ++ unfold index. destruct (nth_error (chc_chords cf) (N.to_nat id)) as [ch|] eqn:E; cbn [bind];
                [eexists; split; [reflexivity|]; now split|]. apply nth_error_None in E. specialize (Hlat id eq_refl). lia.
           ++ eexists. split; [reflexivity|]. now split.
    + eexists. split; [reflexivity|]. cbn [chx_pressed_chords chx_latest]. rewrite clear_chords_length. now split.
    + destruct x as [[id|]|]; cbn [bind ch_handle_event]; try (exists c1; now auto).
      assert (Hid : (N.to_nat id < length (chc_chords cf))%nat) by (apply (Hids j), in_or_app; right; now left).
      unfold update_index. rewrite (proj2 (Nat.ltb_lt _ _)) by lia. cbn [bind]. eexists. split; [reflexivity|].
      cbn [chx_pressed_chords chx_latest]. split; [now rewrite LayerFacts.set_nth_length|]. intros id' E. injection E as <-. exact Hid.
Qed.

(** Sizes as the firmware generator chooses them: twice the largest chord.  One
    more key held than that, with the largest index, panics; the property as stated
    for all uses is false. *)
Definition small_config : config :=
  mkConfig (cf_automation sample_config) (mkChConfig 200 [[15; 16]] None 1 2 4) sticky_config_default tapdance_config_default taphold_config_default 3.
Theorem C41_holding_five_keys_refuted :
  run_ops sample 60 (concat (map (fun i => [P i; OpTick; OpTick]) [21; 22; 23; 24; 25])) (km_new (ctx_from_config small_config)) = Panic
  /\ returns (run_ops sample 60 (concat (map (fun i => [P i; OpTick; OpTick]) [25; 24; 23; 22; 21])) (km_new (ctx_from_config small_config))) (fun k =>
       km_pressed_keys sample k = Ok [out 14; out 13; out 12; out 11; out 10]).
Proof. vm_compute. repeat split; reflexivity. Qed.
Example C41_example :
  let h := map (fun i => EvInput (Press i)) [21; 22; 23; 24] in
  never_full 4 h /\ length (held_keys h) = 4%nat
  /\ returns (fold_res step_chorded h (ch_ctx_new (cf_chorded small_config))) (fun c =>
       step_chorded c (EvInput (Press 25)) = Panic /\ chx_pressed_indices c = [21; 22; 23; 24]).
Proof.
  cbv zeta. split.
  - split.
    + intros h1 h2 E. do 5 (destruct h1 as [|? h1]; [cbn in E; try discriminate E; try (injection E as <-); vm_compute; lia|
        cbn in E; try discriminate E; injection E as <- E]); try discriminate; vm_compute; lia.
    + cbn. intuition discriminate.
  - vm_compute. repeat split; reflexivity.
Qed.

Print Assumptions C29_decision.
Print Assumptions C29_all_pressed.
Print Assumptions C29_press.
Print Assumptions C30_active_chords.
Print Assumptions C30_no_overlap.
Print Assumptions C30_only_first_acts.
Print Assumptions C30_waits_for_free_chords.
Print Assumptions C30_only_first_acts_composite.
Print Assumptions C30_composite.
Print Assumptions C23_chord_required_idle.
Print Assumptions C41_press_panics.
Print Assumptions C41_holding_five_keys_refuted.
Print Assumptions C41_never_panics_partial.
