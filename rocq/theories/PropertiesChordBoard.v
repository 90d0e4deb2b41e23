(** C71: keyboards with layers and chords. *)
From Verif Require Import BaseFacts Output Types Scheduler Keymap SimpleKeys TapHold TapDance Sticky Layered Chorded Composite Samples SpecScheduler SpecKeymap
  KeymapQueue KeymapApi CtxFacts SpecPlain PlainFacts SpecLayer SpecTap TapFacts SpecDecide PropertiesDecide SpecBoard BoardFacts SpecTapBoard TapBoardFacts PropertiesTapBoard
  SpecChord ChordFacts SpecChordBoard ChordBoardFacts ChordBoardLive.
Local Open Scope N_scope.

(** C71: the inputs and the outcomes determine the keyboard, the chords that are
    down, and the calls. *)
Theorem C71_unique : forall d chords n refs timing timing' h later later' ys c c' cs cs',
  chord_run d chords n refs timing h later ys c cs -> chord_run d chords n refs timing' h later' ys c' cs' ->
  same_cboard c c' /\ cs = cs'.
Proof.
  intros d chords n refs timing timing' h later later' ys c c' cs cs' H1 H2.
  destruct (chord_run_fun _ _ _ _ _ _ _ _ _ _ _ H1 _ _ _ _ [] [] H2 eq_refl) as (A & B & _). auto.
Qed.

(** C71: a chord goes down only if all its keys have been pressed, no other key was
    pressed in between, the key that waited for it has not been released, and none
    of its keys belongs to a chord that is down. *)
Lemma pressed_in_inputs seen j : In j (pressed_in (map (@EvInput cev) seen)) <-> In (Press j) seen.
Proof.
  induction seen as [|[i|i|ko|ko] seen IH]; cbn; [tauto| | | |].
  - rewrite IH. split; (intros [X|X]; [left; congruence|right; exact X]).
  - rewrite IH. split; [auto|]. intros [X|X]; [discriminate|exact X].
  - rewrite IH. split; [auto|]. intros [X|X]; [discriminate|exact X].
  - rewrite IH. split; [auto|]. intros [X|X]; [discriminate|exact X].
Qed.
Lemma member_in j ch : member j ch = true <-> In j ch.
Proof. unfold member. rewrite existsb_exists. split; [intros (x & A & B); apply N.eqb_eq in B; now subst|intros A; exists j; split; [exact A|apply N.eqb_refl]]. Qed.
Lemma offered_in chords active i id ch : In (id, ch) (offered chords active i) ->
  nth_error chords id = Some ch /\ In i ch /\ forall j, In j ch -> in_active chords active j = false.
Proof.
  intros H. apply filter_In in H as (A & B). apply andb_true_iff in B as (B & C). split; [|split; [now apply member_in|]].
  - unfold numbered in A. clear -A. revert A. assert (X : forall s l, In (id, ch) (combine (seq s (length l)) l) -> exists k, id = (s + k)%nat /\ nth_error l k = Some ch).
    { intros s l. revert s. induction l as [|x l IH]; intros s A; [destruct A|]. cbn in A. destruct A as [A|A].
      - injection A as <- <-. exists 0%nat. split; [lia|reflexivity].
      - destruct (IH _ A) as (k & -> & E). exists (S k). split; [lia|exact E]. }
    intros A. now destruct (X _ _ A) as (k & -> & E).
  - intros j Hj. rewrite forallb_forall in C. specialize (C j Hj). now apply negb_true_iff.
Qed.
Lemma possible_in cands ps id ch : In (id, ch) (possible cands ps) <-> In (id, ch) cands /\ forall j, In j ps -> In j ch.
Proof.
  unfold possible. rewrite filter_In, forallb_forall. split; intros (A & B); (split; [exact A|]); intros j Hj; apply member_in; now apply B.
Qed.
Lemma complete_in i ps ch : complete i ps ch = true <-> forall j, In j ch -> j = i \/ In j ps.
Proof.
  unfold complete. rewrite forallb_forall. split; intros H j Hj; specialize (H j Hj); [apply member_in in H; destruct H; auto|].
  apply member_in. destruct H; [left; congruence|now right].
Qed.
Lemma best_in cands i ps id : best cands i ps = Some id -> exists ch, In (id, ch) cands /\ (forall j, In j ps -> In j ch) /\ (forall j, In j ch -> j = i \/ In j ps).
Proof.
  unfold best. destruct ps as [|p ps]; [discriminate|]. intros H. destruct (find _ _) as [[id' ch]|] eqn:E; [|discriminate]. cbn in H. injection H as ->.
  apply find_some in E as (A & B). apply possible_in in A as (A & C). exists ch. split; [exact A|]. split; [exact C|]. now apply complete_in.
Qed.
Lemma rule_chord cands i seen last id : chord_rule cands i (map (@EvInput cev) seen) (EvInput last) = Some (Some id) ->
  exists more, (more = [] \/ more = [last]) /\ ~ In (Release i) more /\
  exists ch, In (id, ch) cands /\ (forall j, In (Press j) (seen ++ more) -> In j ch) /\ (forall j, In j ch -> j = i \/ In (Press j) (seen ++ more)).
Proof.
  intros H. assert (B : best cands i (pressed_in (map (@EvInput cev) seen)) = Some id \/ exists k ch, last = Press k /\ possible cands (pressed_in (map (@EvInput cev) seen) ++ [k]) = [(id, ch)]
     /\ complete i (pressed_in (map (@EvInput cev) seen) ++ [k]) ch = true).
  { destruct last as [k|k|ko|ko]; cbn [chord_rule] in H; try discriminate.
    - destruct (possible _ _) as [|[id' ch] [|]] eqn:E; [left; congruence| |discriminate]. destruct (complete _ _ ch) eqn:Ec; [|discriminate]. injection H as ->. right. exists k, ch. auto.
    - destruct (k =? i); [left; congruence|discriminate]. }
  destruct B as [B|(k & ch & -> & E & Ec)].
  - apply best_in in B as (ch & A & B & C). exists []. split; [auto|]. split; [intros []|]. exists ch. split; [exact A|]. rewrite app_nil_r. split.
    + intros j Hj. apply B. now apply pressed_in_inputs.
    + intros j Hj. destruct (C j Hj) as [->|X]; [auto|]. right. now apply pressed_in_inputs.
  - exists [Press k]. split; [auto|]. split; [intros [X|[]]; discriminate|]. assert (A : In (id, ch) (possible cands (pressed_in (map (@EvInput cev) seen) ++ [k]))) by (rewrite E; now left).
    apply possible_in in A as (A & B). exists ch. split; [exact A|]. pose proof (proj1 (complete_in _ _ _) Ec) as C. split.
    + intros j Hj. apply B. apply in_app_or in Hj as [Hj|[Hj|[]]]; apply in_or_app; [left; now apply pressed_in_inputs|right; left; congruence].
    + intros j Hj. destruct (C j Hj) as [->|X]; [auto|]. right. apply in_app_or in X as [X|[<-|[]]]; apply in_or_app; [left; now apply pressed_in_inputs|right; now left].
Qed.
Theorem C71_chord_goes_down : forall chords timing before i later c y id, suits chords timing before i later c y -> forms y = Some id ->
  exists ch seen rest, nth_error chords id = Some ch /\ later = seen ++ rest /\ In i ch /\ (forall j, In j ch -> in_active chords (cb_active c) j = false)
  /\ (forall j, In j ch -> j = i \/ In (Press j) seen) /\ (forall j, In (Press j) seen -> In j ch) /\ ~ In (Release i) seen.
Proof.
  intros chords timing before i later c y id H Hy. destruct y as [id'| |x|x]; try discriminate; cbn in Hy; subst x.
  - destruct H as (_ & _ & _ & seen & last & rest & -> & Hf & Hr). apply rule_chord in Hr as (more & Hm & Hn & ch & A & B & C). apply offered_in in A as (A1 & A2 & A3).
    pose proof (waiting_release _ _ _ Hf) as Hnr.
    exists ch, (seen ++ more), (match more with [] => last :: rest | _ => rest end). split; [exact A1|].
    split; [destruct Hm as [->| ->]; [now rewrite app_nil_r|now rewrite <- app_assoc]|]. split; [exact A2|]. split; [exact A3|]. split; [exact C|]. split; [exact B|].
    intros X. apply in_app_or in X as [X|X]; contradiction.
  - destruct H as (_ & _ & _ & seen & rest & -> & Hf & Hr & _). symmetry in Hr. apply best_in in Hr as (ch & A & B & C). apply offered_in in A as (A1 & A2 & A3).
    exists ch, seen, rest. split; [exact A1|]. split; [reflexivity|]. split; [exact A2|]. split; [exact A3|]. split; [|split].
    + intros j Hj. destruct (C j Hj) as [->|X]; [auto|]. right. now apply pressed_in_inputs.
    + intros j Hj. apply B. now apply pressed_in_inputs.
    + exact (waiting_release _ _ _ Hf).
Qed.
(** C71: a key is part of a chord that is down already only if it belongs to it. *)
Theorem C71_joins : forall chords timing before i later c id, suits chords timing before i later c (Joins id) ->
  exists ch, nth_error chords id = Some ch /\ In i ch /\ cb_active c id = true.
Proof.
  intros chords timing before i later c id H. cbn in H. destruct (find _ _) as [[id' ch]|] eqn:E; [|discriminate]. cbn in H. injection H as ->.
  apply find_some in E as (A & B). apply andb_true_iff in B as (B & C). exists ch. split; [|split; [now apply member_in|exact B]].
  unfold numbered in A. clear -A. assert (X : forall s l, In (id, ch) (combine (seq s (length l)) l) -> exists k, id = (s + k)%nat /\ nth_error l k = Some ch).
  { intros s l. revert s. induction l as [|x l IH]; intros s Y; [destruct Y|]. cbn in Y. destruct Y as [Y|Y].
    - injection Y as <- <-. exists 0%nat. split; [lia|reflexivity].
    - destruct (IH _ Y) as (k & -> & E). exists (S k). split; [lia|exact E]. }
  now destruct (X _ _ A) as (k & -> & E).
Qed.
(** C71: a key that waited is pressed on its own only if there was no moment to form
    a chord: whichever chord it could become part of, some key of it was not pressed
    before the key was released, before the time had passed, or before some other
    key that is not in it was pressed. *)
Theorem C71_on_its_own : forall chords timing before i later c y, suits chords timing before i later c y -> part y = None -> y <> Own ->
  exists seen last rest, later = seen ++ last ++ rest /\ ~ In (Release i) seen
  /\ (forall id ch, In (id, ch) (offered chords (cb_active c) i) ->
       (forall j, ~ In (Press j) seen) \/ (exists j, In j ch /\ j <> i /\ ~ In (Press j) seen) \/ (exists j, In (Press j) seen /\ ~ In j ch))
  /\ (timing before i Late seen /\ last = [] \/ last = [Release i]
      \/ exists j, last = [Press j] /\ forall id ch, In (id, ch) (offered chords (cb_active c) i) -> exists j', In (Press j') (seen ++ last) /\ ~ In j' ch).
Proof.
  intros chords timing before i later c y H Hy Hno.
  assert (Bn : forall seen : list input_event, best (offered chords (cb_active c) i) i (pressed_in (map (@EvInput cev) seen)) = None ->
    forall id ch, In (id, ch) (offered chords (cb_active c) i) ->
       (forall j, ~ In (Press j) seen) \/ (exists j, In j ch /\ j <> i /\ ~ In (Press j) seen) \/ (exists j, In (Press j) seen /\ ~ In j ch)).
  { intros seen Hb id ch Hin. unfold best in Hb. destruct (pressed_in (map (@EvInput cev) seen)) as [|p ps] eqn:Ep.
    - left. intros j Hj. apply pressed_in_inputs in Hj. rewrite Ep in Hj. destruct Hj.
    - right. rewrite <- Ep in Hb. destruct (find _ _) as [|] eqn:E in Hb; [discriminate|].
      destruct (forallb (fun j => member j ch) (pressed_in (map (@EvInput cev) seen))) eqn:Ef.
      + left. assert (Hp : In (id, ch) (possible (offered chords (cb_active c) i) (pressed_in (map (@EvInput cev) seen)))).
        { unfold possible. apply filter_In. auto. }
        pose proof (find_none _ _ E _ Hp) as X. cbn in X. unfold complete in X. clear -X. induction ch as [|j ch IH]; [discriminate|]. cbn [forallb] in X.
        destruct (member j (i :: _)) eqn:Em.
        * destruct (IH X) as (j' & A & B). exists j'. split; [now right|exact B].
        * exists j. split; [now left|]. cbn in Em. apply orb_false_iff in Em as (E1 & E2). split; [now apply N.eqb_neq|]. intros Y. apply pressed_in_inputs in Y.
          apply member_in in Y. unfold member in Y. congruence.
      + right. clear -Ef. assert (X : exists j, In j (pressed_in (map (@EvInput cev) seen)) /\ member j ch = false).
        { induction (pressed_in (map (@EvInput cev) seen)) as [|j l IH]; [discriminate|]. cbn in Ef. destruct (member j ch) eqn:Em; [destruct (IH Ef) as (j' & A & B); exists j'; split; [now right|exact B]|].
          exists j. split; [now left|exact Em]. }
        destruct X as (j & A & B). exists j. split; [now apply pressed_in_inputs|]. intros Y. apply member_in in Y. congruence. }
  destruct y as [id'| |x|x]; cbn in Hy; [discriminate|now elim Hno| |]; subst x.
  - destruct H as (_ & _ & _ & seen & last & rest & -> & Hf & Hr). exists seen, [last], rest. split; [reflexivity|]. split; [exact (waiting_release _ _ _ Hf)|].
    destruct last as [k|k|ko|ko]; cbn [chord_rule] in Hr; try discriminate.
    + destruct (possible _ _) as [|[id' ch] [|]] eqn:E; [|destruct (complete _ _ ch); discriminate|discriminate]. injection Hr as Hr. split; [now apply Bn|]. right. right. exists k. split; [reflexivity|].
      intros id ch Hin. destruct (forallb (fun j => member j ch) (pressed_in (map (@EvInput cev) seen) ++ [k])) eqn:Ef.
      * assert (X : In (id, ch) []) by (rewrite <- E; unfold possible; apply filter_In; auto). destruct X.
      * clear -Ef. assert (X : exists j, In j (pressed_in (map (@EvInput cev) seen) ++ [k]) /\ member j ch = false).
        { induction (pressed_in (map (@EvInput cev) seen) ++ [k]) as [|j l IH]; [discriminate|]. cbn in Ef. destruct (member j ch) eqn:Em; [destruct (IH Ef) as (j' & A & B); exists j'; split; [now right|exact B]|].
          exists j. split; [now left|exact Em]. }
        destruct X as (j & A & B). exists j. split; [|intros Y; apply member_in in Y; congruence].
        apply in_app_or in A as [A|[<-|[]]]; apply in_or_app; [left; now apply pressed_in_inputs|right; now left].
    + destruct (N.eqb_spec k i) as [->|]; [|discriminate]. injection Hr as Hr. split; [now apply Bn|]. right. now left.
  - destruct H as (_ & _ & _ & seen & rest & -> & Hf & Hr & Ht). exists seen, [], rest. split; [reflexivity|]. split; [exact (waiting_release _ _ _ Hf)|]. split; [now apply Bn|]. left. auto.
Qed.

(** C71: at any time the outputs, the layers, the chords that are down and the calls
    are those of the keyboard after the inputs taken so far, for outcomes that suit
    the inputs and the time; the other inputs are still waiting, and if a key is
    undecided it is the first of these, it can become part of some chord, and
    nothing in what the keymap has seen after it decides it. *)
Theorem C71_pressed :
  forall refs d pos dbg height fuel setup ops cf k0 k, Forall (chord_board_key d (cf_layer_count cf) height) refs -> (height + 9 <= fuel)%nat ->
  (length (chc_chords (cf_chorded cf)) <= 256)%nat ->
  registers_two setup -> Forall (fun o => plain_op o = true) ops ->
  run_ops (cconf refs d pos dbg) fuel setup (km_new (ctx_from_config cf)) = Ok k0 ->
  run_ops (cconf refs d pos dbg) fuel ops k0 = Ok k ->
  in_turn (let_in (cconf refs d pos dbg) fuel ops k0) ->
  exists taken waiting ys c cs, let_in (cconf refs d pos dbg) fuel ops k0 = taken ++ waiting
  /\ chord_run d (chc_chords (cf_chorded cf)) (cf_layer_count cf) refs
       (chord_timing (cconf refs d pos dbg) fuel (cf_chorded cf) k0 ops) taken waiting ys c cs
  /\ km_pressed_keys (cconf refs d pos dbg) k = Ok (board_output (cb_board c))
  /\ (forall l, is_on (cx_layered (km_ctx k)) l = bd_on (cb_board c) l) /\ lyx_default (cx_layered (km_ctx k)) = bd_default (cb_board c)
  /\ km_calls k = filter_map (registered setup) cs
  /\ match SpecDecide.undecided k with
     | None => waiting = km_inq k
     | Some (i, _) => exists seen, waiting = Press i :: seen ++ km_inq k
         /\ in_active (chc_chords (cf_chorded cf)) (cb_active c) i = false
         /\ offered (chc_chords (cf_chorded cf)) (cb_active c) i <> []
         /\ (of_latest (chc_chords (cf_chorded cf)) c i \/ chord_timing (cconf refs d pos dbg) fuel (cf_chorded cf) k0 ops taken i Rested [])
         /\ first_decision (chord_rule (offered (chc_chords (cf_chorded cf)) (cb_active c) i) i) [] (map EvInput seen) = None
     end.
Proof.
  intros refs d pos dbg height fuel setup ops cf k0 k Hr Hf Hfew Hset Ho H0 H Ht.
  destruct (setup_total (cconf refs d pos dbg) fuel setup Hset (ctx_from_config cf)) as (L & EL). rewrite H0 in EL. injection EL as ->.
  pose proof (callbacks_registered _ _ _ _ _ H0) as Hreg. cbn [set_callbacks km_callbacks km_new] in Hreg.
  assert (Hreg' : forall cs, filter_map (lm_get L) cs = filter_map (registered setup) cs).
  { intros cs. induction cs as [|c cs IH]; cbn; [reflexivity|]. unfold registered at 1. rewrite <- (Hreg c : _ = registered_in setup c None). destruct (lm_get L c); now rewrite IH. }
  replace fuel with (S (S (S (S (S (S (S (S (S (height + (fuel - height - 9))))))))))) in * by lia.
  destruct (run_ccore refs d pos dbg cf height (fuel - height - 9) Hr Hfew L ops k Ho H Ht) as (_ & _ & _ & h & c & ys & cs & Hc & _ & X).
  destruct X as [(Ea & Hrun & Hb & _)|(i & q & qd & due & Ea & Hrun & Hu & (W1 & W2 & W3) & _)].
  - exists h, (km_inq k), ys, c, cs. split; [exact Ea|]. split; [exact Hrun|]. destruct Hb as (_ & (_ & Hon & Hdf & _) & Hh & _ & _ & Hp).
    split; [eapply outputs_held; exact Hh|]. split; [exact Hon|]. split; [exact Hdf|]. split; [now rewrite Hc, Hreg'|].
    unfold SpecDecide.undecided. now rewrite Hp.
  - exists h, (Press i :: qd ++ km_inq k), ys, c, cs. split; [exact Ea|]. split; [exact Hrun|]. destruct Hu as (Hp & (_ & (_ & Hon & Hdf & _) & Hh & _) & _ & _ & _ & Hfd & _).
    split; [eapply outputs_held; exact Hh|]. split; [exact Hon|]. split; [exact Hdf|]. split; [now rewrite Hc, Hreg'|].
    unfold SpecDecide.undecided. rewrite Hp. cbn. exists qd. auto 10.
Qed.

(** C71: once the keymap has nothing scheduled, every input has been taken. *)
Theorem C71_settled :
  forall refs d pos dbg height fuel setup ops cf k0 k, position_ok pos ->
  Forall (chord_board_key d (cf_layer_count cf) height) refs -> (height + 9 <= fuel)%nat ->
  (length (chc_chords (cf_chorded cf)) <= 256)%nat ->
  registers_two setup -> Forall (fun o => plain_op o = true) ops ->
  run_ops (cconf refs d pos dbg) fuel setup (km_new (ctx_from_config cf)) = Ok k0 ->
  run_ops (cconf refs d pos dbg) fuel ops k0 = Ok k ->
  in_turn (let_in (cconf refs d pos dbg) fuel ops k0) -> km_has_scheduled_events k = false ->
  exists ys c cs, chord_run d (chc_chords (cf_chorded cf)) (cf_layer_count cf) refs
       (chord_timing (cconf refs d pos dbg) fuel (cf_chorded cf) k0 ops) (let_in (cconf refs d pos dbg) fuel ops k0) [] ys c cs
  /\ km_boot_keyboard_report (cconf refs d pos dbg) k = Ok (as_hid_boot_keyboard_report (board_output (cb_board c)))
  /\ (forall l, is_on (cx_layered (km_ctx k)) l = bd_on (cb_board c) l) /\ lyx_default (cx_layered (km_ctx k)) = bd_default (cb_board c)
  /\ km_calls k = filter_map (registered setup) cs.
Proof.
  intros refs d pos dbg height fuel setup ops cf k0 k Hpos Hr Hf Hfew Hset Ho H0 H Ht Hev.
  destruct (C71_pressed _ _ _ _ _ _ _ _ _ _ _ Hr Hf Hfew Hset Ho H0 H Ht) as (taken & waiting & ys & c & cs & Ea & Hrun & Hp & Hon & Hdf & Hc & Hw).
  assert (Hall : run_ops (cconf refs d pos dbg) fuel (setup ++ ops) (km_new (ctx_from_config cf)) = Ok k) by (rewrite run_ops_app, H0; exact H).
  destruct (SpecDecide.undecided k) as [[i p]|] eqn:Eu.
  { destruct (C52_asks_to_be_ticked _ _ _ _ _ _ _ _ _ Hpos Hall Eu) as (X & _). congruence. }
  assert (Hq : km_inq k = []).
  { unfold km_has_scheduled_events in Hev. destruct (km_inq k); [reflexivity|]. rewrite orb_true_r in Hev. discriminate. }
  rewrite Hq in Hw. subst waiting. rewrite app_nil_r in Ea. exists ys, c, cs. rewrite Ea. split; [exact Hrun|].
  split; [unfold km_boot_keyboard_report; rewrite Hp; reflexivity|]. auto.
Qed.

(** C71: left alone, the keymap settles: after 96 times as many ticks as the timeout
    has milliseconds, and 96 more, it has nothing scheduled, whatever was going on. *)
Theorem C71_settles :
  forall refs d pos dbg height fuel setup ops cf k0 n k, position_ok pos ->
  Forall (chord_board_key d (cf_layer_count cf) height) refs -> (height + 9 <= fuel)%nat ->
  (length (chc_chords (cf_chorded cf)) <= 256)%nat ->
  registers_two setup -> Forall (fun o => plain_op o = true) ops -> one_pace ops ->
  run_ops (cconf refs d pos dbg) fuel setup (km_new (ctx_from_config cf)) = Ok k0 ->
  in_turn (let_in (cconf refs d pos dbg) fuel ops k0) ->
  96 * (chc_timeout (cf_chorded cf) + 1) <= N.of_nat n ->
  run_ops (cconf refs d pos dbg) fuel (ops ++ repeat OpTick n) k0 = Ok k ->
  km_has_scheduled_events k = false
  /\ let_in (cconf refs d pos dbg) fuel (ops ++ repeat OpTick n) k0 = let_in (cconf refs d pos dbg) fuel ops k0.
Proof.
  intros refs d pos dbg height fuel setup ops cf k0 n k Hpos Hr Hf Hfew Hset Ho Hp H0 Ht Hn H.
  destruct (setup_total (cconf refs d pos dbg) fuel setup Hset (ctx_from_config cf)) as (L & EL). rewrite H0 in EL. injection EL as ->.
  replace fuel with (S (S (S (S (S (S (S (S (S (height + (fuel - height - 9))))))))))) in * by lia. split.
  - eapply (csettle_all refs d pos dbg cf height (fuel - height - 9) Hr Hfew Hpos L); [|exact Ho|exact Hp|exact Ht| |exact H].
    + intros ops' k' u Hk Hu. eapply C52_asks_to_be_ticked; [exact Hpos| |exact Hu]. rewrite run_ops_app, H0. exact Hk.
    + unfold u16 in *. lia.
  - clear. generalize (set_callbacks (km_new (ctx_from_config cf)) L : ckeymap) as k1. induction ops as [|o ops IH]; intros k1; cbn [app let_in].
    + revert k1. induction n as [|n IH]; intros k1; [reflexivity|]. cbn [repeat let_in app]. destruct (run_op _ _ k1 OpTick); [apply IH|reflexivity..].
    + destruct (run_op _ _ k1 o); [now rewrite IH|reflexivity..].
Qed.

(** C71: up to 31 inputs are never dropped; so these theorems then speak of all inputs. *)
Theorem C71_nothing_dropped :
  forall refs d pos dbg height fuel setup ops cf k0 k, Forall (chord_board_key d (cf_layer_count cf) height) refs -> (height + 9 <= fuel)%nat ->
  (length (chc_chords (cf_chorded cf)) <= 256)%nat ->
  registers_two setup -> Forall (fun o => plain_op o = true) ops ->
  run_ops (cconf refs d pos dbg) fuel setup (km_new (ctx_from_config cf)) = Ok k0 ->
  run_ops (cconf refs d pos dbg) fuel ops k0 = Ok k -> in_turn (inputs ops) -> (length (inputs ops) <= 31)%nat ->
  let_in (cconf refs d pos dbg) fuel ops k0 = inputs ops.
Proof.
  intros refs d pos dbg height fuel setup ops cf k0 k Hr Hf Hfew Hset Ho H0 H Ht Hl.
  destruct (setup_total (cconf refs d pos dbg) fuel setup Hset (ctx_from_config cf)) as (L & EL). rewrite H0 in EL. injection EL as ->.
  replace fuel with (S (S (S (S (S (S (S (S (S (height + (fuel - height - 9))))))))))) in * by lia. eapply call_let_in; eassumption.
Qed.

(** A keyboard with one layer above the base: the first two keys together are C, the
    first three turn on layer 1 while held; the second key is layered; and a letter. *)
Definition chord_data : key_data :=
  mkData [] [] [mkChordedKey [(0, kC); (1, RLayered (LyModifier 0))] kA] [mkChordedAux kB; mkChordedAux kD] [] [LmHold 1]
    [mkLayeredKey (RChorded (ChAuxiliary 0)) [Some kD]] [] [] [].
Definition chord_refs : list ref := [RChorded (ChChorded 0); RLayered (LyLayered 0); RChorded (ChAuxiliary 1); kD].
Definition chord_config (idle : option u16) : config :=
  mkConfig (cf_automation sample_config) (mkChConfig 4 [[0; 1]; [0; 1; 2]] idle 2 3 6) sticky_config_default tapdance_config_default (cf_tap_hold sample_config) 1.
Lemma chord_refs_ok : Forall (chord_board_key chord_data 1 2) chord_refs.
Proof.
  assert (K : forall h c, board_key 1 chord_data h (RKeyboard (KbKeyCode c))) by (intros h c; eapply bk_plain; reflexivity).
  repeat apply Forall_cons; try apply Forall_nil.
  - eapply (cbk_chord _ _ 1 _ [(0, kC); (1, RLayered (LyModifier 0))] kA); [reflexivity|apply K|].
    intros id r [X|[X|[]]]; injection X as <- <-; [apply K|]. eapply bk_modifier; [reflexivity|cbn; lia].
  - eapply cbk_layered; [reflexivity|reflexivity| |].
    + eapply (cbk_chord _ _ 0 _ [] kB); [split; reflexivity|apply K|]. intros id r [].
    + intros r [H|[]]. injection H as <-. apply cbk_key, K.
  - eapply (cbk_chord _ _ 1 _ [] kD); [split; reflexivity|apply K|]. intros id r [].
  - apply cbk_key, K.
Qed.
Local Notation hconf := (cconf chord_refs chord_data bs_std false).
Definition hstart idle : ckeymap := km_new (ctx_from_config (chord_config idle)).
(** The first two keys together, after the timeout: C, until the first is released.
    All three: layer 1 at once; the second key is then looked up on that layer, where
    it is not part of a chord, so it is D.  The first key tapped: A.  The first key, then the
    letter: A and D. *)
Example C71_example :
  Forall (chord_board_key chord_data 1 2) chord_refs /\ (2 + 9 <= 11)%nat /\ (length (chc_chords (cf_chorded (chord_config None))) <= 256)%nat
  /\ registers_two [] /\ position_ok bs_std
  /\ (let ops := [P 0; OpTick; P 1; OpTick; OpTick; OpTick; Rl 1; OpTick; OpTick; Rl 0; OpTick; OpTick] in
      Forall (fun o => plain_op o = true) ops /\ in_turn (let_in hconf 11 ops (hstart None))
      /\ let_in hconf 11 ops (hstart None) = [Press 0; Press 1; Release 1; Release 0]
      /\ returns (run_ops hconf 11 (firstn 4 ops) (hstart None)) (fun k => km_pressed_keys hconf k = Ok [] /\ option_map fst (SpecDecide.undecided k) = Some 0)
      /\ returns (run_ops hconf 11 (firstn 9 ops) (hstart None)) (fun k => km_pressed_keys hconf k = Ok [out 6] /\ SpecDecide.undecided k = None)
      /\ returns (run_ops hconf 11 (ops ++ ticks 10) (hstart None)) (fun k => km_pressed_keys hconf k = Ok [] /\ km_has_scheduled_events k = false))
  /\ (let ops := [P 0; OpTick; P 1; OpTick; P 2; OpTick; OpTick; OpTick; OpTick] in
      returns (run_ops hconf 11 ops (hstart None)) (fun k => km_pressed_keys hconf k = Ok [out 7] /\ is_on (cx_layered (km_ctx k)) 1 = true /\ SpecDecide.undecided k = None))
  /\ (let ops := [P 0; OpTick; Rl 0] in
      returns (run_ops hconf 11 ops (hstart None)) (fun k => km_pressed_keys hconf k = Ok [out 4]))
  /\ (let ops := [P 0; OpTick; P 3; OpTick; OpTick; OpTick] in
      returns (run_ops hconf 11 ops (hstart None)) (fun k => km_pressed_keys hconf k = Ok [out 4; out 7])).
Proof.
  split; [exact chord_refs_ok|]. split; [lia|]. split; [cbn; lia|]. split; [exists CbReset, CbReset; constructor|]. split; [exact SchedulerFacts.bs_std_position_ok|].
  split; [|vm_compute; repeat split; reflexivity]. cbv zeta. split; [repeat constructor|]. split; [apply in_turn_dec; vm_compute; reflexivity|].
  vm_compute. repeat split; reflexivity.
Qed.
(** With a required idle time of 10 ms, the first key comes too soon after the letter:
    A at once; so does the second: B. *)
Example C71_hasty_example :
  let ops := ticks 12 ++ [P 3; OpTick; Rl 3; OpTick; OpTick; P 0; OpTick; OpTick; P 1; OpTick; OpTick] in
  in_turn (let_in hconf 11 ops (hstart (Some 10)))
  /\ returns (run_ops hconf 11 ops (hstart (Some 10))) (fun k => km_pressed_keys hconf k = Ok [out 4; out 5] /\ SpecDecide.undecided k = None).
Proof. cbv zeta. split; [apply in_turn_dec; vm_compute; reflexivity|]. vm_compute. repeat split; reflexivity. Qed.
(** Two keys of a chord and the letter pressed at once; 500 ticks later. *)
Example C71_settles_example :
  let ops := [P 0; P 1; P 3] in let k0 := hstart None in
  Forall (fun o => plain_op o = true) ops /\ one_pace ops /\ in_turn (let_in hconf 11 ops k0) /\ 96 * (chc_timeout (cf_chorded (chord_config None)) + 1) <= N.of_nat 500
  /\ returns (run_ops hconf 11 ops k0) (fun k => km_has_scheduled_events k = true /\ SpecDecide.undecided k <> None /\ km_inq k = [Press 1; Press 3])
  /\ returns (run_ops hconf 11 (ops ++ repeat OpTick 500) k0) (fun k => km_has_scheduled_events k = false /\ km_pressed_keys hconf k = Ok [out 6; out 7]).
Proof.
  cbv zeta. split; [repeat constructor|]. split; [apply steady_pace; repeat (constructor; [discriminate|]); constructor|].
  split; [apply in_turn_dec; vm_compute; reflexivity|]. split; [cbn; lia|]. split; vm_compute; repeat split; try reflexivity; discriminate.
Qed.
(** The outcomes of the theorems on single outcomes: two keys of the first chord, and
    then the second of them again. *)
Example C71_outcomes_example :
  let chords := [[0; 1]; [0; 1; 2]] in let any := fun _ _ _ _ => True in
  suits chords any [] 0 [Press 1; Release 1; Press 3] cboard_new (Followed (Some 0%nat))
  /\ suits chords any [] 0 [Press 1] cboard_new (Elapsed (Some 0%nat))
  /\ suits chords any [] 0 [Press 3] cboard_new (Followed None)
  /\ suits chords any [Press 0] 1 [] (mkCBoard board_new (fun id => (id =? 0)%nat) (Some 0%nat)) (Joins 0).
Proof.
  cbv zeta. split; [|split; [|split; [|reflexivity]]].
  - split; [reflexivity|]. split; [discriminate|]. split; [right; exact Logic.I|]. exists [Press 1; Release 1], (Press 3), []. repeat split; reflexivity.
  - split; [reflexivity|]. split; [discriminate|]. split; [right; exact Logic.I|]. exists [Press 1], []. repeat split; reflexivity.
  - split; [reflexivity|]. split; [discriminate|]. split; [right; exact Logic.I|]. exists [], (Press 3), []. repeat split; reflexivity.
Qed.

(** C71: a keymap with a chord of three keys, with the sizes its layout gives it, panics
    when one key of the chord is held and another is pressed three times before the
    third is: every press is kept, also of a key that was pressed before. *)
Definition repeated_ops : list op := [P 0; OpTick; P 1; OpTick; OpTick; Rl 1; OpTick; OpTick; P 1; OpTick; OpTick; Rl 1; OpTick; OpTick].
Definition slow_chords : config :=
  mkConfig (cf_automation sample_config) (mkChConfig 200 [[0; 1; 2]] None 1 3 6) sticky_config_default tapdance_config_default (cf_tap_hold sample_config) 1.
Lemma repeated_ok : returns (run_ops hconf 11 repeated_ops (km_new (ctx_from_config slow_chords))) (fun k => option_map fst (SpecDecide.undecided k) = Some 0 /\ km_inq k = []).
Proof. vm_compute. repeat split; reflexivity. Qed.
Lemma repeated_panic : run_ops hconf 11 (repeated_ops ++ [P 1]) (km_new (ctx_from_config slow_chords)) = Panic.
Proof. vm_compute. reflexivity. Qed.
Theorem C71_repeated_press_refuted :
  ~ (forall cf ops, (forall ch, In ch (chc_chords (cf_chorded cf)) -> (length ch <= chc_max_chord_size (cf_chorded cf))%nat) ->
       Forall (fun o => plain_op o = true) ops -> in_turn (inputs ops) ->
       (forall n, (length (down_after (firstn n (inputs ops))) <= 2)%nat) -> (length (inputs ops) <= 6)%nat ->
       run_ops hconf 11 ops (km_new (ctx_from_config cf)) <> Panic).
Proof.
  intros H. apply (H slow_chords (repeated_ops ++ [P 1])); [| | | | |exact repeated_panic].
  - intros ch [<-|[]]. cbn. lia.
  - repeat constructor.
  - apply in_turn_dec. vm_compute. reflexivity.
  - intros n. do 7 (destruct n as [|n]; [vm_compute; lia|]). vm_compute. lia.
  - vm_compute. lia.
Qed.

Print Assumptions C71_unique.
Print Assumptions C71_chord_goes_down.
Print Assumptions C71_joins.
Print Assumptions C71_on_its_own.
Print Assumptions C71_pressed.
Print Assumptions C71_settled.
Print Assumptions C71_settles.
Print Assumptions C71_nothing_dropped.
Print Assumptions C71_repeated_press_refuted.
