(** Keyboards with layers and tap-dance keys do not stop without reason (C76). *)
From Coq Require Import Sorted.
From Verif Require Import BaseFacts Output Types Scheduler Reporter Keymap SimpleKeys TapHold TapDance Sticky CapsWord
  Layered Automation Chorded Composite SpecKeymap KeymapHist KeymapInv KeymapQueue KeymapCalls KeymapApi SpecChord ChordFacts ChordHeld SpecPlain PlainFacts
  SpecLayer LayerFacts SpecTap TapFacts TapTime CtxFacts SpecDecide SpecBoard BoardFacts SpecScheduler SchedulerFacts SpecTapBoard TapBoardFacts TapBoardTotal TapBoardLive
  SpecDanceBoard DanceBoardFacts DanceBoardLive SpecDanceRoom.
Local Open Scope N_scope.

Lemma held_shape s : keys_held s = shape (da_board s) ++ match da_dance s with Some dn => [inl (dn_key dn)] | None => [] end.
Proof. reflexivity. Qed.

Section Total.
Variables (refs : list ref) (d : key_data) (pos : position_fn) (dbg : bool) (n height : nat).
Hypothesis Hrefs : Forall (dance_board_key n d height) refs.
Local Notation conf := (cconf refs d pos dbg).
Local Notation bstate := (bstate d n).
Local Notation fuel4 f := (S (S (S (S (height + f))))).
Local Notation fuel7 f := (S (S (S (S (S (S (S (height + f)))))))).
Local Notation timeout_of c := (tdc_timeout (tdx_config (cx_tap_dance c))).
Local Notation can_time k := (exists e s, sched_after pos (km_sched k) (timeout_of (km_ctx k)) e = Ok s).

Lemma process_dance_total sch f b (k : ckeymap) ie g : bstate sch b k -> sc_pending (km_sched k) = [] ->
  step_chorded (cx_chorded (km_ctx k)) (EvInput ie) = Ok g -> board_input_ok refs b ie = true -> ((exists i, ie = Press i) -> can_time k) ->
  exists k', exec conf (fuel4 f) (JProcessInput ie) k = Ok k'.
Proof.
  intros H Hs Eh Hok Hcan. pose proof H as (Hc & Hly & Hh & Hnd & Hsc & Hp).
  assert (Hone : (forall i, ie <> Press i) \/ exists i, ie = Press i) by (destruct ie as [i|i|ko|ko]; [right; exists i; reflexivity|left; discriminate..]).
  destruct Hone as [Hno|(i & ->)].
  - assert (Hv : forall i r, ie = Press i -> nth_error refs (N.to_nat i) = Some r -> board_key n d height r) by (intros i r X; now apply Hno in X).
    pose proof (process_board refs d pos dbg n height sch f b k ie H Hs Hv) as X. rewrite Eh, Hok in X.
    destruct X as (b' & cs & k1 & _ & _ & E1 & _). now exists k1.
  - destruct (Hcan ltac:(eauto)) as (e0 & s0 & Es0). unfold board_input_ok in Hok.
    change (exec conf (fuel4 f) (JProcessInput (Press i)) k) with (step_process_input conf (exec conf (S (S (S (height + f))))) (Press i) k).
    unfold step_process_input. rewrite Hp. rewrite (update_pressed_board refs d pos dbg n b) by (try exact Hh; discriminate). cbn [bind].
    unfold update_context. cbn [kc_sys cconf composite sys_ctx_handle_event]. rewrite calm_input by exact Hc. rewrite Eh. cbn [bind].
    unfold schedule_all, sched_all. cbn [fold_res bind]. rewrite set_sched_id.
    set (k2 := set_ctx k (with_chorded (km_ctx k) g)).
    assert (B2 : bstate sch b k2).
    { split; [eapply chorded_calm; [exact Hc|exact Eh]|]. split; [exact Hly|]. split; [exact Hh|]. split; [exact Hnd|]. split; [exact Hsc|exact Hp]. }
    cbn [step_input_dispatch]. unfold has_pressed. change (km_pressed k2) with (km_pressed k). rewrite (has_held _ _ _ _ _ Hh).
    destruct (existsb (this_key i) (bd_down b)) eqn:Hnew.
    { cbn [bind]. rewrite drain0 by exact Hs. eauto. }
    cbn [orb] in Hok. apply andb_true_iff in Hok as (Hi & H16).
    unfold index. cbn [kc_refs cconf]. apply Nat.ltb_lt in Hi. destruct (nth_error refs (N.to_nat i)) as [r|] eqn:Er; [|apply nth_error_None in Er; lia]. cbn [bind].
    assert (Hbk : dance_board_key n d height r) by (eapply Forall_forall; [exact Hrefs|eapply nth_error_In; exact Er]).
    destruct (press_dance refs d pos dbg n height r Hbk sch f i b k2 B2 Hs Hnew) as [X|(q & choices & pad & Hk & Hd & X)].
    + rewrite H16 in X. destruct X as (m & k3 & M & E3 & B3 & F3 & P3 & C3 & Hmo). rewrite E3. cbn [bind].
      destruct (drain_board refs d pos dbg n sch (height + f) _ k3 _ (at_press m) B3 P3) as (k4 & E4 & _).
      { destruct m as [ko|lm|cb|]; try (left; split; reflexivity); right; eexists; (split; [reflexivity|]); cbn.
        - split; [reflexivity|]. destruct (modifier_events n lm (Hmo lm eq_refl)) as [X _]. exact X.
        - exact I. }
      now exists k4.
    + rewrite X. change (km_sched k2) with (km_sched k). change (tdx_config (cx_tap_dance (km_ctx k2))) with (tdx_config (cx_tap_dance (km_ctx k))).
      assert (Y : exists s, sched_after pos (km_sched k) (timeout_of (km_ctx k)) (dtimer i 0) = Ok s /\ sc_pending s = []).
      { rewrite <- Hs. eapply sched_after_any. exact Es0. }
      destruct Y as (s & -> & Ps). cbn [bind]. rewrite drain0 by exact Ps. eauto.
Qed.

Lemma becomes_total b i q choices pad seen st c r f (k : ckeymap) : bstate (sc_scheduled (km_sched k)) b (set_pending k None) -> existsb (this_key i) (bd_down b) = false ->
  dance_key d n height q choices pad -> nth_error choices c = Some r -> km_pending k = Some (mkPending i (RTapDance q) st (map EvInput seen)) ->
  sc_pending (km_sched k) = [] -> (length (bd_down b) < 16)%nat -> (length seen + length (km_inq k) <= 31)%nat ->
  exists k', exec conf (S (S (S (S (S (height + f)))))) (JPendingLoop (NpkKey r)) k = Ok k' /\ sc_pending (km_sched k') = []
   /\ exists b' sch', bstate sch' b' k'.
Proof.
  intros Hb Hi (_ & _ & Hch) Er Hp Hs H16 H31.
  assert (Hk : board_key n d height r) by (eapply Forall_forall; [exact Hch|eapply nth_error_In; exact Er]).
  pose proof (pending_board_gen refs d pos dbg n i st seen (wait_again i seen) height _ Hk (again_wait i seen) b k _ f _ Hb Hi Hp Hs) as X.
  pose proof (wait_again_length i seen) as Hwl.
  destruct (Nat.ltb_spec (length (bd_down b)) 16) as [_|Y]; [|lia]. destruct (Nat.leb_spec (length (wait_again i seen) + length (km_inq k)) 31) as [_|Y]; [|lia]. cbn [andb] in X.
  destruct X as (m & k1 & _ & E1 & B & _ & P & _). exists k1. eauto.
Qed.
Lemma schedule_dance_total i t ie (kk : ckeymap) T : (presses_key i ie = true -> exists e s, sched_after pos (km_sched kk) T e = Ok s) ->
  sc_pending (km_sched kk) = [] ->
  exists s1, schedule_all conf kk (dance_timers T i t [EvInput ie]) = Ok (set_sched kk s1) /\ sc_pending s1 = [].
Proof.
  clear Hrefs. intros H Hs. unfold schedule_all, sched_all. destruct ie as [j|j|ko|ko]; cbn [dance_timers presses_key] in *; [rewrite (N.eqb_sym j i); destruct (i =? j)|..]; cbn [fold_res];
    try (eexists; split; [reflexivity|exact Hs]).
  destruct (H eq_refl) as (e & s & Es).
  match goal with |- context [sched_event_in (kc_pos conf) (km_sched kk) ?x] =>
    change (sched_event_in (kc_pos conf) (km_sched kk) x) with (sched_after pos (km_sched kk) T (se_event x)) end.
  destruct (sched_after_any pos _ _ _ (dtimer i (N.of_nat (S t))) _ Es) as (s2 & E2 & P2). unfold dtimer in E2. cbn [se_event].
  match goal with |- context [sched_after pos (km_sched kk) T ?e'] => destruct (sched_after_any pos _ _ _ e' _ Es) as (s3 & E3 & P3); rewrite E3 end.
  cbn [bind]. eexists. split; [reflexivity|congruence].
Qed.
Lemma process_dancing_total b i q choices pad seen f (k : ckeymap) ie : dancing_at d n height b i q choices pad seen k -> sc_pending (km_sched k) = [] ->
  ((exists i, ie = Press i) -> can_time k) -> (length seen < 16)%nat -> (length (bd_down b) < 16)%nat -> (length seen + 1 + length (km_inq k) <= 31)%nat ->
  exists k', exec conf (fuel7 f) (JProcessInput ie) k = Ok k'.
Proof.
  intros (Hp & Hb & Hi & Hk & Ht) Hs Hcan Hq H16 H31. pose proof Hk as (Hkey & Hlen & Hch).
  change (exec conf (fuel7 f) (JProcessInput ie) k) with (step_process_input conf (exec conf (S (S (S (S (S (S (height + f)))))))) ie k).
  unfold step_process_input. rewrite Hp. unfold dwaits. cbn [pd_queued pd_index pd_ref pd_state].
  unfold push_cap. rewrite map_length. change MAX_PRESSED_KEYS with 16%nat. apply Nat.ltb_lt in Hq. rewrite Hq. cbn [bind].
  match goal with |- context [exec conf (S ?f0) (JUpdatePending ?ev) ?x] => change (exec conf (S f0) (JUpdatePending ev) x) with (step_update_pending conf (exec conf f0) ev x) end.
  unfold step_update_pending. cbn [km_pending set_pending pd_state pd_index pd_ref pd_queued kc_sys cconf composite sys_update_pending_state km_ctx].
  destruct (tap_dance_step d i (km_ctx k) q choices pad Hkey Hlen (map EvInput seen) (EvInput ie) (mkTDPks (N.of_nat (taps i seen)))) as (Eu & Hn & Hsome);
    [cbn; now rewrite presses_taps|now rewrite presses_taps|].
  cbn zeta in Eu. rewrite Eu. clear Eu.
  assert (Hsch : forall kk : ckeymap, km_sched kk = km_sched k -> forall t, exists s1, schedule_all conf kk (dance_timers (timeout_of (km_ctx k)) i t [EvInput ie]) = Ok (set_sched kk s1) /\ sc_pending s1 = []).
  { intros kk Ek t. apply schedule_dance_total; [|now rewrite Ek]. rewrite Ek. intros Y. apply Hcan. destruct ie; try discriminate Y. eauto. }
  destruct (tap_dance_rule (length choices) i (map EvInput seen) (EvInput ie)) as [c|] eqn:Er.
  - destruct (nth_error choices c) as [r|] eqn:Ec; [|now elim (Hsome _ eq_refl)]. cbn [bind].
    match goal with |- context [schedule_all conf ?kk _] => destruct (Hsch kk eq_refl (presses i (map (@EvInput cev) seen))) as (s1 & -> & S1) end. cbn [bind].
    match goal with |- context [exec conf _ (JPendingLoop ?np) ?y] => set (k1 := y) end.
    assert (Hpk : exists st, km_pending k1 = Some (mkPending i (RTapDance q) st (map EvInput (seen ++ [ie])))) by (eexists; cbn; rewrite map_app; reflexivity). destruct Hpk as (st & Hpk).
    destruct (becomes_total b i q choices pad (seen ++ [ie]) st c r f k1) as (k2 & E2 & P2 & _); try assumption.
    + destruct Hb as (A1 & A2 & A3 & A4 & A5 & A6). split; [exact A1|]. split; [exact A2|]. split; [exact A3|]. split; [exact A4|]. split; reflexivity.
    + rewrite app_length. cbn. exact H31.
    + rewrite E2. cbn [bind]. rewrite drain0 by exact P2. eauto.
  - cbn [bind]. match goal with |- context [schedule_all conf ?kk _] => destruct (Hsch kk eq_refl (presses i (map (@EvInput cev) seen))) as (s1 & -> & S1) end. cbn [bind].
    rewrite drain0 by exact S1. eauto.
Qed.
Lemma process_dtimer_total b i q choices pad seen f (k : ckeymap) c : dancing_at d n height b i q choices pad seen k -> sc_pending (km_sched k) = [] ->
  (length (bd_down b) < 16)%nat -> (length seen + length (km_inq k) <= 31)%nat ->
  exists k', exec conf (fuel7 f) (JHandleEvent (dtimer i c)) k = Ok k'.
Proof.
  intros (Hp & Hb & Hi & Hk & Ht) Hs H16 H31. pose proof Hk as (Hkey & Hlen & Hch).
  change (exec conf (fuel7 f) (JHandleEvent (dtimer i c)) k) with (step_handle_event conf (exec conf (S (S (S (S (S (S (height + f)))))))) (dtimer i c) k).
  unfold step_handle_event. cbn [run_callback dtimer].
  match goal with |- context [exec conf (S ?f0) (JUpdatePending ?ev) ?x] => change (exec conf (S f0) (JUpdatePending ev) x) with (step_update_pending conf (exec conf f0) ev x) end.
  unfold step_update_pending. rewrite Hp. unfold dwaits. cbn [km_pending set_pending pd_state pd_index pd_ref pd_queued kc_sys cconf composite sys_update_pending_state km_ctx].
  destruct (tap_dance_step d i (km_ctx k) q choices pad Hkey Hlen (map EvInput seen) (dtimer i c) (mkTDPks (N.of_nat (taps i seen)))) as (Eu & Hn & Hsome);
    [cbn; now rewrite presses_taps|now rewrite presses_taps|].
  cbn zeta in Eu. unfold dtimer in *. rewrite Eu. clear Eu.
  unfold schedule_all, sched_all; cbn [dance_timers fold_res].
  destruct (tap_dance_rule (length choices) i (map EvInput seen) (EvKey i (CeTapDance (NextPressTimeout c)))) as [x|] eqn:Er.
  - destruct (nth_error choices x) as [r|] eqn:Ec; [|now elim (Hsome _ eq_refl)]. cbn [bind fold_res].
    match goal with |- context [exec conf _ (JPendingLoop ?np) ?y] => set (k1 := y) end.
    assert (Hpk : exists st, km_pending k1 = Some (mkPending i (RTapDance q) st (map EvInput seen))) by (eexists; reflexivity). destruct Hpk as (st & Hpk).
    destruct (becomes_total b i q choices pad seen st x r f k1 Hb Hi Hk Ec Hpk Hs H16 H31) as (k2 & E2 & P2 & b' & sch' & B'). rewrite E2. cbn [bind].
    rewrite (update_pressed_board refs d pos dbg n b' k2) by (try apply B'; discriminate). cbn [bind].
    unfold update_context. cbn [kc_sys cconf composite sys_ctx_handle_event]. rewrite tap_dance_ctx by apply B'. cbn [bind].
    unfold schedule_all, sched_all. cbn [fold_res bind]. eauto.
  - cbn [bind fold_res]. rewrite (update_pressed_board refs d pos dbg n b) by (try apply Hb; discriminate). cbn [bind].
    unfold update_context. cbn [kc_sys cconf composite sys_ctx_handle_event km_ctx set_sched set_pending]. rewrite tap_dance_ctx by apply Hb. cbn [bind].
    unfold schedule_all, sched_all. cbn [fold_res bind]. eauto.
Qed.
End Total.

Lemma takes_held n refs d T now s s' x w : takes n refs d T now s s' -> da_waiting s = x :: w ->
  keys_held s' = match da_dance s with None => down_step (keys_held s) x | Some _ => keys_held s end.
Proof.
  intros H Hw. rewrite !held_shape. destruct H as [Hw'|x' w' b' cs Hd Hw' Hst Hcs|i w' r choices Hd Hw' Hi Er Hda|i choices seen due x' w' Hd Hw' Hl|i choices seen due x' w' s' Hd Hw' Hl Hb].
  - congruence.
  - assert (x' = x) as -> by congruence. rewrite Hd. cbn [da_dance da_board]. rewrite !app_nil_r. exact (step_shape _ _ _ _ _ _ Hst).
  - assert (x = Press i) as -> by congruence. rewrite Hd. cbn [da_dance da_board dn_key down_step]. rewrite app_nil_r. unfold shape. now rewrite this_forget, Hi.
  - rewrite Hd. reflexivity.
  - rewrite Hd. destruct Hb as [r m _ _]. cbn [da_dance da_board dn_key]. rewrite app_nil_r. unfold shape. rewrite BoardFacts.switch_down. cbn [set_down bd_down]. now rewrite map_app.
Qed.
Lemma passes_held n d now s up s' : passes n d now s up s' -> keys_held s' = keys_held s.
Proof.
  intros [|dn s2 Hd _ [r m _ _]]; [reflexivity|]. rewrite !held_shape, Hd. cbn [da_dance da_board dn_key]. rewrite app_nil_r. unfold shape. rewrite BoardFacts.switch_down. cbn [set_down bd_down]. now rewrite map_app.
Qed.

Section TotalRun.
Variables (refs : list ref) (d : key_data) (pos : position_fn) (dbg : bool) (cf : config) (height f : nat).
Hypothesis Hrefs : Forall (dance_board_key (cf_layer_count cf) d height) refs.
Hypothesis Hpos : position_ok pos.
Hypothesis Hmany : N.of_nat (length refs) <= 65535.
Variable L : list (callback * callback_fn).
Local Notation conf := (cconf refs d pos dbg).
Local Notation n := (cf_layer_count cf).
Local Notation T := (tdc_timeout (cf_tap_dance cf)).
Hypothesis HT : 0 < T.
Local Notation k0 := (set_callbacks (km_new (ctx_from_config cf)) L).
Local Notation fuel := (S (S (S (S (S (S (S (S (height + f))))))))).
Local Notation dcore := (dcore d n height L).
Local Notation spaced := (spaced T).
Local Notation plain ops := (Forall (fun o => plain_op o = true) ops).
Local Notation max := (chc_max_pressed (cf_chorded cf)).
Local Notation timeout_of c := (tdc_timeout (tdx_config (cx_tap_dance c))).
Local Notation can_time k := (exists e s, sched_after pos (km_sched k) (timeout_of (km_ctx k)) e = Ok s).

(** What is known of the chord context. *)
Definition tracked (s : dancing) (ch : chorded_ctx) : Prop :=
  chord_tracks (keys_held s) ch /\ chx_config ch = cf_chorded cf /\ (length (keys_held s) <= 16)%nat.
Lemma tracked_same s s' ch ch' : keys_held s' = keys_held s -> chx_config ch' = chx_config ch -> chx_pressed_indices ch' = chx_pressed_indices ch -> chx_pressed_chords ch' = chx_pressed_chords ch ->
  chx_latest ch' = chx_latest ch -> tracked s ch -> tracked s' ch'.
Proof. clear. intros Hk A B C D0 (((Q1 & Q2) & H1) & H2). unfold tracked, chord_tracks, quiet_chords in *. rewrite Hk, A, B, C, D0. repeat split; try assumption; try apply H1; apply H2. Qed.
Definition can_take (s : dancing) (x : input_event) (w : list input_event) : Prop :=
  match da_dance s with
  | None => (forall i, x = Press i -> (N.to_nat i < length refs)%nat)
      /\ let l := down_step (keys_held s) x in (length l <= 16)%nat /\ (max = O \/ (length (keys_down l) <= max)%nat)
  | Some dn => (length (dn_seen dn) < 16)%nat /\ (length (dn_seen dn) + 1 + length w <= 31)%nat
  end.

Lemma take_all g s (k : ckeymap) x w : dcore s k -> km_inq k = x :: w -> tracked s (cx_chorded (km_ctx k)) -> can_take s x w ->
  ((exists i, x = Press i) -> can_time k) -> timeout_of (km_ctx k) = T ->
  exists k' s', exec conf (S (S (S (S (S (S (S (height + g)))))))) (JProcessInput x) (set_inq k w) = Ok k'
  /\ takes n refs d T (sc_counter (km_sched k)) s s' /\ dcore s' (set_delay k' INPUT_QUEUE_TICK_DELAY) /\ da_busy s' = true
  /\ sc_counter (km_sched k') = sc_counter (km_sched k) /\ km_ms_per_tick k' = km_ms_per_tick k
  /\ tracked s' (cx_chorded (km_ctx k'))
  /\ (times k' = times k \/ (exists i, x = Press i) /\ exists e s1, sched_after pos (km_sched k) T e = Ok s1 /\ times k' = map en_time (sc_scheduled s1)).
Proof.
  intros Hc Hq Htr Hcan Htime HTk. pose proof Hc as (Hs & HL & Hcl & Hw & Hd & X). rewrite Hq in Hw. symmetry in Hw.
  assert (Y : exists k', exec conf (S (S (S (S (S (S (S (height + g)))))))) (JProcessInput x) (set_inq k w) = Ok k'
    /\ tracked (mkDancing (da_board s) (da_dance s) [] true []) (cx_chorded (km_ctx k)) 
    /\ match da_dance s with
       | None => step_chorded (cx_chorded (km_ctx k)) (EvInput x) = Ok (cx_chorded (km_ctx k'))
       | Some _ => cx_chorded (km_ctx k') = cx_chorded (km_ctx k) end
    /\ (times k' = times k \/ (exists i, x = Press i) /\ exists e s1, sched_after pos (km_sched k) T e = Ok s1 /\ times k' = map en_time (sc_scheduled s1))).
  { pose proof Htr as (Hch & Hcf & H16). unfold can_take in Hcan. destruct (da_dance s) as [[i choices seen due]|] eqn:Ed; cbn [dn_seen] in Hcan.
    - destruct X as (q & pad & Hat & Hti). cbn [dn_key dn_choices dn_seen] in *. destruct Hcan as (Hc1 & Hc2).
      destruct (process_dancing_total refs d pos dbg n height (da_board s) i q choices pad seen g (set_inq k w) x Hat Hs Htime Hc1) as (k' & E).
      + rewrite held_shape, Ed, app_length in H16. unfold shape in H16. rewrite map_length in H16. cbn in H16. lia.
      + exact Hc2.
      + exists k'. split; [exact E|]. split; [rewrite <- Ed; exact Htr|].
        destruct (process_dancing refs d pos dbg n height (da_board s) i q choices pad seen g (set_inq k w) k' x Hat Hs E) as (s1 & Es & PP). cbn [set_inq km_sched km_ctx km_inq] in *. rewrite HTk in Es.
        assert (Hti1 : map en_time (sc_scheduled s1) = times k \/ (exists i, x = Press i) /\ exists e s2, sched_after pos (km_sched k) T e = Ok s2 /\ map en_time (sc_scheduled s1) = map en_time (sc_scheduled s2)).
        { destruct (presses_key i x) eqn:Ex; [right|left; now subst s1]. split; [destruct x; try discriminate Ex; eauto|]. eexists; exists s1; split; [exact Es|reflexivity]. }
        destruct (length choices <=? taps i (seen ++ [x]) + 1)%nat.
        * destruct PP as (r & m & _ & _ & B & (_ & _ & _ & _ & _ & F & _) & _). split; [exact F|].
          assert (Esc : sc_scheduled (km_sched k') = map (cancel_entry i) (sc_scheduled s1)) by apply B. unfold times at 1 3. rewrite Esc, cancelled_times. exact Hti1.
        * destruct PP as (-> & _). split; [reflexivity|exact Hti1].
    - destruct X as (Hb & Hdead). destruct Hcan as (Hin & Hfit). cbv zeta in Hfit. destruct Hfit as (Hf16 & Hcap).
      destruct (chord_total refs (km_ctx k) (keys_held s) x Hch Hmany Hin) as (ch & Ech & Hch' & Hcf'); [rewrite Hcf; exact Hcap|].
      assert (Hheld : keys_held s = shape (da_board s)) by (rewrite held_shape, Ed; apply app_nil_r).
      assert (Hok : board_input_ok refs (da_board s) x = true).
      { rewrite Hheld in Hf16. unfold down_step, shape in Hf16. unfold board_input_ok. destruct x as [i|i|ko|ko]; try reflexivity.
        - rewrite this_forget in Hf16. destruct (existsb (this_key i) (bd_down (da_board s))); [reflexivity|]. cbn [orb]. apply andb_true_iff. rewrite !Nat.ltb_lt.
          split; [now apply Hin|]. rewrite app_length, map_length in Hf16. cbn in Hf16. lia.
        - apply Nat.ltb_lt. rewrite app_length, map_length in Hf16. cbn in Hf16. lia. }
      replace (S (S (S (S (S (S (S (height + g)))))))) with (S (S (S (S (height + (3 + g)))))) by lia.
      destruct (process_dance_total refs d pos dbg n height Hrefs _ (3 + g) (da_board s) (set_inq k w) x ch Hb Hs Ech Hok Htime) as (k' & E).
      exists k'. split; [exact E|]. split; [rewrite <- Ed; exact Htr|].
      destruct (process_dance refs d pos dbg n height Hrefs (sc_scheduled (km_sched k)) (3 + g) (da_board s) (set_inq k w) k' x Hb Hs E) as (h & Eh & P & (F1 & F2 & F3 & F4 & F5 & F6 & F7) & X).
      cbn [set_inq km_inq km_sched km_ms_per_tick km_callbacks km_ctx km_calls] in *. split; [now rewrite F6|].
      destruct X as [(b' & cs & Hst & Hcs & B & C)|(i & r & q & choices & pad & s1 & -> & Hi & Er & Hda & Hk & Es & Hp & Hks & B & C)].
      + left. unfold times. assert (Esc : sc_scheduled (km_sched k') = sc_scheduled (km_sched k)) by apply B. now rewrite Esc.
      + right. split; [eauto|]. rewrite HTk in Es. exists (dtimer i 0), s1. split; [exact Es|]. unfold times. now rewrite Hks. }
  destruct Y as (k' & E & _ & Hst & Hti).
  destruct (core_dtake refs d pos dbg n height Hrefs L g s k k' x w Hc Hq E) as (s' & Ht & Hc' & Hb' & Hn & Hm & _). rewrite HTk in Ht.
  exists k', s'. split; [exact E|]. split; [exact Ht|]. split; [exact Hc'|]. split; [exact Hb'|]. split; [exact Hn|]. split; [exact Hm|]. split; [|exact Hti].
  pose proof (takes_held _ _ _ _ _ _ _ _ _ Ht Hw) as Hh. pose proof Htr as (Hch & Hcf & H16). unfold can_take in Hcan. unfold tracked. rewrite Hh. destruct (da_dance s).
  - rewrite Hst. auto.
  - destruct Hcan as (Hin & Hf16 & Hcap). destruct (chord_total refs (km_ctx k) (keys_held s) x Hch Hmany Hin) as (ch & Ech & Hch' & Hcf'); [rewrite Hcf; exact Hcap|].
    rewrite Hst in Ech. injection Ech as <-. split; [exact Hch'|]. split; [congruence|exact Hf16].
Qed.

Lemma timer_all g s (k : ckeymap) : dcore s k -> tracked s (cx_chorded (km_ctx k)) ->
  (forall dn, da_dance s = Some dn -> (length (dn_seen dn) + length (da_waiting s) <= 31)%nat) -> sc_counter (km_sched k) + km_ms_per_tick k <= u32_max ->
  exists s0 k', sched_tick (km_sched k) (km_ms_per_tick k) = Ok s0 /\ exec conf (S (S (S (S (S (S (S (S (height + g))))))))) JHandlePending (set_sched k s0) = Ok k'
  /\ cx_chorded (km_ctx k') = cx_chorded (km_ctx k).
Proof.
  intros (Hs & HL & Hc & Hq & Hd & X) (_ & _ & H16) Hroom Hclock. unfold sched_tick, u32_add.
  destruct (N.leb_spec (sc_counter (km_sched k) + km_ms_per_tick k) u32_max) as [_|Z]; [|unfold u32 in *; lia]. cbn [bind].
  destruct (last_opt (sc_scheduled (km_sched k))) as [en|] eqn:El.
  2:{ eexists. eexists. split; [reflexivity|]. rewrite drain0 by exact Hs. split; reflexivity. }
  destruct (en_time en <=? sc_counter (km_sched k) + km_ms_per_tick k).
  2:{ eexists. eexists. split; [reflexivity|]. rewrite drain0 by exact Hs. split; reflexivity. }
  rewrite Hs. unfold push_cap. change (length (@nil (option (event cev))) <? PENDING_CAPACITY)%nat with true. cbn [bind app].
  destruct (en_live en) eqn:Eli.
  2:{ eexists. eexists. split; [reflexivity|]. cbn [exec step]. unfold step_handle_pending, sched_dequeue. cbn. split; reflexivity. }
  destruct (da_dance s) as [dn|] eqn:Ed.
  2:{ destruct X as (_ & Hdead). pose proof (last_opt_forall _ _ _ Hdead El) as Z. cbn in Z. congruence. }
  destruct X as (q & pad & Hat & Hti & Hex). pose proof (last_opt_forall _ _ _ Hti El) as Z. cbn in Z. destruct (Z Eli) as (c & Ev & Hcl & Htime). clear Z.
  set (k1 := set_sched k (mkSched [] (removelast (sc_scheduled (km_sched k))) (sc_counter (km_sched k) + km_ms_per_tick k))) in *.
  assert (Hat1 : dancing_at d n height (da_board s) (dn_key dn) q (dn_choices dn) pad (dn_seen dn) k1).
  { destruct Hat as (U1 & (A1 & A2 & A3 & A4 & A5 & A6) & U3). split; [exact U1|]. split; [|exact U3].
    split; [exact A1|split; [exact A2|split; [exact A3|split; [exact A4|split; [reflexivity|exact A6]]]]]. }
  assert (Hm : taps (dn_key dn) (dn_seen dn) = 0%nat \/ (taps (dn_key dn) (dn_seen dn) + 1 < length (dn_choices dn))%nat).
  { destruct Hat as (_ & _ & _ & _ & Y). lia. }
  destruct (process_dtimer_total refs d pos dbg n height (da_board s) (dn_key dn) q (dn_choices dn) pad (dn_seen dn) g k1 c Hat1 eq_refl) as (k2 & E2).
  { rewrite held_shape, Ed, app_length in H16. unfold shape in H16. rewrite map_length in H16. cbn in H16. lia. }
  { change (km_inq k1) with (km_inq k). rewrite Hq. now apply Hroom. }
  pose proof (process_dtimer refs d pos dbg n height _ _ _ _ _ _ _ _ _ _ Hat1 eq_refl Hcl Hm E2) as D.
  assert (Hk2 : sc_pending (km_sched k2) = [] /\ cx_chorded (km_ctx k2) = cx_chorded (km_ctx k)).
  { destruct (c =? N.of_nat (taps (dn_key dn) (dn_seen dn))); [|subst k2; split; reflexivity]. destruct D as (r & m & _ & _ & _ & (_ & _ & _ & _ & _ & F & _) & P & _). split; [exact P|exact F]. }
  destruct Hk2 as (P2 & C2). eexists. exists k2. split; [reflexivity|]. split; [|exact C2].
  match goal with |- exec _ (S ?f0) _ ?x = _ => change (exec conf (S f0) JHandlePending x) with (step_handle_pending (exec conf f0) x) end.
  unfold step_handle_pending, sched_dequeue. cbn [km_sched set_sched sc_pending sc_scheduled sc_counter]. rewrite Ev.
  match goal with |- context [exec conf ?f0 (JHandleEvent ?e) ?x] => change (exec conf f0 (JHandleEvent e) x) with (exec conf f0 (JHandleEvent e) k1) end.
  rewrite E2. cbn [bind]. now rewrite drain0 by exact P2.
Qed.

(** ** Room in the scheduler *)
Definition pressed_at (ops : list op) (t : N) : Prop :=
  exists a o z s i, ops = a ++ o :: z /\ now_after a + T = t /\ prompt_run n refs d T a s /\ next_input s o = Some (Press i).
Lemma pressed_more ops ops' t : pressed_at ops t -> pressed_at (ops ++ ops') t.
Proof. clear. intros (a & o & z & s & i & -> & H). exists a, o, (z ++ ops'), s, i. split; [now rewrite <- app_assoc|exact H]. Qed.
Lemma time_to_schedule ops (k : ckeymap) e : run_ops conf fuel ops k0 = Ok k -> plain ops -> spaced k -> Forall (pressed_at ops) (times k) ->
  ~ hectic n refs d T ops -> now_after ops + T <= u32_max -> exists s, sched_after pos (km_sched k) T e = Ok s.
Proof.
  clear Hrefs Hmany HT. intros Hrun Hops (Hm & _ & Hs & Hb & _) Hpr Hcr Hclk. pose proof (plain_basic _ Hops) as (_ & Hti).
  assert (Hnow : now_after ops = sc_counter (km_sched k)) by (unfold now_after; pose proof (run_ops_clock _ fuel ops Hti _ _ Hrun) as X; change (clocks_of k0) with clocks_new in X; unfold clocks_run; rewrite <- X; reflexivity).
  rewrite Hnow in Hclk. unfold sched_after, u32_add. apply N.leb_le in Hclk. rewrite Hclk. cbn [bind].
  change MAX_SCHEDULED_EVENTS with 32%nat. destruct (Nat.ltb_spec (length (sc_scheduled (km_sched k))) 32) as [_|Hfull].
  - destruct (Hpos (map en_time (sc_scheduled (km_sched k))) (sc_counter (km_sched k) + T)) as (Hle & _); [eapply apart_decreasing; exact Hs|].
    rewrite map_length in Hle. apply Nat.leb_le in Hle. rewrite Hle. eauto.
  - exfalso. apply Hcr. fold (times k) in Hs, Hb. assert (Hlen : (32 <= length (times k))%nat) by (unfold times; now rewrite map_length). set (l := times k) in *.
    assert (Hdue : Forall (fun t => T <= t /\ sc_counter (km_sched k) <= t /\ pressed_at ops t) l).
    { apply Forall_forall. intros t Hin. pose proof (proj1 (Forall_forall _ _) Hb _ Hin) as (Hlow & _). pose proof (proj1 (Forall_forall _ _) Hpr _ Hin) as Hd.
      split; [|split; [exact Hlow|exact Hd]]. destruct Hd as (a & o & z & s & i & _ & <- & _). lia. }
    exists (firstn 32 (map (fun t => t - T) l)). split; [rewrite firstn_length, map_length; lia|]. split.
    + apply firstn_distinct. pose proof (apart_distinct _ _ Hm Hs) as Hnd. clear -Hnd Hdue.
      induction l as [|t l IH]; cbn; [constructor|]. inversion Hnd; subst. inversion Hdue as [|? ? (D1 & _) D2]; subst. constructor; [|now apply IH].
      intros Hin. apply in_map_iff in Hin as (t' & E & Hin). pose proof (proj1 (Forall_forall _ _) D2 _ Hin) as (D3 & _). assert (t' = t) as -> by (unfold u16, u32 in *; lia). contradiction.
    + intros t Hin. assert (Hin' : In t (map (fun t => t - T) l)) by (rewrite <- (firstn_skipn 32 (map _ l)); apply in_or_app; now left).
      apply in_map_iff in Hin' as (t' & <- & Hin'). pose proof (proj1 (Forall_forall _ _) Hdue _ Hin') as (D1 & D2 & a & o & z & s & i & Ez & Hd & Hr & Hni).
      rewrite Hnow. split; [unfold u16, u32 in *; lia|]. exists a, o, z, s, i. split; [exact Ez|]. split; [unfold u16, u32 in *; lia|]. auto.
Qed.
Lemma scheduled_times (s s1 : scheduler cev) e : sched_after pos s T e = Ok s1 -> forall (P : N -> Prop), P (sc_counter s + T) -> Forall P (map en_time (sc_scheduled s)) -> Forall P (map en_time (sc_scheduled s1)).
Proof. clear. intros H P Hp Hf. apply sched_after_ok in H as (_ & _ & -> & _). rewrite map_insert_at. now apply insert_forall. Qed.

Lemma op_all ops s (k : ckeymap) o : plain (ops ++ [o]) -> run_ops conf fuel ops k0 = Ok k -> prompt_run n refs d T ops s -> dcore s k -> spaced k ->
  tracked s (cx_chorded (km_ctx k)) -> Forall (pressed_at ops) (times k) -> now_after (ops ++ [o]) + T <= u32_max -> ~ hectic n refs d T ops -> room (length refs) max s o ->
  exists k' up s', run_op conf fuel k o = Ok k' /\ dance_call n refs d T ops s o up s' /\ dcore s' k' /\ tracked s' (cx_chorded (km_ctx k')) /\ Forall (pressed_at (ops ++ [o])) (times k').
Proof.
  intros Hops Hrun Hpr Hc Hsp Htr Htm Hclk Hcr Hroom. apply Forall_app in Hops as (Hops & Ho). inversion Ho as [|? ? Hop _]; subst. clear Ho.
  pose proof (plain_basic _ Hops) as (_ & Hti).
  assert (Hcf : timeout_of (km_ctx k) = T) by (pose proof (run_ops_config _ _ _ _ _ _ _ _ Hrun) as (_ & A & _); now rewrite A).
  assert (Hck : clocks_run ops = mkClocks (sc_counter (km_sched k)) (km_idle k) (km_ms_per_tick k)).
  { symmetry. exact (run_ops_clock _ fuel ops Hti _ _ Hrun). }
  assert (Hnow : now_after ops = sc_counter (km_sched k)) by (unfold now_after; now rewrite Hck).
  assert (Hidle : ck_idle (clocks_run ops) <= ck_now (clocks_run ops)) by (apply clocks_idle; [exact Hops|cbn; lia]).
  assert (Hlater : now_after ops <= now_after (ops ++ [o])).
  { unfold now_after, clocks_run. rewrite fold_left_app. apply (clocks_mono [o]). now constructor. }
  assert (Hcan : can_time k).
  { rewrite Hcf. exists (dtimer 0 0). apply (time_to_schedule ops); try assumption. unfold u16, u32 in *. lia. }
  assert (Hinq : (length (km_inq k) <= 31)%nat).
  { assert (X : inv17 k) by (eapply run_ops_inv17; [|exact Hrun]; repeat split; cbn; try (unfold MAX_PRESSED_KEYS, INPUT_QUEUE_CAPACITY, PENDING_CAPACITY, MAX_SCHEDULED_EVENTS; lia); discriminate).
    apply X. }
  assert (Htm' : Forall (pressed_at (ops ++ [o])) (times k)) by (eapply Forall_impl; [|exact Htm]; intros t; apply pressed_more).
  pose proof Hc as (Hs & HL & Hcl & Hq & Hd & _).
  destruct o as [ev| |dd ev| | | |ms|c g]; try discriminate Hop; cbn [run_op] in *.
  - unfold km_handle_input. cbn zeta. change (km_inq (set_idle k 0)) with (km_inq k). change INPUT_QUEUE_CAPACITY with 31%nat.
    destruct (Nat.ltb_spec (length (km_inq k)) 31) as [Hl|Hl].
    2:{ eexists. exists false, s. split; [reflexivity|]. split; [constructor; now rewrite <- Hq|]. split; [eapply dcore_same; [exact Hc|..]; try reflexivity; auto|]. split; [exact Htr|exact Htm']. }
    rewrite Hq in Hl.
    set (k1 := set_inq (set_idle k 0) (km_inq k ++ [ev])) in *.
    assert (Hc1 : dcore (heard s ev) k1). { eapply dcore_same; [exact Hc|..]; try reflexivity; auto. cbn. now rewrite Hq. }
    change (km_delay k1) with (km_delay k). rewrite Hd. destruct (da_busy s) eqn:Eb; cbn [N.eqb].
    { exists k1, false, (heard s ev). split; [reflexivity|]. split; [|split; [exact Hc1|split; [exact Htr|exact Htm']]]. apply dc_input; [exact Hl|]. unfold turn. cbn [heard da_busy]. now rewrite Eb. }
    destruct (km_inq k1) as [|x w] eqn:Eq; [exfalso; cbn in Eq; destruct (km_inq k); discriminate|]. change (0 =? 0) with true. cbn iota.
    assert (Hwx : da_waiting s ++ [ev] = x :: w) by (rewrite <- Hq; exact Eq).
    assert (Hni : next_input s (OpInput ev) = Some x).
    { unfold next_input. rewrite Eb. apply Nat.ltb_lt in Hl. rewrite Hl, Hwx. reflexivity. }
    destruct (take_all (1 + f) (heard s ev) k1 x w Hc1 Eq) as (a & s' & E & Ht & Hc' & Hb' & Hn & Hm & Htr' & Hti').
    + exact Htr.
    + unfold can_take, room in *. cbn [heard da_dance] in *. destruct (da_dance s) as [dn|] eqn:Edn.
      * assert (Y : (length (x :: w) = length (da_waiting s) + 1)%nat) by (rewrite <- Hwx, app_length; reflexivity). cbn in Y. split; lia.
      * exact (Hroom _ Hni).
    + intros _. exact Hcan.
    + exact Hcf.
    + replace (height + (1 + f))%nat with (S (height + f)) in E by lia. rewrite E. cbn [bind].
      eexists. exists false, s'. split; [reflexivity|]. split; [apply dc_input; [exact Hl|]; unfold turn; cbn [heard da_busy]; rewrite Eb, Hnow; exact Ht|]. split; [exact Hc'|].
      split; [exact Htr'|]. change (times (set_delay a INPUT_QUEUE_TICK_DELAY)) with (times a). destruct Hti' as [->|((i & ->) & e & s1 & Es & ->)]; [exact Htm'|].
      eapply scheduled_times; [exact Es| |exact Htm']. exists ops, (OpInput ev), [], s, i. split; [reflexivity|]. split; [change (km_sched k1) with (km_sched k); now rewrite Hnow|]. auto.
  - rewrite tick_step. cbn zeta. set (k1 := set_ctx k _).
    assert (Hc1 : dcore s k1). { eapply dcore_same; [exact Hc|..]; try reflexivity; auto. }
    assert (Htr1 : tracked s (cx_chorded (km_ctx k1))) by (eapply tracked_same; [..|exact Htr]; reflexivity).
    assert (Hroom' : forall dn, da_dance s = Some dn -> (length (dn_seen dn) + length (da_waiting s) <= 16)%nat).
    { intros dn Edn. unfold room in Hroom. rewrite Edn in Hroom. lia. }
    assert (X : exists a s1, match km_inq k with
      | x :: w => if km_delay k =? 0 then let! a := exec conf fuel (JProcessInput x) (set_inq k1 w) in Ok (set_delay a INPUT_QUEUE_TICK_DELAY) else Ok k1
      | [] => Ok k1 end = Ok a
      /\ turn n refs d T (now_after ops) s s1 /\ dcore s1 a /\ tracked s1 (cx_chorded (km_ctx a)) /\ Forall (pressed_at (ops ++ [OpTick])) (times a)
      /\ (forall dn, da_dance s1 = Some dn -> (length (dn_seen dn) + length (da_waiting s1) <= 31)%nat)
      /\ km_ms_per_tick a = km_ms_per_tick k /\ sc_counter (km_sched a) = sc_counter (km_sched k) /\ km_idle a = km_idle k).
    { assert (Same : turn n refs d T (now_after ops) s s -> exists a s1, Ok k1 = Ok a
      /\ turn n refs d T (now_after ops) s s1 /\ dcore s1 a /\ tracked s1 (cx_chorded (km_ctx a)) /\ Forall (pressed_at (ops ++ [OpTick])) (times a)
      /\ (forall dn, da_dance s1 = Some dn -> (length (dn_seen dn) + length (da_waiting s1) <= 31)%nat)
      /\ km_ms_per_tick a = km_ms_per_tick k /\ sc_counter (km_sched a) = sc_counter (km_sched k) /\ km_idle a = km_idle k).
      { intros Ht. exists k1, s. split; [reflexivity|]. split; [exact Ht|]. split; [exact Hc1|]. split; [exact Htr1|]. split; [exact Htm'|]. split; [|auto].
        intros dn Edn. specialize (Hroom' _ Edn). lia. }
      destruct (km_inq k) as [|x w] eqn:Eq.
      { apply Same. unfold turn. destruct (da_busy s); [reflexivity|]. constructor. now symmetry. }
      rewrite Hd. destruct (da_busy s) eqn:Eb.
      { change (1 =? 0) with false. cbn iota. apply Same. unfold turn. now rewrite Eb. }
      change (0 =? 0) with true. cbn iota. clear Same.
      assert (Hni : next_input s OpTick = Some x) by (unfold next_input; now rewrite Eb, <- Hq).
      destruct (take_all (1 + f) s k1 x w Hc1 Eq) as (a & s' & E & Ht & Hc' & Hb' & Hn & Hm & Htr' & Hti').
      + exact Htr1.
      + unfold can_take, room in *. destruct (da_dance s) as [dn|] eqn:Edn; [|exact (Hroom _ Hni)]. specialize (Hroom' _ eq_refl). rewrite <- Hq in Hroom'. cbn in Hroom'. split; lia.
      + intros _. exact Hcan.
      + exact Hcf.
      + pose proof E as E'. replace (height + (1 + f))%nat with (S (height + f)) in E' by lia. rewrite E'. cbn [bind]. clear E'.
        eexists. exists s'. split; [reflexivity|]. split; [unfold turn; rewrite Eb, Hnow; exact Ht|]. split; [exact Hc'|]. split; [exact Htr'|].
        split; [|split; [|split; [exact Hm|split; [exact Hn|]]]].
        * change (times (set_delay a INPUT_QUEUE_TICK_DELAY)) with (times a). destruct Hti' as [->|((i & ->) & e & s1 & Es & ->)]; [exact Htm'|].
          eapply scheduled_times; [exact Es| |exact Htm']. exists ops, OpTick, [], s, i. split; [reflexivity|]. split; [change (km_sched k1) with (km_sched k); now rewrite Hnow|]. auto.
        * intros dn Edn. cbn in Hinq. clear -Ht Edn Hroom' Hq Hinq.
          destruct Ht as [Hw'|x' w' b' cs Hd Hw' Hst Hcs|i w' r choices Hd Hw' Hi Er Hda|i choices seen due x' w' Hd Hw' Hl|i choices seen due x' w' s' Hd Hw' Hl Hb].
          -- rewrite Hw' in Hq. discriminate.
          -- discriminate Edn.
          -- injection Edn as <-. cbn [da_waiting dn_seen length]. rewrite Hw' in Hq. injection Hq as _ <-. lia.
          -- injection Edn as <-. specialize (Hroom' _ Hd). cbn [da_waiting dn_seen] in *. rewrite Hw' in Hroom'. rewrite app_length. cbn in *. lia.
          -- destruct Hb. discriminate Edn.
        * apply exec_frame in E as (_ & _ & F & _). exact F. }
    destruct X as (a & s1 & -> & Ht & Hc2 & Htr2 & Htm2 & Hr2 & Cm & Cn & Ci). cbn [bind].
    change (if 0 <? km_delay a then set_delay a (km_delay a - 1) else a) with (slowed a).
    assert (Hd2 : km_delay a = if da_busy s1 then 1 else 0) by apply Hc2.
    assert (Hc3 : dcore (rested s1) (slowed a) /\ km_sched (slowed a) = km_sched a /\ km_ms_per_tick (slowed a) = km_ms_per_tick k /\ km_idle (slowed a) = km_idle k /\ km_ctx (slowed a) = km_ctx a).
    { pose proof Hc2 as (_ & _ & _ & Hq2 & _). unfold slowed. rewrite Hd2. destruct (da_busy s1); cbn [N.ltb N.compare N.sub]; (split; [|repeat split; assumption]); (eapply dcore_same; [exact Hc2|..]; try reflexivity; auto). }
    destruct Hc3 as (Hc3 & Hn3 & Hm3 & Hi3 & Hx3).
    unfold now_after, clocks_run in Hclk, Hlater. rewrite fold_left_app in Hclk, Hlater. fold (clocks_run ops) in Hclk, Hlater. rewrite Hck in Hclk, Hlater, Hidle. cbn [fold_left clocks_step ck_now ck_idle ck_ms] in Hclk, Hlater, Hidle.
    destruct (timer_all f (rested s1) (slowed a) Hc3) as (s0 & k3 & Es & E3 & C3).
    + rewrite Hx3. exact Htr2.
    + exact Hr2.
    + rewrite Hn3, Hm3, Cn. unfold u16, u32 in *. lia.
    + rewrite Es. cbn [bind]. rewrite E3. cbn [bind].
      destruct (core_dtimer refs d pos dbg n height L f _ _ k3 _ Hc3 Es E3) as (up & s2 & Hp & Hc4 & Hti4). rewrite Hn3, Hm3, Cn in Hp.
      apply exec_frame in E3 as (_ & F2 & F3 & _). cbn [set_sched km_ms_per_tick km_idle] in F2, F3. rewrite F2, F3, Hm3, Hi3.
      unfold u32_add. destruct (N.leb_spec (km_idle k + km_ms_per_tick k) u32_max) as [_|X]; [cbn [bind]|unfold u8, u16, u32 in *; lia].
      eexists. exists up, s2. split; [reflexivity|]. split; [eapply dc_tick; [exact Ht|]; unfold now_after, clocks_run; rewrite fold_left_app; fold (clocks_run ops); rewrite Hck; exact Hp|].
      split; [pose proof Hc4 as (_ & _ & _ & Q4 & D4 & _); eapply dcore_same; [exact Hc4|..]; try reflexivity; auto|].
      split; [eapply (tracked_same s1); [exact (passes_held _ _ _ _ _ _ Hp)|..|exact Htr2]; cbn [set_idle km_ctx]; rewrite C3, Hx3; reflexivity|].
      match goal with |- Forall _ (times ?x) => change (times x) with (map en_time (sc_scheduled (km_sched k3))) end. rewrite Hti4.
      apply sched_tick_ok in Es as (_ & Es). rewrite Hn3 in Es. destruct Es as [(_ & -> & _)|(en & El & _)]; [exact Htm2|].
      unfold times in Htm2. rewrite El, map_app in Htm2. now apply Forall_app in Htm2.
  - assert (Hh : exists l, km_pressed_keys conf k = Ok l).
    { destruct Hc as (_ & _ & _ & _ & _ & X). assert (Y : exists o, outputs_of conf (km_pressed k) = Ok o).
      { destruct (da_dance s) as [dn|]; [destruct X as (q & pad & (_ & Hb & _) & _)|destruct X as (Hb & _)]; destruct Hb as (_ & _ & Hh & _); apply (outputs_held refs d pos dbg) in Hh; eauto. }
      destruct Y as (o & Y). unfold km_pressed_keys. rewrite Y. eauto. }
    destruct Hh as (l & E). unfold km_report_output. rewrite E. cbn [bind]. eexists. exists false, s. split; [reflexivity|]. split; [constructor|].
    split; [eapply dcore_same; [exact Hc|..]; try reflexivity; auto|]. split; [exact Htr|exact Htm'].
  - eexists. exists false, s. split; [reflexivity|]. split; [constructor|]. split; [eapply dcore_same; [exact Hc|..]; try reflexivity; auto|]. split; [exact Htr|exact Htm'].
Qed.

Lemma run_all ops : plain ops -> one_pace ops -> now_after ops + T <= u32_max ->
  (forall a o z s, ops = a ++ o :: z -> prompt_run n refs d T a s -> ~ hectic n refs d T a /\ room (length refs) max s o) ->
  exists k s, run_ops conf fuel ops k0 = Ok k /\ prompt_run n refs d T ops s /\ dcore s k /\ tracked s (cx_chorded (km_ctx k)) /\ Forall (pressed_at ops) (times k).
Proof.
  induction ops as [|o ops IH] using rev_ind; intros Ho Hp Hclk Hc.
  - exists k0, dancing_new. split; [reflexivity|]. split; [constructor|]. split; [apply dcore_new|]. split; [|constructor].
    split; [|split; [reflexivity|cbn; lia]]. split; [apply quiet_new|]. split; [constructor|]. right. split; [intros a x b y c H; destruct a; discriminate H|]. split; [constructor|]. intros x. reflexivity.
  - pose proof Ho as Ho'. apply Forall_app in Ho' as (Ho1 & Ho2).
    assert (Hnow : now_after ops <= now_after (ops ++ [o])).
    { unfold now_after, clocks_run. rewrite fold_left_app. now apply (clocks_mono [o]). }
    destruct IH as (k & s & E & Hr & Hcore & Htr & Htm).
    + exact Ho1.
    + now apply pace_app in Hp.
    + unfold u16, u32 in *. lia.
    + intros a p z s X. apply (Hc a p (z ++ [o]) s). rewrite X, <- app_assoc. reflexivity.
    + pose proof (run_dspaced refs d pos dbg cf height f Hrefs Hpos L ops k Ho1 (pace_app _ _ Hp) E) as Hsp.
      destruct (Hc ops o [] s eq_refl Hr) as (Hcr & Hroom).
      destruct (op_all ops s k o Ho E Hr Hcore Hsp Htr Htm Hclk Hcr Hroom) as (k' & up & s' & E' & Hcall & Hcore' & Htr' & Htm').
      assert (E2 : run_ops conf fuel (ops ++ [o]) k0 = Ok k') by (rewrite run_ops_app, E; cbn [bind]; unfold run_ops; cbn [fold_res]; now rewrite E').
      exists k', s'. split; [exact E2|]. split; [|auto]. econstructor; [exact Hr|exact Hcall|].
      pose proof (run_dspaced refs d pos dbg cf height f Hrefs Hpos L _ k' Ho Hp E2) as Hsp'.
      intros dn Ed. pose proof (dance_in_time d cf height L _ _ Hcore' Hsp' HT _ Ed) as X. pose proof (plain_basic _ Ho) as (_ & Hti). pose proof (run_ops_clock _ fuel _ Hti _ _ E2) as Hck.
      unfold now_after, clocks_run. change (clocks_of k0) with clocks_new in Hck. rewrite <- Hck. exact X.
Qed.
End TotalRun.
