(** Keyboards with layers and tap-hold keys do not stop without reason (C68). *)
From Coq Require Import Sorted.
From Verif Require Import BaseFacts Output Types Scheduler Reporter Keymap SimpleKeys TapHold TapDance Sticky CapsWord
  Layered Automation Chorded Composite SpecKeymap KeymapHist KeymapInv KeymapQueue KeymapCalls KeymapApi SpecChord ChordFacts ChordHeld SpecPlain PlainFacts
  SpecLayer LayerFacts SpecTap TapFacts TapTime CtxFacts SpecDecide SpecBoard BoardFacts SpecScheduler SchedulerFacts SpecTapBoard TapBoardFacts.
Local Open Scope N_scope.

Lemma sched_after_any {E} pos (s : scheduler E) t e e' s' : sched_after pos s t e = Ok s' -> exists s'', sched_after pos s t e' = Ok s'' /\ sc_pending s'' = sc_pending s.
Proof.
  unfold sched_after. destruct (u32_add (sc_counter s) t) as [c| |]; cbn [bind]; try discriminate.
  destruct (length (sc_scheduled s) <? MAX_SCHEDULED_EVENTS)%nat; [|discriminate]. destruct (_ <=? _)%nat; [|discriminate]. intros _. eexists. split; reflexivity.
Qed.

Section Total.
Variables (refs : list ref) (d : key_data) (pos : position_fn) (dbg : bool) (n height : nat).
Hypothesis Hrefs : Forall (tap_board_key n d height) refs.
Local Notation conf := (cconf refs d pos dbg).
Local Notation bstate := (bstate d n).
Local Notation fuel4 f := (S (S (S (S (height + f))))).
Local Notation fuel7 f := (S (S (S (S (S (S (S (height + f)))))))).

Lemma process_tap_total sch f b (k : ckeymap) ie g : bstate sch b k -> sc_pending (km_sched k) = [] ->
  (forall i, ie = Press i -> existsb (this_key i) (bd_down b) = false) ->
  step_chorded (cx_chorded (km_ctx k)) (EvInput ie) = Ok g -> board_input_ok refs b ie = true ->
  (exists s, sched_after pos (km_sched k) (thc_timeout (thx_config (cx_tap_hold (km_ctx k)))) (EvKey 0 (CeTapHold TapHoldTimeout)) = Ok s) ->
  exists k', exec conf (fuel4 f) (JProcessInput ie) k = Ok k'.
Proof.
  intros H Hs Hnew Eh Hok (s0 & Es0). pose proof H as (Hc & Hly & Hh & Hnd & Hsc & Hp).
  assert (Hone : (forall i, ie <> Press i) \/ exists i, ie = Press i) by (destruct ie as [i|i|ko|ko]; [right; exists i; reflexivity|left; discriminate..]).
  destruct Hone as [Hno|(i & ->)].
  - assert (Hv : forall i r, ie = Press i -> nth_error refs (N.to_nat i) = Some r -> board_key n d height r) by (intros i r X; now apply Hno in X).
    pose proof (process_board refs d pos dbg n height sch f b k ie H Hs Hv) as X. rewrite Eh, Hok in X.
    destruct X as (b' & cs & k1 & _ & _ & E1 & _). now exists k1.
  - specialize (Hnew i eq_refl). unfold board_input_ok in Hok. rewrite Hnew in Hok. cbn [orb] in Hok. apply andb_true_iff in Hok as (Hi & H16).
    change (exec conf (fuel4 f) (JProcessInput (Press i)) k) with (step_process_input conf (exec conf (S (S (S (height + f))))) (Press i) k).
    unfold step_process_input. rewrite Hp. rewrite (update_pressed_board refs d pos dbg n b) by (try exact Hh; discriminate). cbn [bind].
    unfold update_context. cbn [kc_sys cconf composite sys_ctx_handle_event]. rewrite calm_input by exact Hc. rewrite Eh. cbn [bind].
    unfold schedule_all, sched_all. cbn [fold_res bind]. rewrite set_sched_id.
    set (k2 := set_ctx k (with_chorded (km_ctx k) g)).
    assert (B2 : bstate sch b k2).
    { split; [eapply chorded_calm; [exact Hc|exact Eh]|]. split; [exact Hly|]. split; [exact Hh|]. split; [exact Hnd|]. split; [exact Hsc|exact Hp]. }
    cbn [step_input_dispatch]. unfold has_pressed. change (km_pressed k2) with (km_pressed k). rewrite (has_held _ _ _ _ _ Hh), Hnew.
    unfold index. cbn [kc_refs cconf]. apply Nat.ltb_lt in Hi. destruct (nth_error refs (N.to_nat i)) as [r|] eqn:Er; [|apply nth_error_None in Er; lia]. cbn [bind].
    assert (Hbk : tap_board_key n d height r) by (eapply Forall_forall; [exact Hrefs|eapply nth_error_In; exact Er]).
    destruct (press_tap refs d pos dbg n height r Hbk sch f i b k2 B2 Hs Hnew) as [(x & Hx & X)|(So & q & key & St & X)].
    + rewrite H16 in X. destruct X as (m & k3 & M & E3 & B3 & F3 & P3 & C3 & Hmo). rewrite E3. cbn [bind].
      destruct (drain_board refs d pos dbg n sch (height + f) _ k3 _ (at_press m) B3 P3) as (k4 & E4 & _).
      { destruct m as [ko|lm|cb|]; try (left; split; reflexivity); right; eexists; (split; [reflexivity|]); cbn.
        - split; [reflexivity|]. destruct (modifier_events n lm (Hmo lm eq_refl)) as [X _]. exact X.
        - exact I. }
      now exists k4.
    + rewrite X. change (km_sched k2) with (km_sched k). change (thx_config (cx_tap_hold (km_ctx k2))) with (thx_config (cx_tap_hold (km_ctx k))).
      assert (Y : exists s, sched_after pos (km_sched k) (thc_timeout (thx_config (cx_tap_hold (km_ctx k)))) (timer i) = Ok s /\ sc_pending s = []).
      { rewrite <- Hs. eapply sched_after_any. exact Es0. }
      destruct Y as (s & -> & Ps). cbn [bind]. rewrite drain0 by exact Ps. eauto.
Qed.

Variable tc : taphold_config.
Local Notation ir := (thc_interrupt tc).
Lemma pending_total b i q key qd st (x : tap_or_hold) f (k : ckeymap) : bstate (sc_scheduled (km_sched k)) b (set_pending k None) -> existsb (this_key i) (bd_down b) = false ->
  (exists r, stands_for d n b height r q key) -> km_pending k = Some (mkPending i (RTapHold q) st (map EvInput qd)) ->
  ~ In (Press i) qd -> (forall a z, qd = a ++ Release i :: z -> z = []) -> sc_pending (km_sched k) = [] ->
  (length (bd_down b) < 16)%nat -> (length qd + length (km_inq k) <= 31)%nat ->
  exists k', exec conf (S (S (S (S (S (height + f)))))) (JPendingLoop (NpkKey (tap_hold_key key x))) k = Ok k'.
Proof.
  intros Hb Hi (r & _ & Ht & Hh & _) Hp Hq1 Hq2 Hs H16 H31.
  assert (Hk : board_key n d height (tap_hold_key key x)) by (destruct x; assumption).
  pose proof (pending_board refs d pos dbg n i st qd height _ Hk Hq1 Hq2 b k _ f _ Hb Hi Hp Hs) as X.
  apply Nat.ltb_lt in H16. apply Nat.leb_le in H31. rewrite H16, H31 in X. cbn [andb] in X. destruct X as (m & k1 & _ & E1 & _). now exists k1.
Qed.
Lemma process_pending_total b i q key qd f (k : ckeymap) ie : thx_config (cx_tap_hold (km_ctx k)) = tc ->
  undecided_at refs d n height ir b i q key qd k -> sc_pending (km_sched k) = [] -> ie <> Press i ->
  (length qd < 16)%nat -> (length (bd_down b) < 16)%nat -> (length qd + 1 + length (km_inq k) <= 31)%nat ->
  exists k', exec conf (fuel7 f) (JProcessInput ie) k = Ok k'.
Proof.
  intros Htc (Hp & Hb & Hi & (r & Er & Hst) & Hnp & Hfd) Hs Hne Hq H16 H31.
  change (exec conf (fuel7 f) (JProcessInput ie) k) with (step_process_input conf (exec conf (S (S (S (S (S (S (height + f)))))))) ie k).
  unfold step_process_input. rewrite Hp. unfold waits_for. cbn [pd_queued pd_index pd_ref pd_state].
  unfold push_cap. rewrite map_length. change MAX_PRESSED_KEYS with 16%nat. apply Nat.ltb_lt in Hq. rewrite Hq. cbn [bind].
  match goal with |- context [exec conf (S ?f0) (JUpdatePending ?ev) ?x] => change (exec conf (S f0) (JUpdatePending ev) x) with (step_update_pending conf (exec conf f0) ev x) end.
  unfold step_update_pending. cbn [km_pending set_pending pd_state pd_index pd_ref pd_queued kc_sys cconf composite sys_update_pending_state km_ctx].
  destruct Hst as (Hkey & Hst). rewrite (tap_hold_step d i (km_ctx k) q key Hkey (map EvInput qd) (EvInput ie) (mkTHPks (latest_press (map EvInput qd))) eq_refl).
  rewrite Htc. destruct (tap_hold_rule ir i (map EvInput qd) (EvInput ie)) as [x|] eqn:Ex; cbn [bind]; unfold schedule_all, sched_all; cbn [fold_res bind].
  - pose proof (undecided_release _ _ _ _ Hfd) as Hnr.
    match goal with |- context [exec conf _ (JPendingLoop ?np) ?y] => set (k1 := y) end.
    assert (Pk1 : exists st, km_pending k1 = Some (mkPending i (RTapHold q) st (map EvInput (qd ++ [ie])))) by (eexists; cbn; rewrite map_app; reflexivity).
    destruct Pk1 as (st & Pk1).
    destruct (pending_total b i q key (qd ++ [ie]) st x f k1) as (k2 & E2); try eassumption.
    + exists r. split; [exact Hkey|exact Hst].
    + intros X. apply in_app_or in X as [X|[X|[]]]; [contradiction|congruence].
    + now apply releases_last.
    + rewrite app_length. cbn. exact H31.
    + rewrite E2. cbn [bind]. eapply (pending_decides refs d pos dbg n height b i q key (qd ++ [ie])) in E2; try eassumption.
      * destruct E2 as (m & _ & _ & _ & P & _). rewrite drain0 by exact P. eauto.
      * exists r. split; [exact Hkey|exact Hst].
      * intros X. apply in_app_or in X as [X|[X|[]]]; [contradiction|congruence].
      * now apply releases_last.
  - rewrite drain0 by exact Hs. eauto.
Qed.
Lemma process_timer_total b i q key qd f (k : ckeymap) j : undecided_at refs d n height ir b i q key qd k -> sc_pending (km_sched k) = [] ->
  (length (bd_down b) < 16)%nat -> (length qd + length (km_inq k) <= 31)%nat ->
  exists k', exec conf (fuel7 f) (JHandleEvent (timer j)) k = Ok k'.
Proof.
  intros (Hp & Hb & Hi & (r & Er & Hst) & Hnp & Hfd) Hs H16 H31. pose proof (undecided_release _ _ _ _ Hfd) as Hnr.
  change (exec conf (fuel7 f) (JHandleEvent (timer j)) k) with (step_handle_event conf (exec conf (S (S (S (S (S (S (height + f)))))))) (timer j) k).
  unfold step_handle_event. cbn [run_callback timer].
  match goal with |- context [exec conf (S ?f0) (JUpdatePending ?ev) ?x] => change (exec conf (S f0) (JUpdatePending ev) x) with (step_update_pending conf (exec conf f0) ev x) end.
  unfold step_update_pending. rewrite Hp. unfold waits_for. cbn [km_pending set_pending pd_state pd_index pd_ref pd_queued kc_sys cconf composite sys_update_pending_state km_ctx].
  destruct Hst as (Hkey & Hst). fold (timer j). rewrite (tap_hold_step d i (km_ctx k) q key Hkey (map EvInput qd) (timer j) (mkTHPks (latest_press (map EvInput qd))) eq_refl).
  cbn [tap_hold_rule timer bind]. unfold schedule_all, sched_all; cbn [fold_res bind].
  match goal with |- context [exec conf _ (JPendingLoop ?np) ?y] => set (k1 := y) end.
  assert (Hrel : forall a z, qd = a ++ Release i :: z -> z = []) by (intros a0 z X; exfalso; apply Hnr; rewrite X; apply in_or_app; right; now left).
  assert (Hsf : exists r, stands_for d n b height r q key) by (exists r; split; [exact Hkey|exact Hst]).
  assert (Hpk : exists st, km_pending k1 = Some (mkPending i (RTapHold q) st (map EvInput qd))) by (eexists; reflexivity). destruct Hpk as (st & Hpk).
  destruct (pending_total b i q key qd st IsHold f k1 Hb Hi Hsf Hpk Hnp Hrel Hs H16 H31) as (k2 & E2). unfold tap_hold_key in *. rewrite E2. cbn [bind].
  pose proof (pending_decides refs d pos dbg n height b i q key qd st IsHold f k1 k2 Hb Hi Hsf Hpk Hnp Hrel Hs E2) as (m & M & B & F & P & C).
  rewrite (update_pressed_board refs d pos dbg n _ k2) by (try apply B; discriminate). cbn [bind].
  unfold update_context, timer. cbn [kc_sys cconf composite sys_ctx_handle_event]. rewrite tap_hold_ctx by apply B. cbn [bind].
  unfold schedule_all, sched_all. cbn [fold_res bind]. eauto.
Qed.
End Total.

Lemma strong_last {A} (R : A -> A -> Prop) l x : StronglySorted R (l ++ [x]) -> StronglySorted R l /\ Forall (fun a => R a x) l.
Proof.
  induction l as [|y l IH]; cbn; intros H; [split; constructor|]. inversion H as [|? ? H1 H2]; subst. destruct (IH H1) as (A1 & A2).
  apply Forall_app in H2 as (B1 & B2). inversion B2; subst. split; [now constructor|]. constructor; assumption.
Qed.
Lemma firstn_distinct {A} n (l : list A) : NoDup l -> NoDup (firstn n l).
Proof.
  intros H. revert n. induction H as [|x l Hx H IH]; intros [|n]; cbn; try constructor; [|apply IH].
  intros X. apply Hx. rewrite <- (firstn_skipn n l). apply in_or_app. now left.
Qed.
Lemma apart_distinct m l : 0 < m -> StronglySorted (fun a b => b + m <= a) l -> NoDup l.
Proof.
  intros Hm. induction 1 as [|x l H1 IH H2]; constructor; [|exact IH]. intros Hin. rewrite Forall_forall in H2. specialize (H2 _ Hin). lia.
Qed.
Lemma apart_decreasing m l : StronglySorted (fun a b => b + m <= a) l -> decreasing l.
Proof. induction 1 as [|x l H1 IH H2]; constructor; [exact IH|]. eapply Forall_impl; [|exact H2]. cbn. intros; lia. Qed.

(** ** The timers in the scheduler *)
Section Spaced.
Variables (pos : position_fn) (to : u16).
Hypothesis Hpos : position_ok pos.
Definition spaced (k : ckeymap) : Prop :=
  let c := sc_counter (km_sched k) in let m := km_ms_per_tick k in let l := map en_time (sc_scheduled (km_sched k)) in
  0 < m /\ km_delay k <= 1 /\ StronglySorted (fun a b => b + m <= a) l
  /\ Forall (fun t => c <= t /\ (0 < to -> c < t) /\ t + m * (1 - km_delay k) <= c + to) l
  /\ (c = 0 -> l = [] \/ km_delay k = 1 /\ length l = 1%nat).
Lemma spaced_same (k k' : ckeymap) : spaced k -> sc_counter (km_sched k') = sc_counter (km_sched k) -> km_ms_per_tick k' = km_ms_per_tick k -> km_delay k' = km_delay k ->
  map en_time (sc_scheduled (km_sched k')) = map en_time (sc_scheduled (km_sched k)) -> spaced k'.
Proof. clear. unfold spaced. intros H -> -> -> ->. exact H. Qed.
Lemma insert_first (l : list N) p t : Forall (fun x => x < t) l -> Forall (fun x => t <= x) (firstn p l) -> insert_at p t l = t :: l.
Proof.
  clear. intros H H1. unfold insert_at. destruct p as [|p]; [reflexivity|]. destruct l as [|x l]; [reflexivity|].
  inversion H; subst. cbn in H1. inversion H1; subst. lia.
Qed.
Lemma spaced_take (k a : ckeymap) : spaced k -> km_delay k = 0 -> sc_counter (km_sched a) = sc_counter (km_sched k) -> km_ms_per_tick a = km_ms_per_tick k ->
  (map en_time (sc_scheduled (km_sched a)) = map en_time (sc_scheduled (km_sched k))
      \/ exists e, sched_after pos (km_sched k) (to) e = Ok (km_sched a)) -> spaced (set_delay a INPUT_QUEUE_TICK_DELAY).
Proof.
  intros (Hm & _ & Hs & Hb & H0) Hd Ec Em Et. rewrite Hd in *. unfold spaced. cbn [set_delay km_sched km_ms_per_tick km_delay]. rewrite Ec, Em.
  unfold INPUT_QUEUE_TICK_DELAY. split; [exact Hm|]. split; [lia|]. change (1 - 1) with 0. change (1 - 0) with 1 in Hb.
  set (c := sc_counter (km_sched k)) in *. set (m := km_ms_per_tick k) in *.
  assert (Hb' : Forall (fun t => c <= t /\ (0 < to -> c < t) /\ t + m * 0 <= c + to) (map en_time (sc_scheduled (km_sched k)))).
  { eapply Forall_impl; [|exact Hb]. cbn. intros t (A & B & C). unfold u8, u16, u32 in *. split; [exact A|]. split; [exact B|lia]. }
  assert (H00 : c = 0 -> map en_time (sc_scheduled (km_sched k)) = []).
  { intros X. destruct (H0 X) as [Y|(Y & _)]; [exact Y|discriminate]. }
  destruct Et as [->|(e & Es)].
  - split; [exact Hs|]. split; [exact Hb'|]. intros X. left. now apply H00.
  - apply sched_after_ok in Es as (_ & _ & Es & _). rewrite Es, map_insert_at. cbn [en_time]. fold c.
    assert (Hlt : Forall (fun t => t + m <= c + to) (map en_time (sc_scheduled (km_sched k)))).
    { eapply Forall_impl; [|exact Hb]. cbn. intros t (_ & _ & C). unfold u8, u16, u32 in *. lia. }
    rewrite insert_first.
    + split; [constructor; [exact Hs|exact Hlt]|]. split; [constructor; [|exact Hb']|].
      * unfold u8, u16, u32 in *. split; [lia|]. split; lia.
      * intros X. right. split; [reflexivity|]. cbn. now rewrite (H00 X).
    + eapply Forall_impl; [|exact Hlt]. cbn. intros t X. unfold u8, u16, u32 in *. lia.
    + apply Hpos. eapply apart_decreasing. exact Hs.
Qed.
Lemma spaced_tick (k k' : ckeymap) s : spaced k -> sched_tick (km_sched k) (km_ms_per_tick k) = Ok s -> km_ms_per_tick k' = km_ms_per_tick k ->
  km_delay k' = 0 -> sc_counter (km_sched k') = sc_counter s -> map en_time (sc_scheduled (km_sched k')) = map en_time (sc_scheduled s) -> spaced k'.
Proof.
  clear Hpos. intros (Hm & Hd & Hs & Hb & _) Et Em Ed Ec El. unfold spaced. rewrite Em, Ed, Ec, El. apply sched_tick_ok in Et as (-> & Et).
  set (c := sc_counter (km_sched k)) in *. set (m := km_ms_per_tick k) in *. split; [exact Hm|]. split; [lia|]. change (1 - 0) with 1.
  assert (Hup : Forall (fun t => c <= t /\ (0 < to -> c < t) /\ t <= c + to) (map en_time (sc_scheduled (km_sched k)))).
  { eapply Forall_impl; [|exact Hb]. cbn. intros t (A & B & C). split; [exact A|]. split; [exact B|]. unfold u8, u16, u32 in *. lia. }
  clear Hb. destruct Et as [(_ & -> & Hl)|(en & El' & Hle & _)].
  - split; [exact Hs|]. split; [|intros X; unfold u8, u16, u32 in *; lia].
    destruct (last_opt (sc_scheduled (km_sched k))) as [en|] eqn:E0.
    + specialize (Hl _ eq_refl). apply last_opt_spec in E0. rewrite E0, map_app in *. cbn [map] in *. apply strong_last in Hs as (Hs & Hs').
      apply Forall_app in Hup as (U1 & U2). apply Forall_app. inversion U2 as [|? ? U3 _]; subst.
      assert (Hh : forall t, en_time en <= t -> c <= t /\ (0 < to -> c < t) /\ t <= c + to ->
        c + m <= t /\ (0 < to -> c + m < t) /\ t + m * 1 <= c + m + to).
      { intros t Y (_ & _ & Z). unfold u8, u16, u32 in *. split; [lia|]. split; lia. }
      split.
      * apply Forall_forall. intros t Ht. apply Hh; [|now apply (proj1 (Forall_forall _ _) U1)]. pose proof (proj1 (Forall_forall _ _) Hs' _ Ht) as Y. cbn in Y. unfold u8, u16, u32 in *. lia.
      * constructor; [|constructor]. apply Hh; [apply N.le_refl|exact U3].
    + apply last_opt_none in E0. rewrite E0. constructor.
  - rewrite El', map_app in Hs, Hup. cbn [map] in *. apply strong_last in Hs as (Hs & Hs'). apply Forall_app in Hup as (U1 & U2). inversion U2 as [|? ? U3 _]; subst.
    split; [exact Hs|]. split; [|intros X; unfold u8, u16, u32 in *; lia].
    apply Forall_forall. intros t Ht. pose proof (proj1 (Forall_forall _ _) Hs' _ Ht) as Y. pose proof (proj1 (Forall_forall _ _) U1 _ Ht) as Z. cbn in Y, Z.
    destruct U3 as (V1 & V2 & V3), Z as (Z1 & Z2 & Z3). unfold u8, u16, u32 in *. split; [lia|]. split; [|lia]. intros X. specialize (V2 X). lia.
Qed.

Lemma spaced_new cx L : spaced (set_callbacks (km_new cx) L).
Proof. clear. unfold spaced. cbn. split; [lia|]. split; [lia|]. split; [constructor|]. split; [constructor|]. intros _. now left. Qed.

End Spaced.

Section TotalRun.
Variables (refs : list ref) (d : key_data) (pos : position_fn) (dbg : bool) (cf : config) (height f : nat).
Hypothesis Hrefs : Forall (tap_board_key (cf_layer_count cf) d height) refs.
Hypothesis Hpos : position_ok pos.
Hypothesis Hmany : N.of_nat (length refs) <= 65535.
Variable L : list (callback * callback_fn).
Local Notation conf := (cconf refs d pos dbg).
Local Notation tc := (cf_tap_hold cf).
Local Notation k0 := (set_callbacks (km_new (ctx_from_config cf)) L).
Local Notation fuel := (S (S (S (S (S (S (S (S (height + f))))))))).
Local Notation let_in ops := (let_in conf fuel ops k0).
Local Notation core := (core refs d (cf_layer_count cf) height L tc).
Local Notation fits := (fits (length refs) (chc_max_pressed (cf_chorded cf))).

(** What is known of the chord context. *)
Definition Tr (h : list input_event) (ch : chorded_ctx) : Prop :=
  chord_tracks (down_after h) ch /\ chx_config ch = cf_chorded cf.
Lemma Tr_new : Tr [] (cx_chorded (ctx_from_config cf)).
Proof.
  clear. split; [|reflexivity]. split; [apply quiet_new|]. split; [constructor|].
  right. split; [intros a x b y c H; destruct a; discriminate H|]. split; [constructor|]. intros x. reflexivity.
Qed.
Lemma Tr_step h ch x : Tr h ch -> fits (h ++ [x]) -> exists ch', step_chorded ch (EvInput x) = Ok ch' /\ Tr (h ++ [x]) ch'.
Proof.
  clear Hrefs Hpos. intros H (Hin & Hfit). pose proof H as (Ht & Hcf). specialize (Hfit (length (h ++ [x]))). cbv zeta in Hfit. rewrite firstn_all, down_snoc in Hfit.
  destruct Hfit as (H16 & Hcap).
  destruct (chord_total refs (with_chorded (ctx_from_config cf) ch) (down_after h) x) as (ch' & E & Ht' & Hc'); try assumption.
  - intros i ->. apply Hin, in_or_app. right. now left.
  - cbn. rewrite Hcf. exact Hcap.
  - exists ch'. split; [exact E|]. rewrite <- down_snoc in Ht'. split; [exact Ht'|]. cbn in Hc'. congruence.
Qed.
Lemma Tr_same h ch ch' : chx_config ch' = chx_config ch -> chx_pressed_indices ch' = chx_pressed_indices ch -> chx_pressed_chords ch' = chx_pressed_chords ch ->
  chx_latest ch' = chx_latest ch -> Tr h ch -> Tr h ch'.
Proof. clear. intros A B C D0 (((Q1 & Q2) & H1) & H2). unfold Tr, chord_tracks, quiet_chords in *. rewrite A, B, C, D0. repeat split; try assumption; apply H1. Qed.
Lemma fits_mid h x w : fits (h ++ x :: w) -> fits (h ++ [x]).
Proof. clear. intros H. apply (fits_app _ _ _ w). now rewrite <- app_assoc. Qed.
Lemma room_for T h x later xs b cs ir : tap_run (cf_layer_count cf) refs d ir T h later xs b cs -> fits (h ++ [x]) -> board_input_ok refs b x = true
  /\ (forall i, x = Press i -> existsb (this_key i) (bd_down b) = false -> (length (bd_down b) < 16)%nat).
Proof.
  clear Hrefs Hpos Hmany. intros Hr (Hin & Hfit). specialize (Hfit (length (h ++ [x]))). cbv zeta in Hfit. rewrite firstn_all, down_snoc in Hfit.
  destruct Hfit as (H16 & _). pose proof (tap_run_shape _ _ _ _ _ _ _ _ _ _ Hr) as Hsh. rewrite <- Hsh in H16. unfold down_step, shape in H16.
  split.
  - unfold board_input_ok. destruct x as [i|i|ko|ko]; try reflexivity.
    + rewrite this_forget in H16. destruct (existsb (this_key i) (bd_down b)); [reflexivity|]. cbn [orb]. apply andb_true_iff. rewrite !Nat.ltb_lt.
      split; [apply Hin, in_or_app; right; now left|]. rewrite app_length, map_length in H16. cbn in H16. lia.
    + apply Nat.ltb_lt. rewrite app_length, map_length in H16. cbn in H16. lia.
  - intros i -> Hi. rewrite this_forget, Hi, app_length, map_length in H16. cbn in H16. lia.
Qed.

Lemma take_total T dues g acc (k : ckeymap) x w : core T dues Tr acc k -> km_inq k = x :: w -> in_turn acc -> fits acc ->
  thx_config (cx_tap_hold (km_ctx k)) = tc -> (behind k <= 16)%nat ->
  (km_pending k = None -> exists s, sched_after pos (km_sched k) (thc_timeout tc) (EvKey 0 (CeTapHold TapHoldTimeout)) = Ok s) ->
  exists k', exec conf (S (S (S (S (S (S (S (height + g)))))))) (JProcessInput x) (set_inq k w) = Ok k'.
Proof.
  intros (Hs & HL & HW & h & b & xs & cs & Hc & X) Hq Ht Hf Htc Hbe Hsch.
  destruct X as [(Ea & Hr & Hb & Hch & Hdead)|(i & q & key & qd & due & Ea & Hr & Hu & Hch & Hd & Hlive)].
  - rewrite Hq in *. subst acc. pose proof (fits_mid _ _ _ Hf) as Hf1. assert (Hpn : km_pending k = None) by apply Hb.
    destruct (room_for _ _ _ _ _ _ _ _ Hr Hf1) as (Hok & _). destruct (Tr_step _ _ _ Hch Hf1) as (ch' & Ech & _).
    replace (S (S (S (S (S (S (S (height + g)))))))) with (S (S (S (S (height + (3 + g)))))) by lia.
    eapply (process_tap_total refs d pos dbg (cf_layer_count cf) height Hrefs); [exact Hb|exact Hs| |exact Ech|exact Hok|].
    + intros i ->. rewrite <- this_forget. change (map forget (bd_down b)) with (shape b). rewrite (tap_run_shape _ _ _ _ _ _ _ _ _ _ Hr). exact (Ht h i w eq_refl).
    + cbn [set_inq km_ctx km_sched]. rewrite Htc. now apply Hsch.
  - rewrite Hq in *. pose proof Hu as (Hp & Hb & Hi & _ & Hnp & Hfd). pose proof (undecided_release _ _ _ _ Hfd) as Hnr. rewrite Ea in Hf.
    destruct (room_for _ _ _ _ _ _ _ _ Hr (fits_mid _ _ _ Hf)) as (_ & H16). specialize (H16 _ eq_refl Hi).
    unfold behind in Hbe. rewrite Hp, Hq in Hbe. unfold waits_for in Hbe. cbn in Hbe. rewrite map_length in Hbe.
    eapply (process_pending_total refs d pos dbg (cf_layer_count cf) height tc b i q key qd g (set_inq k w) x); [exact Htc|exact Hu|exact Hs| |lia|exact H16|cbn; lia].
    intros ->. subst acc. exact (not_again _ _ _ _ Ht Hnr i w eq_refl eq_refl).
Qed.
Lemma timer_total T dues g acc (k : ckeymap) : core T dues Tr acc k -> fits acc ->
  (forall p, km_pending k = Some p -> (length (pd_queued p) + length (km_inq k) <= 31)%nat) ->
  sc_counter (km_sched k) + km_ms_per_tick k <= u32_max ->
  exists s, sched_tick (km_sched k) (km_ms_per_tick k) = Ok s
   /\ exists k', exec conf (S (S (S (S (S (S (S (S (height + g))))))))) JHandlePending (set_sched k s) = Ok k'.
Proof.
  intros (Hs & HL & HW & h & b & xs & cs & Hc & X) Hf Hroom Hclock. unfold sched_tick, u32_add.
  destruct (N.leb_spec (sc_counter (km_sched k) + km_ms_per_tick k) u32_max) as [_|Z]; [|unfold u32 in *; lia]. cbn [bind].
  destruct (last_opt (sc_scheduled (km_sched k))) as [en|] eqn:El.
  2:{ eexists. split; [reflexivity|]. rewrite drain0 by exact Hs. eauto. }
  destruct (en_time en <=? sc_counter (km_sched k) + km_ms_per_tick k).
  2:{ eexists. split; [reflexivity|]. rewrite drain0 by exact Hs. eauto. }
  rewrite Hs. unfold push_cap. change (length (@nil (option (event cev))) <? PENDING_CAPACITY)%nat with true. cbn [bind app]. eexists. split; [reflexivity|].
  destruct (en_live en) eqn:Eli.
  2:{ cbn [exec step]. unfold step_handle_pending, sched_dequeue. cbn. eauto. }
  destruct X as [(Ea & Hr & Hb & _ & Hdead)|(i & q & key & qd & due & Ea & Hr & Hu & Hch & Hd & Hlive)].
  { pose proof (last_opt_forall _ _ _ Hdead El) as Z. cbn in Z. congruence. }
  pose proof (last_opt_forall _ _ _ Hlive El) as Z. cbn in Z. destruct (Z Eli) as (Ev & _). rewrite Ev.
  match goal with |- exists k', exec _ (S ?f0) _ ?x = _ => change (exec conf (S f0) JHandlePending x) with (step_handle_pending (exec conf f0) x) end.
  unfold step_handle_pending, sched_dequeue. cbn [km_sched set_sched sc_pending sc_scheduled sc_counter].
  set (k1 := set_sched (set_sched _ _) _).
  assert (Hu1 : undecided_at refs d (cf_layer_count cf) height (thc_interrupt tc) b i q key qd k1).
  { destruct Hu as (U1 & (A1 & A2 & A3 & A4 & A5 & A6) & U3). split; [exact U1|]. split; [|exact U3].
    split; [exact A1|split; [exact A2|split; [exact A3|split; [exact A4|split; [reflexivity|exact A6]]]]]. }
  pose proof Hu1 as (Hp & _ & Hi & _). rewrite Ea in Hf.
  destruct (room_for _ _ _ _ _ _ _ _ Hr (fits_mid _ _ _ Hf)) as (_ & H16). specialize (H16 _ eq_refl Hi).
  destruct (process_timer_total refs d pos dbg (cf_layer_count cf) height tc b i q key qd g k1 i Hu1 eq_refl H16) as (k2 & E2).
  { specialize (Hroom _ (proj1 Hu)). unfold waits_for in Hroom. cbn in Hroom. rewrite map_length in Hroom. exact Hroom. }
  rewrite E2. cbn [bind]. pose proof (process_timer refs d pos dbg (cf_layer_count cf) height _ _ _ _ _ _ _ _ _ _ Hu1 eq_refl E2) as (m & M & B & F & P & C).
  rewrite drain0 by exact P. eauto.
Qed.

(** *** The timers in the scheduler *)
Local Notation spaced := (spaced (thc_timeout tc)).
Lemma op_spaced ops (k k' : ckeymap) o : plain_op o = true -> run_ops conf fuel ops k0 = Ok k -> core anyT anyD anyTr (let_in ops) k -> in_turn (let_in (ops ++ [o])) ->
  (forall ms, o = OpSetMs ms -> 0 < ms /\ sc_counter (km_sched k) = 0) -> run_op conf fuel k o = Ok k' -> spaced k -> spaced k'.
Proof.
  clear Hmany. intros Hop Hrun Hc Ht Hms H Hsp. pose proof (let_in_snoc refs d pos dbg height f ops o _ _ Hrun) as El.
  assert (Hcf : thx_config (cx_tap_hold (km_ctx k)) = tc) by (pose proof (run_ops_config _ _ _ _ _ _ _ _ Hrun) as (A & _); exact A).
  destruct o as [ev| |dd ev| | | |ms|cb g]; try discriminate Hop; cbn [run_op] in *.
  - unfold km_handle_input in H. cbn zeta in H. change (km_inq (set_idle k 0)) with (km_inq k) in H. change INPUT_QUEUE_CAPACITY with 31%nat in H.
    destruct (length (km_inq k) <? 31)%nat; [|injection H as <-; eapply spaced_same; [exact Hsp|reflexivity..]].
    set (k1 := set_inq (set_idle k 0) (km_inq k ++ [ev])) in *.
    assert (Hc2 : core anyT anyD anyTr (let_in (ops ++ [OpInput ev])) k1).
    { eapply (core_fields refs d cf height L _ _ _ _ _ k _ [ev]); [exact Hc|exact El|..]; try reflexivity. intros b Hb. exact (bctx _ _ _ _ _ Hb). }
    assert (Hsp1 : spaced k1) by (eapply spaced_same; [exact Hsp|reflexivity..]).
    destruct (N.eqb_spec (km_delay k1) 0) as [Hd|_]; [|injection H as <-; exact Hsp1].
    destruct (km_inq k1) as [|x w] eqn:Eq; [discriminate|]. inv_bind H. injection H as <-.
    assert (Ex : exec conf (S (S (S (S (S (S (S (height + (1 + f))))))))) (JProcessInput x) (set_inq k1 w) = Ok a).
    { replace (height + (1 + f))%nat with (S (height + f)) by lia. exact E. }
    destruct (core_take refs d pos dbg (cf_layer_count cf) height Hrefs L tc _ _ anyTr (1 + f) _ k1 a x w Hc2 Eq Ht Hcf) as (_ & _ & Cm & Cn & _ & Ct & _); try (intros; exact Logic.I); try exact Ex.
    eapply (spaced_take pos); [exact Hpos|exact Hsp1|exact Hd|exact Cn|exact Cm|destruct Ct as [Ct|(i & Ct)]; eauto].
  - rewrite app_nil_r in El. rewrite El in *. rewrite tick_step in H. cbn zeta in H. set (k1 := set_ctx k _) in H.
    assert (Hc2 : core anyT anyD anyTr (let_in ops) k1).
    { eapply core_same; [exact Hc|..]; try reflexivity. intros (A & B & C & D). repeat split; assumption. }
    assert (Hsp1 : spaced k1) by (eapply spaced_same; [exact Hsp|reflexivity..]).
    inv_bind H. change (if 0 <? km_delay a then set_delay a (km_delay a - 1) else a) with (slowed a) in H. inv_bind H. inv_bind H. inv_bind H. injection H as <-.
    assert (X : core anyT anyD anyTr (let_in ops) a /\ spaced a).
    { destruct (km_inq k) as [|x w] eqn:Eq; [injection E as <-; auto|]. destruct (N.eqb_spec (km_delay k) 0) as [Hd|_]; [|injection E as <-; auto].
      inv_bind E. injection E as <-.
      assert (Ex : exec conf (S (S (S (S (S (S (S (height + (1 + f))))))))) (JProcessInput x) (set_inq k1 w) = Ok a3).
      { replace (height + (1 + f))%nat with (S (height + f)) by lia. exact E3. }
      destruct (core_take refs d pos dbg (cf_layer_count cf) height Hrefs L tc _ _ anyTr (1 + f) _ k1 a3 x w Hc2 Eq Ht Hcf) as (C & _ & Cm & Cn & _ & Ct & _); try (intros; exact Logic.I); [exact Ex|].
      split; [apply (core_same refs d cf height L _ _ _ _ a3); [exact C|reflexivity|reflexivity|reflexivity|reflexivity|reflexivity|reflexivity|auto|auto|reflexivity]|]. eapply (spaced_take pos); [exact Hpos|exact Hsp1|exact Hd|exact Cn|exact Cm|destruct Ct as [Ct|(i & Ct)]; eauto]. }
    destruct X as (C & Hspa).
    assert (S2 : km_ms_per_tick (slowed a) = km_ms_per_tick a /\ km_sched (slowed a) = km_sched a /\ km_delay (slowed a) = 0).
    { pose proof Hspa as (_ & Hd1 & _). unfold slowed. destruct (N.ltb_spec 0 (km_delay a)) as [Y|Y]; cbn; repeat split; unfold u8 in *; lia. }
    destruct S2 as (M2 & S2 & D2).
    destruct (core_timer refs d pos dbg (cf_layer_count cf) height L tc anyT anyD anyTr f _ _ a1 _ (core_slowed _ _ _ _ _ _ _ _ _ _ C) E0) as (_ & _ & Y & _); [intros; exact Logic.I|exact E1|].
    apply exec_frame in E1 as (F1 & F2 & _ & _ & F3 & _). cbn [set_sched km_sched km_ms_per_tick km_delay] in F1, F2, F3.
    rewrite S2, M2 in E0. eapply spaced_tick; [exact Hspa|exact E0|..]; cbn [set_idle km_ms_per_tick km_delay km_sched]; congruence.
  - unfold km_report_output in H. inv_bind H. inv_bind E. injection E as <-. injection H as <-. eapply spaced_same; [exact Hsp|reflexivity..].
  - injection H as <-. destruct (Hms _ eq_refl) as (Hm & H0). destruct Hsp as (_ & Hd & Hs & Hb & H1). specialize (H1 H0).
    unfold spaced. cbn [km_sched km_delay km_ms_per_tick set_ms_per_tick km_set_ms_per_tick]. split; [exact Hm|]. split; [exact Hd|].
    destruct H1 as [H1|(H1 & H2)].
    + rewrite H1 in *. split; [constructor|]. split; [constructor|]. intros _. now left.
    + destruct (map en_time (sc_scheduled (km_sched k))) as [|t [|t' l]]; try discriminate H2. split; [repeat constructor|]. split; [|intros _; right; auto].
      inversion Hb as [|? ? Hb1 _]; subst. constructor; [|constructor]. rewrite H1 in *. change (1 - 1) with 0 in *. rewrite N.mul_0_r in *. exact Hb1.
Qed.
(** *** Room in the scheduler *)
Lemma room_to_schedule ops (k : ckeymap) T e : run_ops conf fuel ops k0 = Ok k -> Forall (fun o => plain_op o = true) ops ->
  core T (dues_of refs d pos dbg cf height f L ops) Tr (let_in ops) k -> spaced k -> ~ crowded conf fuel tc k0 ops ->
  ck_now (clocks_run ops) + thc_timeout tc <= u32_max -> exists s, sched_after pos (km_sched k) (thc_timeout tc) e = Ok s.
Proof.
  intros Hrun Hops (_ & _ & HW & _) (Hm & _ & Hs & Hb & _) Hcr Hclk.
  assert (Hck : clocks_run ops = mkClocks (sc_counter (km_sched k)) (km_idle k) (km_ms_per_tick k)).
  { symmetry. apply plain_basic in Hops as (_ & Hti). exact (run_ops_clock _ fuel ops Hti _ _ Hrun). }
  rewrite Hck in Hclk. cbn [ck_now] in Hclk. unfold sched_after, u32_add. apply N.leb_le in Hclk. rewrite Hclk. cbn [bind].
  change MAX_SCHEDULED_EVENTS with 32%nat. destruct (Nat.ltb_spec (length (sc_scheduled (km_sched k))) 32) as [_|Hfull].
  - destruct (Hpos (map en_time (sc_scheduled (km_sched k))) (sc_counter (km_sched k) + thc_timeout tc)) as (Hle & _); [eapply apart_decreasing; exact Hs|].
    rewrite map_length in Hle. apply Nat.leb_le in Hle. rewrite Hle. eauto.
  - exfalso. apply Hcr. set (l := map en_time (sc_scheduled (km_sched k))) in *.
    assert (Hdue : Forall (fun t => thc_timeout tc <= t /\ sc_counter (km_sched k) <= t /\ exists h i, dues_of refs d pos dbg cf height f L ops h i t) l).
    { apply Forall_forall. intros t Hin. unfold l in Hin, Hb. pose proof (proj1 (Forall_forall _ _) Hb _ Hin) as (Hlow & _). apply in_map_iff in Hin as (en & <- & Hin).
      pose proof (proj1 (Forall_forall _ _) HW _ Hin) as (h & i & Hd). split; [|split; [exact Hlow|eauto]]. destruct Hd as (a & o & z & _ & _ & _ & ->). lia. }
    exists (firstn 32 (map (fun t => t - thc_timeout tc) l)). split; [rewrite firstn_length, map_length; unfold l; rewrite map_length; lia|]. split.
    + apply firstn_distinct. pose proof (apart_distinct _ _ Hm Hs) as Hnd. clear -Hnd Hdue.
      induction l as [|t l IH]; cbn; [constructor|]. inversion Hnd; subst. inversion Hdue as [|? ? (D1 & _) D2]; subst. constructor; [|now apply IH].
      intros Hin. apply in_map_iff in Hin as (t' & E & Hin). pose proof (proj1 (Forall_forall _ _) D2 _ Hin) as (D3 & _). assert (t' = t) as -> by (unfold u16, u32 in *; lia). contradiction.
    + intros t Hin. assert (Hin' : In t (map (fun t => t - thc_timeout tc) l)) by (rewrite <- (firstn_skipn 32 (map _ l)); apply in_or_app; now left).
      apply in_map_iff in Hin' as (t' & <- & Hin'). pose proof (proj1 (Forall_forall _ _) Hdue _ Hin') as (D1 & D2 & h & i & a & o & z & Ez & Htk & Hs' & ->).
      rewrite Hck. cbn [ck_now]. split; [unfold u16, u32 in *; lia|]. exists a, o, z, h, i. split; [exact Ez|]. split; [unfold u16, u32 in *; lia|]. auto.
Qed.
Lemma core_report T S1 Tr0 acc (k : ckeymap) : core T S1 Tr0 acc k -> exists l, km_pressed_keys conf k = Ok l.
Proof.
  intros (_ & _ & _ & h & b & xs & cs & _ & X).
  assert (Hh : exists o, outputs_of conf (km_pressed k) = Ok o).
  { destruct X as [(_ & _ & Hb & _)|(i & q & key & qd & due & _ & _ & (_ & Hb & _) & _)]; destruct Hb as (_ & _ & Hh & _); apply (outputs_held refs d pos dbg) in Hh; eauto. }
  destruct Hh as (o & Hh). unfold km_pressed_keys. rewrite Hh. eauto.
Qed.

Lemma behind_one (k : ckeymap) ev : km_pending k <> None -> (length (km_inq k) < 31)%nat ->
  behind (set_inq (set_idle k 0) (km_inq k ++ [ev])) = (behind k + 1)%nat.
Proof. clear. intros Hp _. unfold behind. cbn. destruct (km_pending k); [|contradiction]. rewrite app_length. cbn. lia. Qed.

Lemma op_total ops (k : ckeymap) o : Forall (fun o => plain_op o = true) (ops ++ [o]) -> run_ops conf fuel ops k0 = Ok k ->
  tcore refs d pos dbg cf height f L ops Tr (let_in ops) k -> spaced k -> in_turn (let_in (ops ++ [o])) -> fits (let_in (ops ++ [o])) ->
  ck_now (clocks_run (ops ++ [o])) + thc_timeout tc <= u32_max -> ~ crowded conf fuel tc k0 ops ->
  (undecided k <> None -> (behind k + length (SpecTapBoard.let_in conf fuel [o] k) <= 16)%nat) ->
  exists k', run_op conf fuel k o = Ok k'.
Proof.
  intros Hops Hrun Hc Hsp Ht Hf Hclk Hcr Hbe. pose proof (let_in_snoc refs d pos dbg height f ops o _ _ Hrun) as El.
  apply Forall_app in Hops as (Hops & Ho). inversion Ho as [|? ? Hop _]; subst. clear Ho.
  assert (Hcf : thx_config (cx_tap_hold (km_ctx k)) = tc) by (pose proof (run_ops_config _ _ _ _ _ _ _ _ Hrun) as (A & _); exact A).
  assert (Hck : clocks_run ops = mkClocks (sc_counter (km_sched k)) (km_idle k) (km_ms_per_tick k)).
  { symmetry. apply plain_basic in Hops as (_ & Hti). exact (run_ops_clock _ fuel ops Hti _ _ Hrun). }
  assert (Hidle : ck_idle (clocks_run ops) <= ck_now (clocks_run ops)) by (apply clocks_idle; [exact Hops|cbn; lia]).
  assert (Hinq : (length (km_inq k) <= 31)%nat).
  { assert (X : inv17 k) by (eapply run_ops_inv17; [|exact Hrun]; repeat split; cbn; try (unfold MAX_PRESSED_KEYS, INPUT_QUEUE_CAPACITY, PENDING_CAPACITY, MAX_SCHEDULED_EVENTS; lia); discriminate).
    apply X. }
  assert (Hnow : ck_now (clocks_run ops) <= ck_now (clocks_run (ops ++ [o]))).
  { unfold clocks_run. rewrite fold_left_app. apply (clocks_mono [o]). now constructor. }
  pose proof (room_to_schedule ops k _ (EvKey 0 (CeTapHold TapHoldTimeout)) Hrun Hops Hc Hsp Hcr) as Hroom.
  specialize (Hroom ltac:(unfold u16, u32 in *; lia)).
  assert (Hund : km_pending k <> None -> undecided k <> None) by (unfold undecided; destruct (km_pending k); [discriminate|auto]).
  destruct o as [ev| |dd ev| | | |ms|cb g]; try discriminate Hop; cbn [run_op] in *.
  - unfold km_handle_input. cbn zeta. change (km_inq (set_idle k 0)) with (km_inq k). change INPUT_QUEUE_CAPACITY with 31%nat.
    destruct (length (km_inq k) <? 31)%nat eqn:Elt; [|eauto].
    set (k1 := set_inq (set_idle k 0) (km_inq k ++ [ev])) in *.
    assert (Hc2 : core (run_timing conf fuel tc k0 ops) (dues_of refs d pos dbg cf height f L ops) Tr (let_in (ops ++ [OpInput ev])) k1).
    { eapply (core_fields refs d cf height L _ _ _ _ _ k _ [ev]); [exact Hc|exact El|..]; try reflexivity; [|auto]. intros b Hb. exact (bctx _ _ _ _ _ Hb). }
    destruct (N.eqb_spec (km_delay k1) 0) as [Hd|_]; [|eauto].
    destruct (km_inq k1) as [|x w] eqn:Eq; [exfalso; cbn in Eq; destruct (km_inq k); discriminate|].
    destruct (take_total _ _ (1 + f) _ k1 x w Hc2 Eq Ht Hf Hcf) as (k' & E).
    + destruct (km_pending k) eqn:Ep; [|unfold behind; cbn; rewrite Ep; lia]. unfold k1. rewrite behind_one; [|congruence|now apply Nat.ltb_lt].
      specialize (Hbe (Hund ltac:(discriminate))). cbn [SpecTapBoard.let_in] in Hbe. rewrite Elt in Hbe. rewrite app_length in Hbe. cbn [length] in Hbe. lia.
    + intros _. exact Hroom.
    + replace (height + (1 + f))%nat with (S (height + f)) in E by lia. rewrite E. cbn [bind]. eauto.
  - rewrite app_nil_r in El. rewrite El in *. rewrite tick_step. cbn zeta. set (k1 := set_ctx k _).
    assert (Hc2 : core (run_timing conf fuel tc k0 ops) (dues_of refs d pos dbg cf height f L ops) Tr (let_in ops) k1).
    { eapply core_same; [exact Hc|..]; try reflexivity; [intros h; now apply Tr_same|]. intros (A & B & C & D). repeat split; assumption. }
    assert (Hbe' : (behind k <= 16)%nat).
    { destruct (km_pending k) eqn:Ep; [|unfold behind; rewrite Ep; lia]. specialize (Hbe (Hund ltac:(discriminate))). lia. }
    assert (X : exists a, match km_inq k with
      | x :: w => if km_delay k =? 0 then let! a := exec conf fuel (JProcessInput x) (set_inq k1 w) in Ok (set_delay a INPUT_QUEUE_TICK_DELAY) else Ok k1
      | [] => Ok k1 end = Ok a
      /\ core anyT anyD Tr (let_in ops) a /\ (forall p, km_pending a = Some p -> (length (pd_queued p) + length (km_inq a) <= 31)%nat)
      /\ km_ms_per_tick a = km_ms_per_tick k /\ sc_counter (km_sched a) = sc_counter (km_sched k) /\ km_idle a = km_idle k).
    { assert (Same : core anyT anyD Tr (let_in ops) k1 /\ (forall p, km_pending k1 = Some p -> (length (pd_queued p) + length (km_inq k1) <= 31)%nat)
        /\ km_ms_per_tick k1 = km_ms_per_tick k /\ sc_counter (km_sched k1) = sc_counter (km_sched k) /\ km_idle k1 = km_idle k).
      { split; [eapply core_mono; [| | |exact Hc2]; try (intros; exact Logic.I); auto|]. split; [|auto].
        intros p Ep. change (km_pending k1) with (km_pending k) in Ep. unfold behind in Hbe'. rewrite Ep in Hbe'. change (km_inq k1) with (km_inq k). lia. }
      destruct (km_inq k) as [|x w] eqn:Eq; [exists k1; split; [reflexivity|exact Same]|]. destruct (km_delay k =? 0); [|exists k1; split; [reflexivity|exact Same]].
      destruct (take_total _ _ (1 + f) _ k1 x w Hc2 Eq Ht Hf Hcf) as (k' & E); [exact Hbe'|intros _; exact Hroom|].
      pose proof E as E'. replace (height + (1 + f))%nat with (S (height + f)) in E' by lia. rewrite E'. cbn [bind]. eexists. split; [reflexivity|].
      destruct Same as (Hc3 & _).
      destruct (core_take refs d pos dbg (cf_layer_count cf) height Hrefs L tc anyT anyD Tr (1 + f) _ k1 k' x w Hc3 Eq Ht Hcf) as (C & _ & Cm & Cn & Cf & _ & Cl); try (intros; exact Logic.I).
      + intros h ch ch' Ea Htr Est. rewrite Ea in Hf. destruct (Tr_step h ch x Htr (fits_mid _ _ _ Hf)) as (ch2 & E2 & T2). congruence.
      + exact E.
      + split; [apply (core_same refs d cf height L _ _ _ _ k'); [exact C|reflexivity|reflexivity|reflexivity|reflexivity|reflexivity|reflexivity|auto|auto|reflexivity]|].
        split; [|split; [exact Cm|split; [exact Cn|]]].
        * intros p Ep. cbn [set_delay km_pending km_inq] in *. destruct (km_pending k) as [p0|] eqn:Ep0.
          -- destruct (Cl p0 Ep0) as (_ & Cl'). rewrite Ep in Cl'. rewrite Cl'. unfold behind in Hbe'. rewrite Ep0, Eq in Hbe'. change (km_inq k1) with (km_inq k). rewrite Eq. lia.
          -- destruct (Cf Ep0) as (Cf1 & Cf2). rewrite (Cf2 _ Ep), Cf1. cbn in Hinq |- *. lia.
        * apply exec_frame in E as (_ & _ & F & _). exact F. }
    destruct X as (a & -> & C & Hr & Cm & Cn & Ci). cbn [bind].
    change (if 0 <? km_delay a then set_delay a (km_delay a - 1) else a) with (slowed a).
    assert (S2 : km_inq (slowed a) = km_inq a /\ km_pending (slowed a) = km_pending a /\ km_ms_per_tick (slowed a) = km_ms_per_tick a /\ km_sched (slowed a) = km_sched a /\ km_idle (slowed a) = km_idle a).
    { unfold slowed. destruct (0 <? km_delay a); auto 6. }
    destruct S2 as (Q2 & P2 & M2 & S2 & I2).
    unfold clocks_run in Hclk, Hidle, Hnow. rewrite fold_left_app in Hclk, Hnow. fold (clocks_run ops) in Hclk, Hidle, Hnow. rewrite Hck in Hclk, Hidle, Hnow. cbn [fold_left clocks_step ck_now ck_idle ck_ms] in Hclk, Hidle, Hnow.
    destruct (timer_total anyT anyD f (let_in ops) (slowed a)) as (s & Es & k3 & E3).
    + apply core_slowed. exact C.
    + exact Hf.
    + intros p Ep. rewrite P2 in Ep. rewrite Q2. now apply Hr.
    + rewrite S2, M2, Cm, Cn. unfold u16, u32 in *. lia.
    + rewrite Es. cbn [bind]. rewrite E3. cbn [bind]. apply exec_frame in E3 as (_ & F2 & F3 & _). cbn [set_sched km_ms_per_tick km_idle] in F2, F3.
      rewrite F2, F3, M2, I2, Cm, Ci. unfold u32_add. destruct (N.leb_spec (km_idle k + km_ms_per_tick k) u32_max) as [_|X]; [cbn [bind]; eauto|unfold u8, u16, u32 in *; lia].
  - destruct (core_report _ _ _ _ _ Hc) as (l & E). unfold km_report_output. rewrite E. cbn [bind]. eauto.
  - eauto.
Qed.

Lemma run_total ops : Forall (fun o => plain_op o = true) ops -> one_pace ops -> in_turn (let_in ops) -> fits (let_in ops) ->
  ck_now (clocks_run ops) + thc_timeout tc <= u32_max ->
  (forall a o z k, ops = a ++ o :: z -> run_ops conf fuel a k0 = Ok k ->
     ~ crowded conf fuel tc k0 a /\ (undecided k <> None -> (behind k + length (SpecTapBoard.let_in conf fuel [o] k) <= 16)%nat)) ->
  exists k, run_ops conf fuel ops k0 = Ok k /\ tcore refs d pos dbg cf height f L ops Tr (let_in ops) k /\ spaced k.
Proof.
  induction ops as [|o ops IH] using rev_ind; intros Ho Hp Ht Hf Hclk Hc.
  - exists k0. split; [reflexivity|]. split; [apply core_new; apply Tr_new|apply spaced_new].
  - pose proof Ho as Ho'. apply Forall_app in Ho' as (Ho1 & Ho2). inversion Ho2 as [|? ? Hop _]; subst. clear Ho2.
    assert (Hnow : ck_now (clocks_run ops) <= ck_now (clocks_run (ops ++ [o]))).
    { unfold clocks_run. rewrite fold_left_app. apply (clocks_mono [o]). now constructor. }
    assert (Hpre : exists z, let_in (ops ++ [o]) = let_in ops ++ z).
    { clear. generalize (k0 : ckeymap) as k. induction ops as [|p ops IH]; intros k; cbn [app SpecTapBoard.let_in]; [eexists; reflexivity|].
      destruct (run_op conf fuel k p) as [k'| |]; [|exists []; now rewrite !app_nil_r..]. destruct (IH k') as (z & ->). exists z. now rewrite app_assoc. }
    destruct Hpre as (z & Ez).
    destruct IH as (k & E & C & Hsp).
    + exact Ho1.
    + intros a ms z' X. apply (Hp a ms (z' ++ [o])). rewrite X, <- app_assoc. reflexivity.
    + rewrite Ez in Ht. now apply in_turn_app in Ht.
    + rewrite Ez in Hf. now apply fits_app in Hf.
    + unfold u16, u32 in *. lia.
    + intros a p z' k X. apply (Hc a p (z' ++ [o]) k). rewrite X, <- app_assoc. reflexivity.
    + destruct (Hc ops o [] k eq_refl E) as (Hcr & Hbe).
      destruct (op_total ops k o Ho E C Hsp Ht Hf Hclk Hcr Hbe) as (k' & E').
      exists k'. split; [unfold run_ops in *; rewrite fold_res_app, E; cbn [bind fold_res]; now rewrite E'|]. split.
      * eapply op_core; [exact Hrefs|exact Ho|exact E|exact C|exact Ht| |exact Tr_same|exact E'].
        intros h x w ch ch' Ea Htr Est. rewrite Ea in Hf. destruct (Tr_step h ch x Htr (fits_mid _ _ _ Hf)) as (ch2 & E2 & T2). congruence.
      * eapply op_spaced; [exact Hop|exact E|eapply core_any; exact C|exact Ht| |exact E'|exact Hsp].
        intros ms ->. destruct (Hp ops ms [] eq_refl) as (A & B). split; [exact A|].
        apply plain_basic in Ho1 as (_ & Hti). pose proof (run_ops_clock _ fuel ops Hti _ _ E) as X. unfold clocks_run in B. change (clocks_of k0) with clocks_new in X. rewrite <- X in B. exact B.
Qed.
End TotalRun.
