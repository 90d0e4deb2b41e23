(** Theorems C21-C24 (tap-hold and tap-dance keys), C42 (calls that advance time
    are ticks) and C43 (a pressed key stays pressed). *)
From Verif Require Import Base Output Types Scheduler Keymap SimpleKeys TapHold TapDance Sticky CapsWord Layered Composite
  SpecKeymap SpecTap TapFacts CtxFacts KeymapHeld TapTime CompositeFacts Samples.
Local Open Scope N_scope.

(** C21: a tap-hold key that has just been pressed, fed any events in any
    contexts with the given interrupt response, acts as the tap or hold key that
    the first deciding event says (see [tap_hold_rule]), with the events after
    that one left, and emits nothing; without a deciding event it is undecided. *)
Theorem C21_tap_hold_decision :
  forall d ki i key ir evs,
  nth_error (kd_tap_hold d) (N.to_nat i) = Some key ->
  Forall (fun ce => thc_interrupt (thx_config (cx_tap_hold (fst ce))) = ir) evs ->
  match first_decision (tap_hold_rule ir ki) [] (map snd evs) with
  | Some (x, rest) =>
      feed d ki (RTapHold i) (PksTapHold th_pks_new) evs = Ok (Became (NpkKey (tap_hold_key key x)) rest, [])
  | None => exists p, feed d ki (RTapHold i) (PksTapHold th_pks_new) evs = Ok (Undecided p, [])
  end.
Proof. intros d ki i key ir evs Hk Hevs. exact (tap_hold_feed d ki i key ir Hk evs Hevs [] th_pks_new eq_refl). Qed.
Print Assumptions C21_tap_hold_decision.

(** HoldOnKeyTap: press 0, press 1, release 0 (not the latest), release 1. *)
Definition tap_config : config :=
  mkConfig (cf_automation sample_config) (cf_chorded sample_config) sticky_config_default
    tapdance_config_default (mkTHConfig 8 IrHoldOnKeyTap (Some 5)) 3.
Definition tap_events : list (cctx * event cev) :=
  map (fun ie => (ctx_from_config tap_config, EvInput ie)) [Press 0; Press 1; Release 0; Release 1; Release 2].
Example C21_example :
  nth_error (kd_tap_hold sample_data) 0 = Some (mkTapHold kA kLCtrl)
  /\ Forall (fun ce => thc_interrupt (thx_config (cx_tap_hold (fst ce))) = IrHoldOnKeyTap) tap_events
  /\ feed sample_data 2 (RTapHold 0) (PksTapHold th_pks_new) tap_events
     = Ok (Became (NpkKey kLCtrl) [EvInput (Release 2)], []).
Proof. split; [reflexivity|]. split; [repeat constructor|]. vm_compute. reflexivity. Qed.

(** C22: a keymap at rest, in every configuration, with a tap-hold key of two
    keyboard keys, pressed after enough idle time.  After [n] ticks of the held
    key the report shows the hold key iff at least one tick and the timeout have
    passed; released before, it shows the tap key, for two ticks. *)
Theorem C22_tap_hold_in_time_hold :
  forall refs d pos debug ki i kt kh ot oh fuel n (k k' : ckeymap),
  nth_error refs (N.to_nat ki) = Some (RTapHold i) ->
  nth_error (kd_tap_hold d) (N.to_nat i) = Some (mkTapHold (RKeyboard kt) (RKeyboard kh)) ->
  keyboard_output (kd_keyboard d) kt = Ok ot -> keyboard_output (kd_keyboard d) kh = Ok oh ->
  let timeout := thc_timeout (thx_config (cx_tap_hold (km_ctx k))) in
  at_rest k ->
  ~ too_soon (thc_required_idle (thx_config (cx_tap_hold (km_ctx k)))) (thx_idle (cx_tap_hold (km_ctx k))) ->
  run_ops (cconf refs d pos debug) fuel (OpInput (Press ki) :: repeat OpTick n) k = Ok k' ->
  km_pressed_keys (cconf refs d pos debug) k'
  = Ok (if (0 <? n)%nat && (timeout <=? N.of_nat n * km_ms_per_tick k) then [oh] else []).
Proof. intros refs d pos debug ki i kt kh ot oh fuel n k k' H1 H2 H3 H4. exact (tap_hold_time refs d pos debug ki i kt kh H1 H2 oh H4 fuel n k k'). Qed.
Print Assumptions C22_tap_hold_in_time_hold.
Theorem C22_tap_hold_in_time_tap :
  forall refs d pos debug ki i kt kh ot oh fuel n m (k k' : ckeymap),
  nth_error refs (N.to_nat ki) = Some (RTapHold i) ->
  nth_error (kd_tap_hold d) (N.to_nat i) = Some (mkTapHold (RKeyboard kt) (RKeyboard kh)) ->
  keyboard_output (kd_keyboard d) kt = Ok ot -> keyboard_output (kd_keyboard d) kh = Ok oh ->
  at_rest k ->
  ~ too_soon (thc_required_idle (thx_config (cx_tap_hold (km_ctx k)))) (thx_idle (cx_tap_hold (km_ctx k))) ->
  (0 < n)%nat -> N.of_nat n * km_ms_per_tick k < thc_timeout (thx_config (cx_tap_hold (km_ctx k))) ->
  run_ops (cconf refs d pos debug) fuel
    (OpInput (Press ki) :: repeat OpTick n ++ OpInput (Release ki) :: repeat OpTick m) k = Ok k' ->
  km_pressed_keys (cconf refs d pos debug) k' = Ok (if (m <? 2)%nat then [ot] else []).
Proof. intros refs d pos debug ki i kt kh ot oh fuel n m k k' H1 H2 H3 H4. exact (tap_hold_release_early refs d pos debug ki i kt kh H1 H2 ot H3 fuel n m k k'). Qed.
Print Assumptions C22_tap_hold_in_time_tap.
Theorem C22_tap_hold_in_time_released :
  forall refs d pos debug ki i kt kh fuel n m (k k' : ckeymap),
  nth_error refs (N.to_nat ki) = Some (RTapHold i) ->
  nth_error (kd_tap_hold d) (N.to_nat i) = Some (mkTapHold (RKeyboard kt) (RKeyboard kh)) ->
  at_rest k ->
  ~ too_soon (thc_required_idle (thx_config (cx_tap_hold (km_ctx k)))) (thx_idle (cx_tap_hold (km_ctx k))) ->
  (0 < n)%nat -> thc_timeout (thx_config (cx_tap_hold (km_ctx k))) <= N.of_nat n * km_ms_per_tick k ->
  run_ops (cconf refs d pos debug) fuel
    (OpInput (Press ki) :: repeat OpTick n ++ OpInput (Release ki) :: repeat OpTick m) k = Ok k' ->
  km_pressed_keys (cconf refs d pos debug) k' = Ok [].
Proof. intros refs d pos debug ki i kt kh fuel n m k k' H1 H2. exact (tap_hold_release_late refs d pos debug ki i kt kh H1 H2 fuel n m k k'). Qed.
Print Assumptions C22_tap_hold_in_time_released.

(** At rest again after a key has been tapped; then the tap-hold key (timeout
    8 ms) held for 3 ticks of 3 ms, or released after 2 of them. *)
Example C22_example :
  let ops := [P 0; OpTick; Rl 0; OpSetMs 3; OpTick] in
  returns (run_ops sample 60 ops (km_new (ctx_from_config quick_config))) (fun k =>
    at_rest k /\ km_ms_per_tick k = 3
    /\ returns (run_ops sample 60 (P 2 :: ticks 3) k) (fun k' => km_pressed_keys sample k' = Ok [out 224])
    /\ returns (run_ops sample 60 (P 2 :: ticks 2) k) (fun k' => km_pressed_keys sample k' = Ok [])
    /\ returns (run_ops sample 60 (P 2 :: ticks 2 ++ Rl 2 :: ticks 1) k) (fun k' => km_pressed_keys sample k' = Ok [out 4])
    /\ returns (run_ops sample 60 (P 2 :: ticks 2 ++ Rl 2 :: ticks 2) k) (fun k' => km_pressed_keys sample k' = Ok [])
    /\ returns (run_ops sample 60 (P 2 :: ticks 4 ++ Rl 2 :: ticks 0) k) (fun k' => km_pressed_keys sample k' = Ok [])
    /\ ~ too_soon (thc_required_idle (thx_config (cx_tap_hold (km_ctx k)))) (thx_idle (cx_tap_hold (km_ctx k)))).
Proof. vm_compute. repeat split; try reflexivity. intros (r & Hr & _). discriminate. Qed.

(** C23: after any history of inputs, ticks and other basic calls, a tap-hold key
    pressed before the required idle time has passed is its tap key at once and
    starts no timer; otherwise it is undecided and starts its timer.  The context
    may have handled further events since.  The idle time is that at the start of
    the last tick ([idle_seen]). *)
Theorem C23_tap_hold_required_idle :
  forall refs d pos debug fuel cf ops k c kes ev ki i key,
  Forall basic_op ops ->
  run_ops (cconf refs d pos debug) fuel ops (km_new (ctx_from_config cf)) = Ok k ->
  cctx_handle_event (km_ctx k) ev = Ok (c, kes) ->
  nth_error (kd_tap_hold d) (N.to_nat i) = Some key ->
  (too_soon (thc_required_idle (cf_tap_hold cf)) (idle_seen ops) ->
   c_new_pressed_key d ki c (RTapHold i) = Ok (PkNewPressedKey (NpkKey (th_tap key)), []))
  /\ (~ too_soon (thc_required_idle (cf_tap_hold cf)) (idle_seen ops) ->
      c_new_pressed_key d ki c (RTapHold i)
      = Ok (PkPending (PksTapHold th_pks_new),
            [after (thc_timeout (cf_tap_hold cf)) (EvKey ki (CeTapHold TapHoldTimeout))])).
Proof.
  intros refs d pos debug fuel cf ops k c kes ev ki i key Hb H Hev Hkey.
  apply reach_idle in H as (H1 & _ & H2 & _); [|exact Hb]. apply cctx_seen in Hev as (Hc & _).
  split; intros Hs; cbn [c_new_pressed_key]; rewrite Hc.
  - rewrite (th_new_taps _ _ _ _ key); [reflexivity|now rewrite H1, H2|exact Hkey].
  - rewrite th_new_waits by (now rewrite H1, H2). unfold th_new_pending. rewrite H2. reflexivity.
Qed.
Print Assumptions C23_tap_hold_required_idle.
(** End to end: pressed too soon in a keymap at rest, the tap key is reported at
    once, nothing is undecided and nothing is scheduled. *)
Theorem C23_tap_hold_too_soon :
  forall refs d pos debug ki i kt kh ot fuel cf ops (k k' : ckeymap),
  nth_error refs (N.to_nat ki) = Some (RTapHold i) ->
  nth_error (kd_tap_hold d) (N.to_nat i) = Some (mkTapHold (RKeyboard kt) (RKeyboard kh)) ->
  keyboard_output (kd_keyboard d) kt = Ok ot ->
  Forall basic_op ops ->
  run_ops (cconf refs d pos debug) fuel ops (km_new (ctx_from_config cf)) = Ok k ->
  at_rest k -> too_soon (thc_required_idle (cf_tap_hold cf)) (idle_seen ops) ->
  km_handle_input (cconf refs d pos debug) fuel (Press ki) k = Ok k' ->
  km_pressed_keys (cconf refs d pos debug) k' = Ok [ot] /\ km_pending k' = None
  /\ km_has_scheduled_events k' = false.
Proof.
  intros refs d pos debug ki i kt kh ot fuel cf ops k k' H1 H2 H3 Hb H Hr Hs.
  apply reach_idle in H as (Hi & _ & Hc & _); [|exact Hb].
  apply (tap_hold_soon refs d pos debug ki i kt kh H1 H2 ot H3 fuel k k' Hr). now rewrite Hi, Hc.
Qed.
Print Assumptions C23_tap_hold_too_soon.

(** Required idle time 5 ms. *)
Example C23_example :
  let ops := [P 0; OpTick; Rl 0; OpTick; OpTick; OpTick] in
  Forall basic_op ops /\ too_soon (thc_required_idle (cf_tap_hold tap_config)) (idle_seen ops)
  /\ returns (run_ops sample 60 ops (km_new (ctx_from_config tap_config))) (fun k =>
       at_rest k /\ returns (km_handle_input sample 60 (Press 2) k) (fun k' => km_pressed_keys sample k' = Ok [out 4]))
  /\ ~ too_soon (thc_required_idle (cf_tap_hold tap_config)) (idle_seen (ops ++ ticks 3))
  /\ returns (run_ops sample 60 (ops ++ ticks 3) (km_new (ctx_from_config tap_config))) (fun k =>
       at_rest k /\ returns (km_handle_input sample 60 (Press 2) k) (fun k' => km_pressed_keys sample k' = Ok [])).
Proof.
  split; [repeat constructor|]. split; [exists 5; split; reflexivity|]. split; [vm_compute; repeat split; reflexivity|].
  split; [|vm_compute; repeat split; reflexivity].
  intros (r & Hr & Hl). injection Hr as <-. revert Hl. vm_compute. discriminate.
Qed.

(** C24: a tap-dance key with definitions [defs] (possibly followed by unused
    entries) that has just been pressed, fed any events: it becomes the definition
    the first deciding event selects (see [tap_dance_rule]), which exists; it
    starts a numbered timer at each re-press, and nothing else. *)
Theorem C24_tap_dance_decision :
  forall d ki i defs pad timeout evs,
  nth_error (kd_tap_dance d) (N.to_nat i) = Some (map Some defs ++ repeat None pad) ->
  (1 <= length defs <= 256)%nat ->
  Forall (fun ce => tdc_timeout (tdx_config (cx_tap_dance (fst ce))) = timeout) evs ->
  match first_decision (tap_dance_rule (length defs) ki) [] (map snd evs) with
  | Some (m, rest) =>
      exists r used, nth_error defs m = Some r /\ map snd evs = used ++ rest
      /\ feed d ki (RTapDance i) (PksTapDance td_pks_new) evs
         = Ok (Became (NpkKey r) rest, dance_timers timeout ki 0 used)
  | None =>
      exists p, feed d ki (RTapDance i) (PksTapDance td_pks_new) evs
        = Ok (Undecided p, dance_timers timeout ki 0 (map snd evs))
  end.
Proof.
  intros d ki i defs pad T evs Hk Hl Hevs.
  refine (tap_dance_feed d ki i defs pad T Hk Hl evs Hevs [] td_pks_new eq_refl _). cbn [presses]; lia.
Qed.
Print Assumptions C24_tap_dance_decision.
(** The press itself starts timer number 0. *)
Theorem C24_tap_dance_starts :
  forall d ki c i,
  c_new_pressed_key d ki c (RTapDance i)
  = Ok (PkPending (PksTapDance td_pks_new),
        [after (tdc_timeout (tdx_config (cx_tap_dance c))) (EvKey ki (CeTapDance (NextPressTimeout 0)))]).
Proof. reflexivity. Qed.
Print Assumptions C24_tap_dance_starts.

(** Three definitions; re-pressed once, the stale first timer ignored. *)
Definition dance_events : list (cctx * event cev) :=
  map (fun ev => (sample_ctx, ev))
    [EvInput (Release 17); EvInput (Press 17); EvKey 17 (CeTapDance (NextPressTimeout 0));
     EvInput (Press 3); EvKey 17 (CeTapDance (NextPressTimeout 1)); EvInput (Release 17)].
Example C24_example :
  nth_error (kd_tap_dance sample_data) 0 = Some (map Some [kA; kB; kC] ++ repeat None 0)
  /\ Forall (fun ce => tdc_timeout (tdx_config (cx_tap_dance (fst ce))) = 200) dance_events
  /\ feed sample_data 17 (RTapDance 0) (PksTapDance td_pks_new) dance_events
     = Ok (Became (NpkKey kB) [EvInput (Release 17)],
           [after 200 (EvKey 17 (CeTapDance (NextPressTimeout 1)))]).
Proof. split; [reflexivity|]. split; [repeat constructor|]. vm_compute. reflexivity. Qed.

(** Without definitions the first event of any kind the key looks at panics
    (every input is one). *)
Theorem C24_tap_dance_without_definitions_refuted :
  forall d ki c i pad ie,
  nth_error (kd_tap_dance d) (N.to_nat i) = Some (repeat None pad) ->
  c_update_pending d (PksTapDance td_pks_new) ki c (RTapDance i) (EvInput ie) = Panic.
Proof.
  intros d ki c i pad ie H. cbn [c_update_pending try_event]. unfold td_update_pending, index. rewrite H. cbn [bind].
  assert (Hc : td_count (repeat (@None ref) pad) = O).
  { unfold td_count. clear H. induction pad; [reflexivity|exact IHpad]. }
  destruct ie as [k|k|ko|ko]; cbn; try (destruct (k =? ki); cbn); now rewrite Hc.
Qed.
Print Assumptions C24_tap_dance_without_definitions_refuted.
Example C24_no_definitions_example :
  c_update_pending (mkData [] [] [] [] [] [] [] [] [[None; None]] []) (PksTapDance td_pks_new) 1 sample_ctx
    (RTapDance 0) (EvInput (Release 1)) = Panic.
Proof. reflexivity. Qed.

(** C42: the calls that advance time by themselves do what a number of ticks does:
    every key system, every state. *)
Theorem C42_input_after_time_is_ticks :
  forall R Ctx Ev PKS KS (conf : kconf R Ctx Ev PKS KS) fuel delta ev k k',
  run_op conf fuel k (OpInputAfter delta ev) = Ok k' ->
  run_ops conf fuel (repeat OpTick (ticks_of (km_ms_per_tick k) delta) ++ [OpInput ev]) k = Ok k'.
Proof. exact @input_after_ticks. Qed.
Print Assumptions C42_input_after_time_is_ticks.
Theorem C42_tick_to_next_is_ticks :
  forall R Ctx Ev PKS KS (conf : kconf R Ctx Ev PKS KS) fuel k k',
  run_op conf fuel k OpTickToNext = Ok k' ->
  exists t, next_event_time (km_sched k) = Ok t
  /\ run_ops conf fuel (match t with Some delta => repeat OpTick (ticks_of (km_ms_per_tick k) delta) | None => [] end) k
     = Ok k'.
Proof. exact @tick_to_next_ticks. Qed.
Print Assumptions C42_tick_to_next_is_ticks.
Theorem C42_every_history_is_basic :
  forall R Ctx Ev PKS KS (conf : kconf R Ctx Ev PKS KS) fuel ops k k',
  run_ops conf fuel ops k = Ok k' ->
  exists ops', Forall basic_op ops' /\ run_ops conf fuel ops' k = Ok k'.
Proof. exact @basic_history. Qed.
Print Assumptions C42_every_history_is_basic.

Example C42_example :
  returns (run_ops sample 60 [OpSetMs 3; OpInputAfter 7 (Press 2); OpTickToNext] (km_new (ctx_from_config quick_config))) (fun k =>
    run_ops sample 60 (OpSetMs 3 :: ticks 2 ++ P 2 :: ticks 2) (km_new (ctx_from_config quick_config)) = Ok k
    /\ sc_counter (km_sched k) = 12).
Proof. vm_compute. split; reflexivity. Qed.

(** C43: in every key system that emits no physical inputs (the composite system
    does not, [C15]), a key that is pressed and no release of which is waiting
    stays pressed, as the same key, in every history without its release. *)
Theorem C43_stays_pressed :
  forall R Ctx Ev PKS KS (conf : kconf R Ctx Ev PKS KS) i r fuel ops ops' ctx k k',
  emits_only (kc_sys conf) not_physical ->
  run_ops conf fuel ops (km_new ctx) = Ok k ->
  In (inl (i, r)) (pressed_shape k) ->
  ~ In (Release i) (km_inq k) ->
  (forall p, km_pending k = Some p -> ~ In (EvInput (Release i)) (pd_queued p)) ->
  (forall o, In o ops' -> o <> OpInput (Release i) /\ (forall d, o <> OpInputAfter d (Release i)) /\ o <> OpInit) ->
  run_ops conf fuel ops' k = Ok k' ->
  In (inl (i, r)) (pressed_shape k').
Proof.
  intros R Ctx Ev PKS KS conf i r fuel ops ops' ctx k k' He H1 H2 H3 H4.
  exact (stays_pressed conf He i r fuel ops ops' ctx k k' H1 H2 (conj H3 H4)).
Qed.
Print Assumptions C43_stays_pressed.
Theorem C43_composite_stays_pressed :
  forall refs d pos debug i r fuel ops ops' ctx (k k' : ckeymap),
  run_ops (cconf refs d pos debug) fuel ops (km_new ctx) = Ok k ->
  In (inl (i, r)) (pressed_shape k) ->
  ~ In (Release i) (km_inq k) ->
  (forall p, km_pending k = Some p -> ~ In (EvInput (Release i)) (pd_queued p)) ->
  (forall o, In o ops' -> o <> OpInput (Release i) /\ (forall t, o <> OpInputAfter t (Release i)) /\ o <> OpInit) ->
  run_ops (cconf refs d pos debug) fuel ops' k = Ok k' ->
  In (inl (i, r)) (pressed_shape k').
Proof.
  intros refs d pos debug i r fuel ops ops' ctx k k'. apply (C43_stays_pressed _ _ _ _ _ (cconf refs d pos debug)).
  apply composite_emits.
Qed.
Print Assumptions C43_composite_stays_pressed.

(** A held layer key, while macros, tap-dances and other keys come and go. *)
Example C43_example :
  returns (run_ops sample 60 [P 3; OpTick; P 8] (km_new sample_ctx)) (fun k =>
    In (inl (3, RLayered (LyModifier 0))) (pressed_shape k) /\ km_inq k = [] /\ km_pending k = None
    /\ returns (run_ops sample 60 [OpTick; Rl 8; P 10; OpTick; Rl 10; OpTick; P 10; OpTick; OpTick; P 4; OpTick; OpTick] k) (fun k' =>
         pressed_shape k' = [inl (3, RLayered (LyModifier 0)); inr (out 4); inl (10, kB); inl (4, kD)])).
Proof. vm_compute. split; [now left|]. repeat split; reflexivity. Qed.
