(** Theorems C12-C20, C39, C40 (and C06 at the level of the keymap): the keymap,
    for every key system, every configuration and every history of API calls.
    The model's recursion bound is [fuel]; C40 shows that it has no influence. *)
From Coq Require Import Permutation.
From Verif Require Import Base Output Types Scheduler Reporter Keymap SpecScheduler SpecKeymap SpecComposite
  Composite KeymapInv KeymapHist KeymapQueue KeymapCalls KeymapApi CompositeFacts SchedulerFacts Samples.
Local Open Scope N_scope.

(** C12: whenever a call returns, no immediate event is left undelivered; hence
    the keymap requires polling exactly when inputs are waiting. *)
Theorem C12_no_immediate_event_left :
  forall R Ctx Ev PKS KS (conf : kconf R Ctx Ev PKS KS) fuel ops ctx k,
  run_ops conf fuel ops (km_new ctx) = Ok k ->
  sc_pending (km_sched k) = [] /\ km_requires_polling k = nonempty (km_inq k).
Proof. exact @reach_drained. Qed.
Print Assumptions C12_no_immediate_event_left.

(** Pressing a macro key delivers four immediate events within the call: the
    request to run, the two copies of the virtual press, and the macro step. *)
Example C12_example :
  returns (run_ops sample 60 [P 8; P 0; P 1] (km_new sample_ctx)) (fun k =>
    pressed_shape k = [inl (8, RAutomation 0); inr (out 4)]
    /\ km_inq k = [Press 0; Press 1] /\ km_requires_polling k = true).
Proof. vm_compute. repeat split; reflexivity. Qed.

(** C13, the part that holds: if no event is overdue, the time until the next
    event is the distance to the earliest scheduled one, and positive. *)
Theorem C13_next_event_time_partial :
  forall R Ctx Ev PKS KS (conf : kconf R Ctx Ev PKS KS) fuel ops ctx k,
  position_ok (kc_pos conf) -> run_ops conf fuel ops (km_new ctx) = Ok k -> none_overdue k ->
  next_event_time (km_sched k) = Ok (time_until_next k)
  /\ (forall d, time_until_next k = Some d -> 0 < d).
Proof.
  intros. split; [eapply next_event_exact; eassumption|intros; eapply next_event_positive; eassumption].
Qed.
Print Assumptions C13_next_event_time_partial.

Example C13_example :
  returns (run_ops sample 60 [P 8; OpTick; OpTick; P 2; OpTick] (km_new sample_ctx)) (fun k =>
    none_overdue k /\ next_event_time (km_sched k) = Ok (Some 7)
    /\ map (fun en => en_time en) (sc_scheduled (km_sched k)) = [202; 10; 10]).
Proof.
  vm_compute. split; [|split; reflexivity].
  intros en H. repeat (destruct H as [<-|H]; [reflexivity|]). destruct H.
Qed.

(** C13 in full is refuted: a macro that taps a key schedules two events for the
    same millisecond; the time returned after the first is 0, which the C API
    takes to mean that nothing is scheduled. *)
Theorem C13_next_event_time_refuted :
  returns (run_ops sample 60 [OpInputAfter 1 (Press 8)] (km_new sample_ctx)) (fun k =>
    returns (km_tick_to_next sample 60 k) (fun '(k', t) => t = Some 0 /\ km_has_scheduled_events k' = true)).
Proof. vm_compute. split; reflexivity. Qed.
Print Assumptions C13_next_event_time_refuted.
(** With three events due at the same millisecond the subtraction of times
    underflows: a panic with overflow checks, else a time of about 49 days. *)
Theorem C13_next_event_time_panics_refuted :
  returns (run_ops sample 60 [P 8; OpTick; OpTick; P 2; OpTickToNext] (km_new (ctx_from_config quick_config))) (fun k =>
    run_op sample 60 k OpTickToNext = Panic).
Proof. vm_compute. reflexivity. Qed.
Print Assumptions C13_next_event_time_panics_refuted.

(** C14: every key system and every state: an input that arrives when 31 are
    waiting is discarded, and only the idle time changes; any other input joins
    the end of the queue, and each call takes at most one input from its front.
    (Inputs that had been queued behind an undecided key may be put in front.) *)
Theorem C14_dropped_only_when_full :
  forall R Ctx Ev PKS KS (conf : kconf R Ctx Ev PKS KS) fuel ev k,
  (31 <= length (km_inq k))%nat -> km_handle_input conf fuel ev k = Ok (set_idle k 0).
Proof. exact @full_drop. Qed.
Print Assumptions C14_dropped_only_when_full.
Theorem C14_waiting_inputs_keep_order_input :
  forall R Ctx Ev PKS KS (conf : kconf R Ctx Ev PKS KS) fuel ev k k',
  km_handle_input conf fuel ev k = Ok k' -> (length (km_inq k) < 31)%nat ->
  exists pre n, (n <= 1)%nat /\ km_inq k' = pre ++ skipn n (km_inq k ++ [ev]).
Proof. exact @waiting_order_input. Qed.
Print Assumptions C14_waiting_inputs_keep_order_input.
Theorem C14_waiting_inputs_keep_order_tick :
  forall R Ctx Ev PKS KS (conf : kconf R Ctx Ev PKS KS) fuel k k',
  km_tick conf fuel k = Ok k' ->
  exists pre n, (n <= 1)%nat /\ km_inq k' = pre ++ skipn n (km_inq k).
Proof. exact @waiting_order_tick. Qed.
Print Assumptions C14_waiting_inputs_keep_order_tick.

(** C14: watching a keymap does not change what it does. *)
Theorem C14_watching_is_faithful :
  forall R Ctx Ev PKS KS (conf : kconf R Ctx Ev PKS KS) fuel ops ctx,
  run_ops conf fuel ops (km_new ctx) = res_map forget (run_ops (watch conf) fuel ops (km_new (ctx, []))).
Proof. exact @watch_faithful. Qed.
Print Assumptions C14_watching_is_faithful.

(** C14: while no key of the keymap can be undecided, the keymap handles the
    inputs exactly as the abstract queue [queue_run]. *)
Theorem C14_queue_refinement :
  forall R Ctx Ev PKS KS (conf : kconf R Ctx Ev PKS KS) fuel ops ctx k,
  emits_only (kc_sys conf) not_physical -> never_pending conf ->
  Forall (fun o => simple_op o = true) ops ->
  run_ops (watch conf) fuel ops (km_new (ctx, [])) = Ok k ->
  km_inq k = q_waiting (queue_run ops)
  /\ filter_map physical_of (seen k) = filter physical (q_done (queue_run ops)).
Proof. exact @queue_refines. Qed.
Print Assumptions C14_queue_refinement.

(** C14: the abstract queue is first-in first-out, ... *)
Theorem C14_queue_fifo : forall ops, Forall (fun o => simple_op o = true) ops ->
  q_done (queue_run ops) ++ q_waiting (queue_run ops) = accepted ops.
Proof. intros ops H. exact (queue_fifo_from ops H queue_new). Qed.
Print Assumptions C14_queue_fifo.
(** ... takes at most one input per call, ... *)
Theorem C14_queue_one_per_call : forall q o, exists l,
  q_done (queue_step q o) = q_done q ++ l /\ (length l <= 1)%nat.
Proof. exact queue_one_per_call. Qed.
Print Assumptions C14_queue_one_per_call.
(** ... handles an input at once if nothing was handled since the last tick and
    nothing waits, ... *)
Theorem C14_queue_immediate : forall q ev,
  q_busy q = false -> q_waiting q = [] ->
  q_done (queue_step q (OpInput ev)) = q_done q ++ [ev] /\ q_waiting (queue_step q (OpInput ev)) = [].
Proof. intros [d w b] ev. cbn. intros -> ->. auto. Qed.
Print Assumptions C14_queue_immediate.
(** ... and is empty after as many ticks as inputs wait, and one more if an input
    was just handled. *)
Theorem C14_queue_drained : forall q n,
  (length (q_waiting q) + (if q_busy q then 1 else 0) <= n)%nat ->
  q_waiting (fold_left queue_step (repeat OpTick n) q) = [].
Proof. exact queue_drained. Qed.
Print Assumptions C14_queue_drained.

(** The composite key system emits no physical inputs, and a composite keymap
    built of keys that take effect at once is never undecided. *)
Theorem C14_composite_applies : forall refs d pos dbg,
  emits_only (composite d) not_physical
  /\ (Forall (plain d) refs -> never_pending (cconf refs d pos dbg)).
Proof. intros. split; [apply composite_emits|apply composite_never_pending]. Qed.
Print Assumptions C14_composite_applies.

Lemma plain_sample_plain : Forall (plain sample_data) plain_refs.
Proof.
  assert (P0 : plain sample_data (RLayered (Layered.LyLayered 0))).
  { apply plain_layered. intros k r [= <-] H. repeat (destruct H as [<-|H]; [now apply plain_basic|]). destruct H. }
  assert (P1 : plain sample_data (RLayered (Layered.LyLayered 1))).
  { apply plain_layered. intros k r [= <-] H. destruct H as [<-|[<-|[]]]; [now apply plain_basic|exact P0]. }
  unfold plain_refs. repeat (apply Forall_cons; [first [exact P0|exact P1|apply plain_basic; reflexivity]|]). apply Forall_nil.
Qed.
Example C14_example :
  Forall (plain sample_data) plain_refs /\
  returns (run_ops (watch plain_sample) 60 [P 3; P 4; Rl 3; OpTick; OpTick; P 0] (km_new (sample_ctx, []))) (fun k =>
    km_inq k = [Press 0]
    /\ filter_map physical_of (seen k) = [Press 3; Press 4; Release 3]
    /\ pressed_shape k = [inl (4, kD)]).
Proof. split; [exact plain_sample_plain|]. vm_compute. repeat split; reflexivity. Qed.

(** C15: at every point at most one entry per keymap index is pressed, and the
    undecided key is not pressed. *)
Theorem C15_pressed_once :
  forall R Ctx Ev PKS KS (conf : kconf R Ctx Ev PKS KS) fuel ops ctx k,
  run_ops conf fuel ops (km_new ctx) = Ok k ->
  NoDup (pressed_keys_of k)
  /\ (forall p, km_pending k = Some p -> ~ In (pd_index p) (pressed_keys_of k)).
Proof. exact @reach_nodup. Qed.
Print Assumptions C15_pressed_once.

Example C15_example :
  returns (run_ops sample 60 [P 0; OpTick; P 1; OpTick; P 0; OpTick; P 2; OpTick; P 2; OpTick] (km_new sample_ctx)) (fun k =>
    pressed_keys_of k = [0; 1]
    /\ match km_pending k with Some p => pd_index p = 2 /\ pd_queued p = [EvInput (Press 2)] | None => False end).
Proof. vm_compute. repeat split; reflexivity. Qed.

(** C16: after the release of key [i] was accepted, and without another press of
    it, once all inputs are processed and no key is undecided, [i] is not
    pressed.  Missing: key systems where an undecided key can become another
    undecided key. *)
Theorem C16_no_stuck_key_partial :
  forall R Ctx Ev PKS KS (conf : kconf R Ctx Ev PKS KS) fuel ops1 ops2 ctx i k1 k2,
  emits_only (kc_sys conf) not_physical -> decides_at_once (kc_sys conf) ->
  run_ops conf fuel ops1 (km_new ctx) = Ok k1 -> (length (km_inq k1) < 31)%nat ->
  run_ops conf fuel (OpInput (Release i) :: ops2) k1 = Ok k2 ->
  Forall (fun o => op_input o <> Some (Press i)) ops2 ->
  km_inq k2 = [] -> km_pending k2 = None -> ~ In i (pressed_keys_of k2).
Proof. exact @reach_not_stuck. Qed.
Print Assumptions C16_no_stuck_key_partial.
(** In particular for composite keymaps whose tap-hold, tap-dance and chorded
    keys become plain keys. *)
Theorem C16_composite_no_stuck_key_partial :
  forall refs d pos dbg fuel ops1 ops2 ctx i k1 k2,
  plain_outcomes d ->
  run_ops (cconf refs d pos dbg) fuel ops1 (km_new ctx) = Ok k1 -> (length (km_inq k1) < 31)%nat ->
  run_ops (cconf refs d pos dbg) fuel (OpInput (Release i) :: ops2) k1 = Ok k2 ->
  Forall (fun o => op_input o <> Some (Press i)) ops2 ->
  km_inq k2 = [] -> km_pending k2 = None -> ~ In i (pressed_keys_of k2).
Proof.
  intros refs d pos dbg fuel ops1 ops2 ctx i k1 k2 Hd. apply reach_not_stuck.
  - apply composite_emits. - now apply composite_decides.
Qed.
Print Assumptions C16_composite_no_stuck_key_partial.

Lemma flat_outcomes : plain_outcomes flat_data.
Proof.
  assert (B : forall r, basic r = true -> plain flat_data r) by (intros; now apply plain_basic).
  repeat split; intros; cbn in *;
    repeat match goal with
      | H : _ \/ _ |- _ => destruct H as [H|H]
      | H : False |- _ => destruct H
      | H : Some _ = Some _ |- _ => injection H as <-
      | H : _ = ?k |- _ => is_var k; subst k; cbn in *
      end; subst; try (apply B; reflexivity); try discriminate.
Qed.

(** Key 0 is tapped while the tap-hold key 2 is undecided. *)
Example C16_example :
  plain_outcomes flat_data /\
  returns (run_ops flat 60 [P 2; OpTick; P 0; OpTick] (km_new sample_ctx)) (fun k1 =>
    km_inq k1 = [] /\
    returns (run_ops flat 60 (OpInput (Release 0) :: OpTick :: Rl 2 :: ticks 4) k1) (fun k2 =>
      km_inq k2 = [] /\ km_pending k2 = None /\ pressed_keys_of k2 = [])
    /\ returns (run_ops flat 60 (Rl 2 :: ticks 4) k1) (fun k2 => pressed_keys_of k2 = [0])).
Proof. split; [exact flat_outcomes|]. vm_compute. repeat split; reflexivity. Qed.

(** C16 in full is refuted: key 10 is a tap-dance key whose first definition is
    a tap-hold key.  Key 0 is tapped while it is undecided; then key 10 is
    released.  All inputs are processed, nothing is undecided, and key 0 is
    pressed for ever: its press and release were put back in reverse order. *)
Theorem C16_no_stuck_key_refuted :
  returns (run_ops sample 60 ([OpSetMs 50; P 10; OpTick; P 0; OpTick; Rl 0] ++ ticks 4 ++ [Rl 10] ++ ticks 10) (km_new sample_ctx)) (fun k =>
    km_inq k = [] /\ km_pending k = None /\ sc_scheduled (km_sched k) = []
    /\ pressed_keys_of k = [0] /\ km_pressed_keys sample k = Ok [out 4]).
Proof. vm_compute. repeat split; reflexivity. Qed.
Print Assumptions C16_no_stuck_key_refuted.

(** C17: the state stays within its capacities. *)
Theorem C17_bounded_state :
  forall R Ctx Ev PKS KS (conf : kconf R Ctx Ev PKS KS) fuel ops ctx k,
  run_ops conf fuel ops (km_new ctx) = Ok k ->
  (length (km_pressed k) <= 16)%nat
  /\ (forall p, km_pending k = Some p -> (length (pd_queued p) <= 16)%nat)
  /\ (length (km_inq k) <= 31)%nat
  /\ (length (sc_pending (km_sched k)) <= 31)%nat
  /\ (length (sc_scheduled (km_sched k)) <= 32)%nat.
Proof. exact @reach_bounded. Qed.
Print Assumptions C17_bounded_state.

Example C17_example :
  returns (run_ops sample 60 (flat_map (fun i => [P i; OpTick]) [21; 22; 23; 24; 25; 26; 27; 28; 29; 30; 31; 32; 33; 34; 35; 36]) (km_new sample_ctx)) (fun k =>
    length (km_pressed k) = 16%nat)
  /\ returns (run_ops sample 60 (P 2 :: ticks 1 ++ flat_map (fun i => [P i; OpTick]) (repeat 0 16)) (km_new sample_ctx)) (fun k =>
       match km_pending k with Some p => length (pd_queued p) = 16%nat | None => False end)
  /\ returns (run_ops sample 60 (repeat (P 0) 40) (km_new sample_ctx)) (fun k => length (km_inq k) = 31%nat).
Proof. vm_compute. repeat split; reflexivity. Qed.

(** C17: where the firmware panics: a 17th key is held, or a 17th input arrives
    behind an undecided key. *)
Theorem C17_panics_on_17th_key :
  run_ops sample 60 (flat_map (fun i => [P i; OpTick]) [21; 22; 23; 24; 25; 26; 27; 28; 29; 30; 31; 32; 33; 34; 35; 36; 37]) (km_new sample_ctx) = Panic.
Proof. vm_compute. reflexivity. Qed.
Print Assumptions C17_panics_on_17th_key.
Theorem C17_panics_on_17th_input_behind_undecided_key :
  run_ops sample 60 (P 2 :: ticks 1 ++ flat_map (fun i => [P i; OpTick]) (repeat 0 17)) (km_new sample_ctx) = Panic.
Proof. vm_compute. reflexivity. Qed.
Print Assumptions C17_panics_on_17th_input_behind_undecided_key.

(** C18: in each call, the functions called are those registered for the
    callback events handled in the call, each once ... *)
Theorem C18_callbacks :
  forall R Ctx Ev PKS KS (conf : kconf R Ctx Ev PKS KS) fuel ops ctx k o k',
  run_ops (watch conf) fuel ops (km_new (ctx, [])) = Ok k -> run_op (watch conf) fuel k o = Ok k' ->
  exists l new, seen k' = seen k ++ l /\ km_calls k' = km_calls k ++ new
    /\ Permutation new (calls_for ops l).
Proof. exact @reach_calls_perm. Qed.
Print Assumptions C18_callbacks.
(** ... and in the order of the events, when no key can be undecided. *)
Theorem C18_callbacks_in_order :
  forall R Ctx Ev PKS KS (conf : kconf R Ctx Ev PKS KS) fuel ops ctx k o k',
  never_pending conf ->
  run_ops (watch conf) fuel ops (km_new (ctx, [])) = Ok k -> run_op (watch conf) fuel k o = Ok k' ->
  exists l, seen k' = seen k ++ l /\ km_calls k' = km_calls k ++ calls_for ops l.
Proof. exact @reach_calls_order. Qed.
Print Assumptions C18_callbacks_in_order.
(** C18: a third distinct callback does not fit. *)
Theorem C18_third_callback_panics :
  forall R Ctx Ev PKS KS (conf : kconf R Ctx Ev PKS KS) fuel ops ctx k a b c f,
  run_ops conf fuel ops (km_new ctx) = Ok k ->
  registered ops a <> None -> registered ops b <> None -> a <> b -> registered ops c = None ->
  run_op conf fuel k (OpSetCallback c f) = Panic.
Proof. exact @third_callback. Qed.
Print Assumptions C18_third_callback_panics.

Example C18_example :
  returns (run_ops (watch sample) 60 [OpSetCallback CbResetToBootloader 1; OpSetCallback (CbCustom 1 2) 2;
                                      OpSetCallback CbResetToBootloader 3; P 7; OpTick; P 11; OpTick; P 18] (km_new (sample_ctx, []))) (fun k =>
    km_calls k = [3; 2]
    /\ filter_map callback_of (seen k) = [CbResetToBootloader; CbCustom 1 2; CbReset]
    /\ map fst (km_callbacks k) = [CbResetToBootloader; CbCustom 1 2]
    /\ run_op (watch sample) 60 k (OpSetCallback CbReset 4) = Panic).
Proof. vm_compute. repeat split; reflexivity. Qed.

(** C19, the part that holds: [init] gives the state of a new keymap with the
    current key-system context and callbacks. *)
Theorem C19_init_partial :
  forall R Ctx Ev PKS KS (conf : kconf R Ctx Ev PKS KS) fuel ops ctx k,
  run_ops conf fuel ops (km_new ctx) = Ok k ->
  km_init k = set_calls (set_callbacks (km_new (km_ctx k)) (km_callbacks k)) (km_calls k).
Proof. exact @init_eq. Qed.
Print Assumptions C19_init_partial.

(** C19 in full is refuted: a toggled layer survives [init]. *)
Theorem C19_init_refuted :
  let after ops := (let! k := run_ops sample 60 ops (km_new sample_ctx) in km_pressed_keys sample k) in
  after [P 9; Rl 9; OpTick; OpTick; OpInit; P 4] = Ok [out 7]
  /\ after [P 4] = Ok [out 6].
Proof. vm_compute. split; reflexivity. Qed.
Print Assumptions C19_init_refuted.

Example C19_example :
  returns (run_ops sample 60 [P 0; OpTick; P 2; P 1; OpTick; OpSetMs 3; P 1; OpReport] (km_new sample_ctx)) (fun k =>
    pressed_keys_of k = [0] /\ km_inq k = [Press 1] /\ km_pending k <> None /\ sc_scheduled (km_sched k) <> []
    /\ km_init k = km_new (km_ctx k)).
Proof. vm_compute. repeat split; try reflexivity; discriminate. Qed.

(** C20: the clock and the idle time. *)
Theorem C20_clocks :
  forall R Ctx Ev PKS KS (conf : kconf R Ctx Ev PKS KS) fuel ops ctx k,
  Forall (fun o => timed_op o = true) ops -> run_ops conf fuel ops (km_new ctx) = Ok k ->
  mkClocks (sc_counter (km_sched k)) (km_idle k) (km_ms_per_tick k) = clocks_run ops.
Proof. intros R Ctx Ev PKS KS conf fuel ops ctx k Ho H. now apply run_ops_clock in H. Qed.
Print Assumptions C20_clocks.
Theorem C20_tick_to_next :
  forall R Ctx Ev PKS KS (conf : kconf R Ctx Ev PKS KS) fuel k k' t d,
  km_tick_to_next conf fuel k = Ok (k', t) -> next_event_time (km_sched k) = Ok (Some d) ->
  let n := (if d =? 0 then 1 else d / km_ms_per_tick k) in
  sc_counter (km_sched k') = sc_counter (km_sched k) + n * km_ms_per_tick k
  /\ km_idle k' = km_idle k + n * km_ms_per_tick k.
Proof. exact @tick_to_next_clock. Qed.
Print Assumptions C20_tick_to_next.

Example C20_example :
  returns (run_ops sample 60 ([OpSetMs 4; P 2] ++ ticks 3 ++ [OpSetMs 2; OpInputAfter 7 (Press 0); OpTick; OpTick]) (km_new sample_ctx)) (fun k =>
    sc_counter (km_sched k) = 22 /\ km_idle k = 4
    /\ returns (km_tick_to_next sample 60 k) (fun '(k', t) => sc_counter (km_sched k') = 200 /\ km_idle k' = 182)).
Proof. vm_compute. repeat split; reflexivity. Qed.

(** C39: an input other than a press that reaches an idle keymap with no
    undecided key has exactly its effect on what is pressed, followed by the
    effects of the virtual inputs emitted meanwhile (each of which the contexts
    see twice). *)
Theorem C39_release_effect :
  forall R Ctx Ev PKS KS (conf : kconf R Ctx Ev PKS KS) fuel ops ctx k k' x,
  emits_only (kc_sys conf) not_physical ->
  run_ops (watch conf) fuel ops (km_new (ctx, [])) = Ok k ->
  km_pending k = None -> km_inq k = [] -> km_delay k = 0 ->
  (forall i, x <> Press i) -> km_handle_input (watch conf) fuel x k = Ok k' ->
  exists l vs, seen k' = seen k ++ l
    /\ Forall (fun v => physical v = false) vs
    /\ filter_map input_of l = x :: flat_map (fun v => [v; v]) vs
    /\ pressed_shape k' = fold_left shape_step vs (shape_step (pressed_shape k) x).
Proof. exact @release_effect. Qed.
Print Assumptions C39_release_effect.

(** Releasing a key modified by a sticky shift releases the key and the
    virtual shift. *)
Example C39_example :
  returns (run_ops (watch sample) 60 [P 5; OpTick; Rl 5; OpTick; P 0; OpTick; P 1; OpTick] (km_new (sample_ctx, []))) (fun k =>
    km_pending k = None /\ km_inq k = [] /\ km_delay k = 0
    /\ pressed_shape k = [inr (ko_from_key_modifiers 2); inl (0, kA); inl (1, kB)]
    /\ returns (km_handle_input (watch sample) 60 (Release 1) k) (fun k' =>
         pressed_shape k' = [inl (0, kA)])).
Proof. vm_compute. repeat split; reflexivity. Qed.

(** C40: the recursion bound never changes a result once it suffices. *)
Theorem C40_fuel_independent :
  forall R Ctx Ev PKS KS (conf : kconf R Ctx Ev PKS KS) f f' ops k,
  (f <= f')%nat -> run_ops conf f ops k = NoFuel \/ run_ops conf f ops k = run_ops conf f' ops k.
Proof. intros. now apply run_le. Qed.
Print Assumptions C40_fuel_independent.
Theorem C40_one_outcome :
  forall R Ctx Ev PKS KS (conf : kconf R Ctx Ev PKS KS) f f' ops k,
  run_ops conf f ops k <> NoFuel -> run_ops conf f' ops k <> NoFuel ->
  run_ops conf f ops k = run_ops conf f' ops k.
Proof. exact @one_outcome. Qed.
Print Assumptions C40_one_outcome.

Example C40_example :
  let h := [P 8; OpTick; OpTick; P 2; OpTick; Rl 2] in
  run_ops sample 3 h (km_new sample_ctx) = NoFuel
  /\ is_ok (run_ops sample 20 h (km_new sample_ctx)) = true.
Proof. vm_compute. split; reflexivity. Qed.

(** C06 for the keymap: a report lists a prefix of the pressed outputs, and is
    not empty if something is pressed. *)
Theorem C06_keymap_report :
  forall R Ctx Ev PKS KS (conf : kconf R Ctx Ev PKS KS) fuel ops ctx k k' rep,
  run_ops conf fuel ops (km_new ctx) = Ok k -> km_report_output conf k = Ok (k', rep) ->
  exists rest pressed, km_pressed_keys conf k = Ok pressed /\ pressed = rep ++ rest
    /\ (pressed <> [] -> rep <> []).
Proof. exact @report_prefix. Qed.
Print Assumptions C06_keymap_report.

Example C06_keymap_example :
  returns (run_ops sample 60 [P 0; OpTick; P 1; OpTick; P 4; OpTick] (km_new sample_ctx)) (fun k =>
    returns (km_report_output sample k) (fun '(k1, r1) => r1 = [out 4; out 5] /\
    returns (km_report_output sample k1) (fun '(k2, r2) => r2 = [out 4; out 5; out 6]))).
Proof. vm_compute. repeat split; reflexivity. Qed.
