(** Theorems C52: no key stays undecided. *)
From Verif Require Import Base Output Types Scheduler Reporter Keymap SimpleKeys TapHold TapDance Sticky CapsWord Layered
  Automation Chorded Composite SpecScheduler SpecKeymap SpecDecide BaseFacts WatchFacts StampFacts KeymapInv
  KeymapDecide DecideFacts Samples.
From Verif Require SchedulerFacts.
Local Open Scope N_scope.

(** Stamping only adds a note: what a keymap does is the same with and without. *)
Theorem C52_stamps_change_nothing : forall (refs : list ref) d pos debug fuel ops c,
  run_ops (cconf refs d pos debug) fuel ops (km_new c)
  = res_map unstamp (run_ops (stamp (cconf refs d pos debug)) fuel ops (km_new (c, 0))).
Proof. intros refs d pos debug fuel ops c. exact (stamp_run (cconf refs d pos debug) fuel ops (km_new (c, 0))). Qed.
Print Assumptions C52_stamps_change_nothing.

Lemma reach_decide refs d pos debug cf m fuel ops k :
  position_ok pos -> 1 <= m -> Forall (ticks_at_most m) ops ->
  run_ops (stamp (cconf refs d pos debug)) fuel ops (km_new (ctx_from_config cf, 0)) = Ok k ->
  ok_state (c_alarms d cf) m k.
Proof.
  intros Hpos Hm Ho H.
  refine (run_state (cconf refs d pos debug) (c_alarms d cf) (c_alarming d cf refs pos debug) Hpos m fuel ops Hm Ho _ _ _ H).
  apply new_ok; [exact Hm|]. repeat split.
Qed.

(** The stamp of an undecided key is not in the future, so long as the clock is
    not reset. *)
Theorem C52_stamps_are_past : forall refs d pos debug cf fuel ops k i (p : cpks) since,
  ~ In OpInit ops ->
  run_ops (stamp (cconf refs d pos debug)) fuel ops (km_new (ctx_from_config cf, 0)) = Ok k ->
  undecided k = Some (i, (p, since)) ->
  since <= clock k.
Proof.
  intros refs d pos debug cf fuel ops k i p since Hi H Hu. apply run_not_later in H; [|exact Hi|].
  - unfold undecided in Hu. destruct (km_pending k) as [q|] eqn:Eq; [|discriminate]. injection Hu as _ Hq.
    destruct H as [_ H]. apply H in Eq. rewrite Hq in Eq. exact Eq.
  - split; [reflexivity|]. intros q Hq. discriminate.
Qed.
Print Assumptions C52_stamps_are_past.

(** A key that is undecided has been so for at most its timeout (for a tap-dance
    key: one timeout per press), apart from one tick and 32 ticks per timeout: one
    for each event that may be due before. *)
Theorem C52_decided_in_time : forall refs d pos debug cf m fuel ops k i p since,
  position_ok pos -> 1 <= m -> Forall (ticks_at_most m) ops ->
  run_ops (stamp (cconf refs d pos debug)) fuel ops (km_new (ctx_from_config cf, 0)) = Ok k ->
  undecided k = Some (i, (p, since)) ->
  clock k <= since + m + timeouts_started p * (timeout_of cf p + 32 * m).
Proof.
  intros refs d pos debug cf m fuel ops k i p since Hpos Hm Ho H Hu.
  destruct (reach_decide _ _ _ _ _ _ _ _ _ Hpos Hm Ho H) as [[_ HI] _].
  unfold undecided in Hu. destruct (km_pending k) as [q|] eqn:Eq; [|discriminate]. injection Hu as <- Hq.
  destruct (HI _ Eq) as [Ha _]. apply armed_now in Ha. rewrite Hq in Ha. cbn [fst snd c_alarms taps lim] in Ha.
  unfold clock, now, slack in *.
  assert (E : timeouts_started p - 1 + 1 = timeouts_started p) by (destruct p; cbn [timeouts_started]; unfold u8 in *; lia).
  rewrite E in Ha. exact Ha.
Qed.
Print Assumptions C52_decided_in_time.

(** So there is one bound for all keys.  A tap-dance key with [n + 1] definitions
    waits for at most [n] timeouts, one with a single definition for one. *)
Theorem C52_never_undecided_longer : forall refs d pos debug cf m (n : nat) T fuel ops k i p since,
  position_ok pos -> 1 <= m -> Forall (ticks_at_most m) ops ->
  thc_timeout (cf_tap_hold cf) <= T -> chc_timeout (cf_chorded cf) <= T -> tdc_timeout (cf_tap_dance cf) <= T ->
  (1 <= n)%nat -> Forall (fun key => td_count key <= n + 1)%nat (kd_tap_dance d) ->
  run_ops (stamp (cconf refs d pos debug)) fuel ops (km_new (ctx_from_config cf, 0)) = Ok k ->
  undecided k = Some (i, (p, since)) ->
  clock k <= since + m + N.of_nat n * (T + 32 * m).
Proof.
  intros refs d pos debug cf m n T fuel ops k i p since Hpos Hm Ho T1 T2 T3 Hn Hk H Hu.
  pose proof (C52_decided_in_time _ _ _ _ _ _ _ _ _ _ _ _ Hpos Hm Ho H Hu) as Hb.
  destruct (reach_decide _ _ _ _ _ _ _ _ _ Hpos Hm Ho H) as [[_ HI] _].
  unfold undecided in Hu. destruct (km_pending k) as [q|] eqn:Eq; [|discriminate]. injection Hu as <- Hq.
  destruct (HI _ Eq) as [_ Hf]. rewrite Hq in Hf. cbn [fst c_alarms fit] in Hf.
  assert (Ht : timeouts_started p <= N.of_nat n).
  { destruct p as [x|x|x]; cbn [timeouts_started]; try lia. unfold c_fit in Hf. destruct (pd_ref q); try contradiction.
    destruct Hf as [->|(key & Hi & Hc)]; [lia|]. apply nth_error_In in Hi. rewrite Forall_forall in Hk. apply Hk in Hi. lia. }
  assert (HT : timeout_of cf p <= T) by (destruct p; assumption).
  etransitivity; [exact Hb|]. apply N.add_le_mono_l, N.mul_le_mono; [exact Ht|lia].
Qed.
Print Assumptions C52_never_undecided_longer.

(** While a key is undecided the keymap asks to be ticked: it has scheduled
    events, and never reports that there is no next event. *)
Theorem C52_asks_to_be_ticked : forall refs d pos debug cf fuel ops k u,
  position_ok pos ->
  run_ops (cconf refs d pos debug) fuel ops (km_new (ctx_from_config cf)) = Ok k ->
  undecided k = Some u ->
  km_has_scheduled_events k = true /\ next_event_time (km_sched k) <> Ok None.
Proof.
  intros refs d pos debug cf fuel ops k u Hpos H Hu. rewrite C52_stamps_change_nothing in H.
  destruct (run_ops (stamp (cconf refs d pos debug)) fuel ops (km_new (ctx_from_config cf, 0))) as [k'| |] eqn:E; try discriminate.
  injection H as <-.
  set (m := 1 + fold_right (fun o a => match o with OpSetMs ms => ms + a | _ => a end) 0 ops).
  assert (Ho : Forall (ticks_at_most m) ops).
  { unfold m. clear. induction ops as [|o ops IH]; constructor.
    - destruct o; cbn [ticks_at_most fold_right]; try exact I. unfold u8 in *. lia.
    - eapply Forall_impl; [|exact IH]. intros o' Ho'. destruct o'; try exact I.
      cbn [ticks_at_most] in *. destruct o; cbn [fold_right]; unfold u8 in *; lia. }
  destruct (reach_decide _ _ _ _ _ _ _ _ _ Hpos (N.le_add_r _ _) Ho E) as [[_ HI] _].
  unfold undecided in Hu. cbn in Hu. destruct (km_pending k') as [q|] eqn:Eq; [|discriminate].
  destruct (HI _ Eq) as [(en & Hi & _) _]. unfold km_has_scheduled_events, next_event_time. cbn [unstamp km_sched].
  destruct (sc_scheduled (km_sched k')) as [|e0 l] eqn:El; [destruct Hi|]. split.
  - cbn. now rewrite orb_true_r.
  - destruct (sc_pending (km_sched k')); [|discriminate].
    assert (Hl : exists x, last_opt (e0 :: l) = Some x).
    { clear. revert e0. induction l as [|y l IH]; intros e0; [cbn; eauto|]. destruct (IH y) as (x & Hx). exists x. exact Hx. }
    destruct Hl as (x & ->). destruct (u32_sub _ _); discriminate.
Qed.
Print Assumptions C52_asks_to_be_ticked.

(** A tap-hold key (timeout 8) pressed after three ticks: undecided, then not. *)
Definition quick_start : keymap ref (cctx * u32) cev (cpks * u32) cks := km_new (ctx_from_config quick_config, 0).
Example C52_example :
  returns (run_ops (stamp sample) 100 (ticks 3 ++ [P 2] ++ ticks 7) quick_start) (fun k =>
    undecided k = Some (2, (PksTapHold (mkTHPks None), 2)) /\ clock k = 10
    /\ km_has_scheduled_events k = true)
  /\ returns (run_ops (stamp sample) 100 (ticks 3 ++ [P 2] ++ ticks 8) quick_start) (fun k => undecided k = None).
Proof. vm_compute. repeat split; reflexivity. Qed.
(** A tap-dance key pressed twice: its second timeout has been started. *)
Example C52_tap_dance_example :
  returns (run_ops (stamp sample) 100 ([P 17; OpTick; OpTick; Rl 17; OpTick; OpTick; P 17] ++ ticks 4) quick_start) (fun k =>
    undecided k = Some (17, (PksTapDance (mkTDPks 1), 0)) /\ clock k = 8
    /\ timeouts_started (PksTapDance (mkTDPks 1)) = 2).
Proof. vm_compute. repeat split; reflexivity. Qed.

(** Without the extra ticks the claim is false: a key is not always decided when
    its timeout has passed.  While a macro runs, its events come first: the key is
    due at 10 and still undecided then. *)
Theorem C52_decided_on_time_refuted :
  ~ (forall refs d pos debug cf m fuel ops k i p since,
  position_ok pos -> 1 <= m -> Forall (ticks_at_most m) ops ->
  run_ops (stamp (cconf refs d pos debug)) fuel ops (km_new (ctx_from_config cf, 0)) = Ok k ->
  undecided k = Some (i, (p, since)) ->
  clock k < since + m + timeouts_started p * timeout_of cf p).
Proof.
  intros H.
  assert (E : returns (run_ops (stamp sample) 100 ([P 8] ++ ticks 2 ++ [P 2] ++ ticks 8) quick_start) (fun k =>
    undecided k = Some (2, (PksTapHold (mkTHPks None), 1)) /\ clock k = 10)) by (vm_compute; repeat split; reflexivity).
  destruct (run_ops (stamp sample) 100 ([P 8] ++ ticks 2 ++ [P 2] ++ ticks 8) quick_start) as [k| |] eqn:E1; try contradiction.
  destruct E as (E2 & E3).
  assert (Ho : Forall (ticks_at_most 1) ([P 8] ++ ticks 2 ++ [P 2] ++ ticks 8)) by (repeat (constructor; [exact I|]); constructor).
  pose proof (H _ _ _ _ quick_config 1 _ _ _ _ _ _ SchedulerFacts.bs_std_position_ok ltac:(reflexivity) Ho E1 E2) as Hx.
  rewrite E3 in Hx. vm_compute in Hx. discriminate.
Qed.
Print Assumptions C52_decided_on_time_refuted.
