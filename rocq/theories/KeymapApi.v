(** The keymap lemmas lifted to histories of API calls. *)
From Coq Require Import Sorted Permutation.
From Verif Require Import BaseFacts Output Types Scheduler Reporter Keymap SpecScheduler SchedulerFacts
  SpecReporter ReporterFacts KeymapFacts SpecKeymap KeymapInv WatchFacts KeymapHist KeymapQueue KeymapStuck
  KeymapCalls KeymapRelease.
Local Open Scope N_scope.

Section Api.
Context {R Ctx Ev PKS KS : Type}.
Variable conf : kconf R Ctx Ev PKS KS.
Local Notation km := (keymap R Ctx Ev PKS KS).
Local Notation sys := (kc_sys conf).
Local Notation pos := (kc_pos conf).
Implicit Types (k : km).

(** C12 *)
Lemma reach_drained fuel ops ctx k : run_ops conf fuel ops (km_new ctx) = Ok k ->
  sc_pending (km_sched k) = [] /\ km_requires_polling k = nonempty (km_inq k).
Proof.
  intros H. assert (Hd : sc_pending (km_sched k) = []) by (eapply run_ops_drained; [|exact H]; reflexivity).
  split; [exact Hd|]. unfold km_requires_polling. rewrite Hd. reflexivity.
Qed.

(** C13 *)
Lemma fold_min_le (l : list N) : forall x, fold_left N.min l x <= x /\ Forall (fun y => fold_left N.min l x <= y) l.
Proof.
  induction l as [|y l IH]; intros x; cbn; [split; [lia|constructor]|]. destruct (IH (N.min x y)) as [A B].
  split; [lia|]. constructor; [lia|exact B].
Qed.
Lemma fold_min_in (l : list N) : forall x, In (fold_left N.min l x) (x :: l).
Proof.
  induction l as [|y l IH]; intros x; cbn; [auto|]. destruct (IH (N.min x y)) as [H|H]; [|auto].
  rewrite <- H. destruct (N.min_spec x y) as [[_ ->]|[_ ->]]; auto.
Qed.
Lemma minimum_spec l m : In m l -> (forall x, In x l -> m <= x) -> minimum l = Some m.
Proof.
  destruct l as [|x l]; [intros []|]. intros Hm Hle. cbn. f_equal. apply N.le_antisymm.
  - destruct (fold_min_le l x) as [A B]. rewrite Forall_forall in B. destruct Hm as [->|Hm]; auto.
  - apply Hle, fold_min_in.
Qed.
Lemma sorted_last_min (s : scheduler Ev) en : sorted_sched s -> last_opt (sc_scheduled s) = Some en ->
  forall en', In en' (sc_scheduled s) -> en_time en <= en_time en'.
Proof.
  intros Hs Hl en' Hin. apply last_opt_spec in Hl. unfold sorted_sched in Hs.
  remember (removelast (sc_scheduled s)) as a. clear Heqa. rewrite Hl in Hin. rewrite Hl, map_app in Hs. clear Hl.
  apply in_app_or in Hin as [Hin|[->|[]]]; [|lia].
  induction a as [|x a IH]; [destruct Hin|]. cbn in Hs. inversion Hs; subst. destruct Hin as [->|Hin]; [|auto].
  rewrite Forall_forall in H2. apply H2. apply in_or_app. right. now left.
Qed.

Lemma next_event_exact fuel ops ctx k : position_ok pos -> run_ops conf fuel ops (km_new ctx) = Ok k ->
  none_overdue k -> next_event_time (km_sched k) = Ok (time_until_next k).
Proof.
  intros Hp H Hn. destruct (reach_drained _ _ _ _ H) as [Hd _].
  apply run_ops_sorted in H; [|exact Hp|constructor].
  unfold next_event_time. rewrite Hd. destruct (last_opt (sc_scheduled (km_sched k))) as [en|] eqn:El.
  - pose proof (sorted_last_min _ _ H El) as Hmin.
    assert (Hin : In en (sc_scheduled (km_sched k))).
    { rewrite (last_opt_spec _ _ El). apply in_or_app. right. now left. }
    pose proof (Hn _ Hin) as Hlt. unfold u32_sub.
    destruct (N.leb_spec (sc_counter (km_sched k)) (en_time en)); [|lia]. cbn. f_equal. symmetry.
    apply minimum_spec.
    + apply in_map_iff. eauto.
    + intros x Hx. apply in_map_iff in Hx as (en' & <- & Hen'). specialize (Hmin _ Hen'). lia.
  - apply last_opt_none in El. unfold time_until_next. rewrite El. reflexivity.
Qed.
Lemma next_event_positive k d : none_overdue k -> time_until_next k = Some d -> 0 < d.
Proof.
  unfold time_until_next. intros Hn H.
  assert (Hin : In d (map (fun en => en_time en - sc_counter (km_sched k)) (sc_scheduled (km_sched k)))).
  { destruct (map _ _) as [|x l]; [discriminate|]. cbn in H. injection H as <-. apply fold_min_in. }
  apply in_map_iff in Hin as (en & <- & Hin). specialize (Hn _ Hin). lia.
Qed.

(** C15 *)
Lemma pressed_keys_of_eq k : pressed_keys_of k = pressed_indices (km_pressed k).
Proof. unfold pressed_keys_of. induction (km_pressed k) as [|[i r ks|ko] l IH]; cbn; rewrite ?IH; reflexivity. Qed.
Lemma reach_nodup fuel ops ctx k : run_ops conf fuel ops (km_new ctx) = Ok k ->
  NoDup (pressed_keys_of k)
  /\ (forall p, km_pending k = Some p -> ~ In (pd_index p) (pressed_keys_of k)).
Proof.
  intros H. rewrite pressed_keys_of_eq. eapply run_ops_inv15 in H; [exact H|]. split; cbn; [constructor|discriminate].
Qed.

(** C16 *)
Lemma reach_not_stuck fuel ops1 ops2 ctx i k1 k2 :
  emits_only sys not_physical -> decides_at_once sys ->
  run_ops conf fuel ops1 (km_new ctx) = Ok k1 -> (length (km_inq k1) < 31)%nat ->
  run_ops conf fuel (OpInput (Release i) :: ops2) k1 = Ok k2 ->
  Forall (fun o => op_input o <> Some (Press i)) ops2 ->
  km_inq k2 = [] -> km_pending k2 = None -> ~ In i (pressed_keys_of k2).
Proof.
  intros He (safe & S1 & S2 & S3) H1 Hl H2 Hops Hq Hn. rewrite pressed_keys_of_eq.
  assert (A : inv15 k1) by (eapply run_ops_inv15; [|exact H1]; split; cbn; [constructor|discriminate]).
  assert (B : ie not_physical k1).
  { eapply run_ops_ie; [exact He|intros; exact I| |exact H1]. split; [split; constructor|intros p; discriminate]. }
  unfold run_ops in H2. cbn [fold_res run_op] in H2. inv_bind H2.
  assert (G : good i a) by (eapply (good_handle_input conf i He safe S1 S2 S3); [exact A|exact B|right; split; [reflexivity|exact Hl]|exact E]).
  assert (G2 : good i k2) by (eapply (good_run conf i He safe S1 S2 S3); [exact Hops|exact G|exact H2]).
  destruct G2 as (_ & _ & K). unfold ks, kq, held in K. rewrite Hn, Hq in K. cbn in K. destruct K as [K|(_ & K & _)]; [discriminate|exact K].
Qed.

(** C17 *)
Lemma reach_bounded fuel ops ctx k : run_ops conf fuel ops (km_new ctx) = Ok k -> inv17 k.
Proof.
  apply run_ops_inv17. repeat split; cbn; try (unfold MAX_PRESSED_KEYS, INPUT_QUEUE_CAPACITY, PENDING_CAPACITY, MAX_SCHEDULED_EVENTS; lia).
  discriminate.
Qed.

(** C19 *)
Lemma init_eq fuel ops ctx k : run_ops conf fuel ops (km_new ctx) = Ok k ->
  km_init k = set_calls (set_callbacks (km_new (km_ctx k)) (km_callbacks k)) (km_calls k).
Proof.
  intros H. destruct (reach_drained _ _ _ _ H) as [Hd _]. unfold km_init, sched_init. rewrite Hd. reflexivity.
Qed.

(** C20 *)
Lemma tick_to_next_clock fuel k k' t d : km_tick_to_next conf fuel k = Ok (k', t) ->
  next_event_time (km_sched k) = Ok (Some d) ->
  let n := (if d =? 0 then 1 else d / km_ms_per_tick k) in
  sc_counter (km_sched k') = sc_counter (km_sched k) + n * km_ms_per_tick k
  /\ km_idle k' = km_idle k + n * km_ms_per_tick k.
Proof.
  intros H Hd n. unfold km_tick_to_next in H. rewrite Hd in H. cbn in H. inv_bind H. inv_bind H. inv_ok H.
  apply tick_by_clock in E as A. split; [apply A|]. unfold km_tick_by in E. subst n. destruct (d =? 0).
  - apply frame_of_tick in E as (_ & _ & E). now rewrite N.mul_1_l.
  - destruct (km_ms_per_tick k =? 0); [discriminate|]. apply tick_n_clock in E as (_ & _ & E).
    now rewrite N2Nat.id in E.
Qed.

(** C06 *)
Lemma reach_rep fuel ops ctx k : run_ops conf fuel ops (km_new ctx) = Ok k -> exists rops, km_rep k = rep_run rops.
Proof.
  intros H.
  assert (Hr : forall ops k k', (exists rops, km_rep k = rep_run rops) -> run_ops conf fuel ops k = Ok k' -> exists rops, km_rep k' = rep_run rops).
  { clear. intros ops. unfold run_ops. induction ops as [|o ops IH]; intros k k' Hk H; cbn in H; [inv_ok H; exact Hk|].
    inv_bind H. eapply IH; [|exact H]. clear H IH.
    assert (Ht : forall a a', km_tick conf fuel a = Ok a' -> km_rep a' = km_rep a).
    { intros a0 a' H. apply tick_cases in H as (k1 & k2 & s & k3 & H1 & E2 & Hs & H3 & _ & ->).
      apply exec_frame in H3 as (_ & _ & _ & F & _). cbn in *. rewrite F. subst k2.
      assert (X : km_rep k1 = km_rep a0).
      { destruct H1 as [(x & q & k1' & _ & _ & H1 & ->)|(-> & _)]; [|reflexivity]. now apply exec_frame in H1 as (_ & _ & _ & F1 & _). }
      destruct (0 <? km_delay k1); exact X. }
    assert (Hi : forall ev a a', km_handle_input conf fuel ev a = Ok a' -> km_rep a' = km_rep a).
    { intros ev a0 a' H. apply handle_input_cases in H as [(_ & _ & ie & q & k2 & _ & H & ->)|[(_ & _ & ->)|(_ & ->)]]; try reflexivity.
      now apply exec_frame in H as (_ & _ & _ & F1 & _). }
    assert (Htb : forall d a a', km_tick_by conf fuel d a = Ok a' -> km_rep a' = km_rep a).
    { intros d a0 a' H. eapply (tick_by_inv conf (fun x => km_rep x = km_rep a0)) in H; [exact H| |reflexivity].
      intros x y Hx Hy. apply Ht in Hy. congruence. }
    destruct o as [ev| |d ev| | | |ms|c f]; cbn [run_op] in E.
    - apply Hi in E. now rewrite E.
    - apply Ht in E. now rewrite E.
    - inv_bind E. destruct a0 as [k2 t]. inv_ok E. unfold km_handle_input_after_time in E0.
      inv_bind E0. inv_bind E0. inv_bind E0.
      assert (a = a1) as -> by (destruct a2 as [t'|]; [destruct (_ && _)|]; now inversion E0).
      apply Hi in E1. apply Htb in E. rewrite E1, E. exact Hk.
    - inv_bind E. destruct a0 as [k2 t]. inv_ok E. unfold km_tick_to_next in E0. inv_bind E0. destruct a0 as [d|].
      + inv_bind E0. inv_bind E0. inv_ok E0. apply Htb in E1. rewrite E1. exact Hk.
      + inv_ok E0. exact Hk.
    - inv_bind E. destruct a0 as [k2 t]. inv_ok E. unfold km_report_output in E0. inv_bind E0. inv_ok E0.
      destruct Hk as [rops Hk]. exists (rops ++ [RoUpdate a0; RoSent]). cbn. unfold rep_run. rewrite fold_left_app, Hk. reflexivity.
    - inv_ok E. exists []. reflexivity.
    - inv_ok E. exact Hk.
    - unfold km_set_callback in E. inv_bind E. inv_ok E. exact Hk. }
  eapply Hr; [|exact H]. exists []. reflexivity.
Qed.
Lemma report_prefix fuel ops ctx k k' out : run_ops conf fuel ops (km_new ctx) = Ok k ->
  km_report_output conf k = Ok (k', out) ->
  exists rest pressed, km_pressed_keys conf k = Ok pressed /\ pressed = out ++ rest /\ (pressed <> [] -> out <> []).
Proof.
  intros H Hr. apply reach_rep in H as [rops Hrep]. unfold km_report_output in Hr. inv_bind Hr. inv_ok Hr.
  destruct (reporter_prefix (rops ++ [RoUpdate a; RoSent])) as (rest & H1 & H2).
  assert (Ep : pressed_after (rops ++ [RoUpdate a; RoSent]) = a) by (unfold pressed_after; rewrite fold_left_app; reflexivity).
  assert (Er : rep_run (rops ++ [RoUpdate a; RoSent]) = rep_sent (rep_update (km_rep k) a))
    by (unfold rep_run; rewrite fold_left_app; cbn; rewrite Hrep; reflexivity).
  rewrite Ep, Er in *. exists rest, a. auto.
Qed.

(** C14: any system keeps waiting inputs in order. *)
Lemma waiting_order_input fuel ev k k' : km_handle_input conf fuel ev k = Ok k' -> (length (km_inq k) < 31)%nat ->
  exists pre n, (n <= 1)%nat /\ km_inq k' = pre ++ skipn n (km_inq k ++ [ev]).
Proof.
  intros H Hl. apply handle_input_cases in H as [(_ & _ & ie & q & k2 & Eq & H & ->)|[(_ & _ & ->)|(Hf & ->)]].
  - apply exec_inq in H as (pre & Hpre). exists pre, 1%nat. split; [lia|]. rewrite Eq. exact Hpre.
  - exists [], 0%nat. split; [lia|]. reflexivity.
  - unfold INPUT_QUEUE_CAPACITY in Hf. lia.
Qed.
Lemma waiting_order_tick fuel k k' : km_tick conf fuel k = Ok k' ->
  exists pre n, (n <= 1)%nat /\ km_inq k' = pre ++ skipn n (km_inq k).
Proof.
  intros H. apply tick_cases in H as (k1 & k2 & s & k3 & H1 & E2 & Hs & H3 & _ & ->).
  apply exec_inq in H3 as (pre3 & H3). cbn in H3 |- *.
  assert (Eq2 : km_inq k2 = km_inq k1) by (subst k2; destruct (0 <? km_delay k1); reflexivity).
  rewrite H3, Eq2. destruct H1 as [(x & q & k1' & Eq & _ & H1 & ->)|(-> & _)].
  - apply exec_inq in H1 as (pre1 & H1). exists (pre3 ++ pre1), 1%nat. split; [lia|]. cbn in *. rewrite Eq, H1.
    cbn. now rewrite app_assoc.
  - exists pre3, 0%nat. split; [lia|]. reflexivity.
Qed.
Lemma full_drop fuel ev k : (31 <= length (km_inq k))%nat -> km_handle_input conf fuel ev k = Ok (set_idle k 0).
Proof.
  intros H. unfold km_handle_input. cbn [km_inq set_idle]. unfold INPUT_QUEUE_CAPACITY.
  change (32 - 1)%nat with 31%nat. destruct (Nat.ltb_spec (length (km_inq k)) 31); [lia|reflexivity].
Qed.
Lemma one_outcome f f' ops k : run_ops conf f ops k <> NoFuel -> run_ops conf f' ops k <> NoFuel ->
  run_ops conf f ops k = run_ops conf f' ops k.
Proof.
  intros H H'. destruct (Nat.le_ge_cases f f') as [L|L].
  - destruct (run_le conf f f' ops L k) as [E|E]; [contradiction|exact E].
  - destruct (run_le conf f' f ops L k) as [E|E]; [contradiction|now symmetry].
Qed.
(** C18 *)
Lemma callbacks_registered fuel ops : forall k k',
  run_ops conf fuel ops k = Ok k' ->
  forall cb, lm_get (km_callbacks k') cb = registered_in ops cb (lm_get (km_callbacks k) cb).
Proof.
  assert (Ht : forall a a', km_tick conf fuel a = Ok a' -> km_callbacks a' = km_callbacks a).
  { intros a0 a' H. apply tick_cases in H as (k1 & k2 & s & k3 & H1 & E2 & Hs & H3 & _ & ->).
    apply exec_frame in H3 as (_ & _ & _ & _ & _ & F & _). cbn in *. rewrite F. subst k2.
    assert (X : km_callbacks k1 = km_callbacks a0).
    { destruct H1 as [(x & q & k1' & _ & _ & H1 & ->)|(-> & _)]; [|reflexivity]. now apply exec_frame in H1 as (_ & _ & _ & _ & _ & F1 & _). }
    destruct (0 <? km_delay k1); exact X. }
  assert (Hi : forall ev a a', km_handle_input conf fuel ev a = Ok a' -> km_callbacks a' = km_callbacks a).
  { intros ev a0 a' H. apply handle_input_cases in H as [(_ & _ & ie & q & k2 & _ & H & ->)|[(_ & _ & ->)|(_ & ->)]]; try reflexivity.
    now apply exec_frame in H as (_ & _ & _ & _ & _ & F1 & _). }
  assert (Htb : forall d a a', km_tick_by conf fuel d a = Ok a' -> km_callbacks a' = km_callbacks a).
  { intros d a0 a' H. eapply (tick_by_inv conf (fun x => km_callbacks x = km_callbacks a0)) in H; [exact H| |reflexivity].
    intros x y Hx Hy. apply Ht in Hy. congruence. }
  unfold run_ops. induction ops as [|o ops IH]; intros k k' H cb; cbn in H; [inv_ok H; reflexivity|].
  inv_bind H. specialize (IH _ _ H cb). rewrite IH. clear IH H.
  destruct o as [ev| |d ev| | | |ms|c f]; cbn [run_op registered_in] in *.
  - apply Hi in E. now rewrite E.
  - apply Ht in E. now rewrite E.
  - inv_bind E. destruct a0 as [k2 t]. inv_ok E. unfold km_handle_input_after_time in E0.
    inv_bind E0. inv_bind E0. inv_bind E0.
    assert (a = a1) as -> by (destruct a2 as [t'|]; [destruct (_ && _)|]; now inversion E0).
    apply Hi in E1. apply Htb in E. rewrite E1, E. reflexivity.
  - inv_bind E. destruct a0 as [k2 t]. inv_ok E. unfold km_tick_to_next in E0. inv_bind E0. destruct a0 as [d|].
    + inv_bind E0. inv_bind E0. inv_ok E0. apply Htb in E1. rewrite E1. reflexivity.
    + inv_ok E0. reflexivity.
  - inv_bind E. destruct a0 as [k2 t]. inv_ok E. unfold km_report_output in E0. inv_bind E0. inv_ok E0. reflexivity.
  - inv_ok E. reflexivity.
  - inv_ok E. reflexivity.
  - unfold km_set_callback in E. inv_bind E. inv_ok E. cbn. f_equal. now rewrite (lm_insert_spec _ _ _ _ E0).
Qed.

Lemma third_callback fuel ops ctx k a b c f :
  run_ops conf fuel ops (km_new ctx) = Ok k ->
  registered ops a <> None -> registered ops b <> None -> a <> b -> registered ops c = None ->
  run_op conf fuel k (OpSetCallback c f) = Panic.
Proof.
  intros H Ha Hb Hab Hc. unfold registered in *.
  rewrite <- (callbacks_registered _ _ _ _ H a : _ = registered_in ops a None) in Ha.
  rewrite <- (callbacks_registered _ _ _ _ H b : _ = registered_in ops b None) in Hb.
  rewrite <- (callbacks_registered _ _ _ _ H c : _ = registered_in ops c None) in Hc.
  cbn [run_op]. unfold km_set_callback.
  rewrite (proj2 (lm_insert_panic (km_callbacks k) c f)); [reflexivity|]. split; [exact Hc|].
  destruct (km_callbacks k) as [|[a' f1] [|[b' f2] l]]; cbn in *; [congruence| |lia].
  destruct (callback_eqb a' a) eqn:E1; [|congruence]. destruct (callback_eqb a' b) eqn:E2; [|congruence].
  apply callback_eqb_spec in E1, E2. congruence.
Qed.
End Api.

(** Watched keymaps. *)
Section WatchedApi.
Context {R Ctx Ev PKS KS : Type}.
Variable conf : kconf R Ctx Ev PKS KS.
Local Notation W := (watch conf).
Local Notation wkm := (keymap R (Ctx * list (event Ev)) Ev PKS KS).
Local Notation sys := (kc_sys conf).
Implicit Types (k : wkm).

Lemma watch_faithful fuel ops ctx :
  run_ops conf fuel ops (km_new ctx) = res_map forget (run_ops W fuel ops (km_new (ctx, []))).
Proof. rewrite <- watch_run. reflexivity. Qed.

(** C14 *)
Lemma queue_refines fuel ops ctx k : emits_only sys not_physical -> never_pending conf ->
  Forall (fun o => simple_op o = true) ops -> run_ops W fuel ops (km_new (ctx, [])) = Ok k ->
  km_inq k = q_waiting (queue_run ops)
  /\ filter_map physical_of (seen k) = filter physical (q_done (queue_run ops)).
Proof.
  intros He (plain & Hp) Hops H.
  assert (S0 : sim (km_new (ctx, []) : wkm) queue_new).
  { repeat split; cbn; try constructor. intros p; discriminate. }
  eapply (sim_ops conf plain He Hp fuel ops Hops) in H; [|exact S0]. destruct H as (_ & _ & Hw & _ & Hph). auto.
Qed.

Section Strict.
Variable strict : bool.
Variable plain : R -> Prop.
Hypothesis Hnp : strict = true -> all_plain conf plain.
Definition step18 k k' : Prop :=
  exists l new, seen k' = seen k ++ l /\ km_calls k' = km_calls k ++ new
    /\ same strict new (called (km_callbacks k) l).

Lemma tick_n_calls fuel n : forall k k', nopend strict k -> tick_n W fuel n k = Ok k' -> q18 strict k k' /\ nopend strict k'.
Proof.
  induction n as [|n IH]; intros k k' Hn H; cbn in H; [inv_ok H; split; [now apply q18_refl|exact Hn]|].
  inv_bind H. eapply (tick_calls conf strict plain Hnp) in E as [Q1 N1]; [|exact Hn].
  eapply IH in H as [Q2 N2]; [|exact N1]. split; [eapply q18_trans; eauto|exact N2].
Qed.
Lemma tick_by_calls fuel d k k' : nopend strict k -> km_tick_by W fuel d k = Ok k' -> q18 strict k k' /\ nopend strict k'.
Proof.
  intros Hn. unfold km_tick_by. destruct (d =? 0); [intros H; eapply (tick_calls conf strict plain Hnp); eauto|].
  destruct (_ =? 0); [discriminate|]. now apply tick_n_calls.
Qed.
Lemma op_calls fuel o k k' : nopend strict k -> run_op W fuel k o = Ok k' -> step18 k k' /\ nopend strict k'.
Proof.
  intros Hn H.
  assert (Hq : forall a b, q18 strict a b -> step18 a b).
  { intros a b (l & new & A & B & _ & D). exists l, new. auto. }
  assert (Hs : forall a b, seen b = seen a -> km_calls b = km_calls a -> step18 a b).
  { intros a b A B. exists [], []. rewrite !app_nil_r. repeat split; auto. apply same_refl. }
  destruct o as [ev| |d ev| | | |ms|c f]; cbn [run_op] in H.
  - eapply (handle_input_calls conf strict plain Hnp) in H as [Q N]; [|exact Hn]. auto.
  - eapply (tick_calls conf strict plain Hnp) in H as [Q N]; [|exact Hn]. auto.
  - inv_bind H. destruct a as [k2 t]. inv_ok H. unfold km_handle_input_after_time in E.
    inv_bind E. inv_bind E. inv_bind E.
    assert (k' = a0) as -> by (destruct a1 as [t'|]; [destruct (_ && _)|]; now inversion E).
    apply tick_by_calls in E0 as [Q1 N1]; [|exact Hn].
    eapply (handle_input_calls conf strict plain Hnp) in E1 as [Q2 N2]; [|exact N1].
    split; [apply Hq; eapply q18_trans; eauto|exact N2].
  - inv_bind H. destruct a as [k2 t]. inv_ok H. unfold km_tick_to_next in E. inv_bind E. destruct a as [d|].
    + inv_bind E. inv_bind E. inv_ok E. apply tick_by_calls in E1 as [Q1 N1]; [|exact Hn]. auto.
    + inv_ok E. split; [now apply Hs|exact Hn].
  - inv_bind H. destruct a as [k2 t]. inv_ok H. unfold km_report_output in E. inv_bind E. inv_ok E. split; [now apply Hs|exact Hn].
  - inv_ok H. split; [now apply Hs|intros _; reflexivity].
  - inv_ok H. split; [now apply Hs|exact Hn].
  - unfold km_set_callback in H. inv_bind H. inv_ok H. split; [now apply Hs|exact Hn].
Qed.
Lemma run_nopend fuel ops : forall k k', nopend strict k -> run_ops W fuel ops k = Ok k' -> nopend strict k'.
Proof.
  unfold run_ops. induction ops as [|o ops IH]; intros k k' Hn H; cbn in H; [inv_ok H; exact Hn|].
  inv_bind H. eapply IH; [|exact H]. eapply op_calls in E as [_ N]; eauto.
Qed.
Lemma reach_calls fuel ops ctx k o k' :
  run_ops W fuel ops (km_new (ctx, [])) = Ok k -> run_op W fuel k o = Ok k' ->
  exists l new, seen k' = seen k ++ l /\ km_calls k' = km_calls k ++ new /\ same strict new (calls_for ops l).
Proof.
  intros H Ho. assert (Hn : nopend strict k) by (eapply run_nopend; [|exact H]; intros _; reflexivity).
  destruct (op_calls _ _ _ _ Hn Ho) as [(l & new & A & B & C) _]. exists l, new. repeat split; auto.
  unfold calls_for, called in *. replace (filter_map (registered ops) (filter_map callback_of l))
    with (filter_map (lm_get (km_callbacks k)) (filter_map callback_of l)); [exact C|].
  generalize (filter_map (@callback_of Ev) l). clear - H. intros cs. induction cs as [|cb cs IH]; cbn; [reflexivity|].
  rewrite IH. now rewrite (callbacks_registered W _ _ _ _ H cb).
Qed.
End Strict.

Lemma reach_calls_perm fuel ops ctx k o k' :
  run_ops W fuel ops (km_new (ctx, [])) = Ok k -> run_op W fuel k o = Ok k' ->
  exists l new, seen k' = seen k ++ l /\ km_calls k' = km_calls k ++ new /\ Permutation new (calls_for ops l).
Proof.
  intros H Ho. destruct (reach_calls false (fun _ => True) ltac:(discriminate) _ _ _ _ _ _ H Ho) as (l & new & A & B & C).
  exists l, new. auto.
Qed.
Lemma reach_calls_order fuel ops ctx k o k' : never_pending conf ->
  run_ops W fuel ops (km_new (ctx, [])) = Ok k -> run_op W fuel k o = Ok k' ->
  exists l, seen k' = seen k ++ l /\ km_calls k' = km_calls k ++ calls_for ops l.
Proof.
  intros (plain & Hp) H Ho. destruct (reach_calls true plain (fun _ => Hp) _ _ _ _ _ _ H Ho) as (l & new & A & B & C).
  exists l. cbn in C. rewrite <- C. auto.
Qed.

(** C39 *)
Lemma release_effect fuel ops ctx k k' x :
  emits_only sys not_physical ->
  run_ops W fuel ops (km_new (ctx, [])) = Ok k ->
  km_pending k = None -> km_inq k = [] -> km_delay k = 0 ->
  (forall i, x <> Press i) -> km_handle_input W fuel x k = Ok k' ->
  exists l vs, seen k' = seen k ++ l
    /\ Forall (fun v => physical v = false) vs
    /\ filter_map input_of l = x :: flat_map (fun v => [v; v]) vs
    /\ pressed_shape k' = fold_left shape_step vs (shape_step (pressed_shape k) x).
Proof.
  intros He H Hn Hq Hd Hx Hi.
  assert (B : ie not_physical k).
  { eapply run_ops_ie; [apply watch_emits, He|intros; exact I| |exact H]. split; [split; constructor|intros p; discriminate]. }
  destruct (handle_input_calls conf false (fun _ => True) ltac:(discriminate) _ _ _ _ ltac:(discriminate) Hi) as [(l & new & Hl & _) _].
  apply handle_input_cases in Hi as [(_ & _ & y & q & k2 & Eq & Hi & ->)|[(_ & Hz & ->)|(Hf & ->)]].
  - rewrite Hq in Eq. cbn in Eq. injection Eq as <- <-.
    apply exec_shape in Hi as (N & vs & V & I1 & S1); [|exact He|].
    + exists l, vs. split; [exact Hl|]. split; [exact V|]. split; [|exact S1].
      unfold ins in I1. change (seen (set_inq (set_idle k 0) [])) with (seen k) in I1.
      change (seen (set_delay k2 INPUT_QUEUE_TICK_DELAY)) with (seen k2) in Hl. rewrite Hl, filter_map_app in I1.
      now apply app_inv_head in I1.
    + split; [exact Hn|]. split; [split; [exact B|exact I]|]. destruct x as [i| | |]; auto. now apply (Hx i).
  - congruence.
  - unfold INPUT_QUEUE_CAPACITY in Hf. rewrite Hq in Hf. cbn in Hf. lia.
Qed.
End WatchedApi.

Lemma queue_drained q n : (length (q_waiting q) + (if q_busy q then 1 else 0) <= n)%nat ->
  q_waiting (fold_left queue_step (repeat OpTick n) q) = [].
Proof.
  intros H. destruct (q_busy q) eqn:E.
  - destruct n as [|n]; [lia|]. cbn [repeat fold_left queue_step]. apply queue_drain; [|reflexivity].
    unfold queue_tick. rewrite E. cbn. lia.
  - apply queue_drain; [lia|exact E].
Qed.
