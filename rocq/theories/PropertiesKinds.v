(** C33, C37: the buffer of emitted events, and which kind of key sees which event. *)
From Verif Require Import BaseFacts Output Types Scheduler Keymap SimpleKeys TapHold TapDance Sticky CapsWord
  Layered Automation Chorded Composite SpecKeymap KeymapHist KeymapCtxE CtxFacts SpecKinds KindFacts Samples.
Local Open Scope N_scope.

(** ** C37 *)

(** A key event changes only the context of its own kind. *)
Theorem C37_context : forall c ki e c' kes,
  cctx_handle_event c (EvKey ki e) = Ok (c', kes) -> same_except (ev_kind e) c c'.
Proof. exact context_own. Qed.
(** Pressed keys ignore the key events of other kinds. *)
Theorem C37_pressed_keys : forall d s r c ki j e,
  ref_kind r <> ev_kind e -> c_update_state d s r c ki (EvKey j e) = Ok (s, []).
Proof. exact pressed_ignores. Qed.
(** So do undecided keys. *)
Theorem C37_pending_keys : forall d p r c ki j e,
  pending_for r p -> ref_kind r <> ev_kind e -> c_update_pending d p ki c r (EvKey j e) = Ok (p, None, []).
Proof. exact pending_ignores. Qed.
(** A key only emits key events of its own kind, tagged with its own index. *)
Theorem C37_keys_emit_own : forall d ki c r,
  (forall p kes, c_new_pressed_key d ki c r = Ok (p, kes) -> own_events (ref_kind r) ki kes)
  /\ (forall s ev s' kes, c_update_state d s r c ki ev = Ok (s', kes) -> own_events (ref_kind r) ki kes)
  /\ (forall p ev p' n kes, c_update_pending d p ki c r ev = Ok (p', n, kes) -> own_events (ref_kind r) ki kes).
Proof.
  intros d ki c r. split; [|split]; intros.
  - eapply new_pressed_own; eauto.
  - eapply update_state_own; eauto.
  - eapply update_pending_own; eauto.
Qed.
Example C37_example :
  returns (cctx_handle_event sample_ctx (EvKey 3 (CeLayered (LeActivated 2)))) (fun '(c, kes) =>
    kes = [] /\ lyx_active (cx_layered c) = [Inactive; Active StRegular; Inactive] /\ cx_sticky c = cx_sticky sample_ctx)
  /\ pending_for (RTapHold 0) (PksTapHold th_pks_new).
Proof. split; [vm_compute; repeat split; reflexivity|exact I]. Qed.

(** ** C33 *)

(** The keys' macros lie within the instruction array. *)
Definition valid_macros (d : key_data) (c : automation_config) : Prop :=
  Forall (fun k => exec_in_range c (ak_on_press k) /\ exec_in_range c (ak_while_pressed k) /\ exec_in_range c (ak_on_release k))
    (kd_automation d).

Lemma range_of_own ac k ki kes : k <> KAutomation -> own_events k ki kes -> Forall (fun se => event_in_range ac (se_event se)) kes.
Proof.
  intros Hk H. apply Forall_forall. intros se Hin. destruct (se_event se) as [ie|j e|kk] eqn:Es; cbn; auto.
  destruct e; auto. destruct (H _ _ _ Hin Es) as [X _]. cbn in X. congruence.
Qed.
Lemma range_auto_map ac kes :
  Forall (fun se => match se_event se with EvKey _ (AuEnqueue e) => exec_in_range ac e | _ => True end) kes ->
  Forall (fun se => event_in_range ac (se_event se)) (ke_map CeAutomation kes).
Proof.
  intros H. unfold ke_map. apply Forall_map. eapply Forall_impl; [|exact H]. intros [s ev] He. cbn in *.
  destruct ev as [ie|j e|kk]; cbn; auto.
Qed.
Lemma composite_macros d ac : valid_macros d ac -> emits_only (composite d) (event_in_range ac).
Proof.
  intros Hv. unfold valid_macros in Hv. rewrite Forall_forall in Hv.
  split; [|split; [|split]]; cbn; intros.
  - destruct (ref_kind r) eqn:Ek.
    2-8: eapply (range_of_own _ (ref_kind r)); [rewrite Ek; discriminate|eapply new_pressed_own; eauto].
    destruct r; try discriminate. cbn in H. inv_bind H. destruct a as [p1 k1]. inv_ok H. unfold auto_new_pressed_key in E.
    inv_bind E. inv_ok E. apply index_ok, nth_error_In in E0. apply Hv in E0 as (A & B & C).
    apply range_auto_map. constructor; [cbn; destruct (exec_is_empty _); auto|constructor].
  - destruct x as [p1 n1]. destruct (ref_kind r) eqn:Ek.
    2-8: eapply (range_of_own _ (ref_kind r)); [rewrite Ek; discriminate|eapply update_pending_own; eauto].
    destruct r; try discriminate.
  - destruct (ref_kind r) eqn:Ek.
    2-8: eapply (range_of_own _ (ref_kind r)); [rewrite Ek; discriminate|eapply update_state_own; eauto].
    destruct r; try discriminate. destruct s; cbn in H; try (inv_ok H; constructor).
    destruct (try_event _ _) as [e|]; [|inv_ok H; constructor]. inv_bind H. inv_ok H. apply range_auto_map.
    unfold auto_update_state in E. destruct e as [[k|k|ko|ko]|k [x| |]|kk]; try (inv_ok E; constructor);
      (destruct (_ =? _); [|inv_ok E; constructor]); inv_bind E; inv_ok E;
      apply index_ok, nth_error_In in E0; apply Hv in E0 as (A & B & C); (constructor; [exact C || exact B|constructor]).
  - apply cctx_inv in H as (k1 & k2 & k5 & H1 & H2 & _ & _ & H5 & _ & _ & -> & _).
    apply Forall_app. split; [|apply Forall_app; split].
    + unfold step_automation in H1. destruct (try_event as_automation ev) as [e|]; [|inv_ok H1; constructor].
      inv_bind H1. destruct a as [a ka]. inv_ok H1. apply range_auto_map.
      assert (Hh : forall c ki c' kes, execute_head c ki = Ok (c', kes) ->
        Forall (fun se => match se_event se with EvKey _ (AuEnqueue e) => exec_in_range ac e | _ => True end) kes).
      { clear. intros c ki c' kes H. unfold execute_head in H. destruct (aux_queue c) as [|h t]; [discriminate|].
        inv_bind H. assert (Ha : Forall (fun se => match se_event se with EvKey _ (AuEnqueue e) => exec_in_range ac e | _ => True end) a).
        { unfold key_events_for in E. inv_bind E. inv_ok E.
          destruct a0; repeat constructor; cbn; destruct (1 <? _); exact I. }
        destruct (exec_is_empty _); [|inv_ok H; exact Ha]. destruct (t ++ [exec_empty]) as [|h2 q]; [discriminate|].
        destruct (exec_is_empty h2); [inv_ok H; exact Ha|]. inv_bind H. inv_ok H. apply push_cap_ok in E0 as [-> _].
        apply Forall_app. split; [exact Ha|]. constructor; [exact I|constructor]. }
      destruct e as [ie|k [x0| |]|kk]; cbn in E; try (inv_ok E; constructor).
      * destruct (exec_is_empty x0); [inv_ok E; constructor|]. destruct (auto_head_empty _); [|inv_ok E; constructor]. eauto.
      * destruct (auto_head_empty _); [inv_ok E; constructor|]. eauto.
    + unfold step_caps_word in H2. destruct (try_event as_caps_word ev) as [e|]; [|injection H2 as _ <-; constructor].
      destruct (cw_handle_event _ _) as [c2 kk]. injection H2 as _ <-. apply Forall_forall. intros se Hin. unfold ke_map in Hin.
      apply in_map_iff in Hin as ([s [ie|j e1|km]] & <- & _); exact I.
    + unfold step_sticky in H5. destruct (try_event as_sticky ev) as [e|]; [|inv_ok H5; constructor].
      inv_bind H5. destruct a as [c2 kk]. inv_ok H5. apply Forall_forall. intros se Hin. unfold ke_map in Hin.
      apply in_map_iff in Hin as ([s [ie|j e1|km]] & <- & _); exact I.
Qed.

Definition buffers_fit (ac : automation_config) (c : cctx) : Prop :=
  (length (stx_active (cx_sticky c)) <= 4)%nat /\ macros_in_range (cx_automation c) /\ aux_config (cx_automation c) = ac.
Lemma buffers_fit_step ac c ev c' kes : buffers_fit ac c -> event_in_range ac ev ->
  cctx_handle_event c ev = Ok (c', kes) -> buffers_fit ac c'.
Proof.
  intros (A & B & C) He H. pose proof H as H'. apply cctx_inv in H' as (k1 & k2 & k5 & _ & _ & H3 & H4 & _).
  destruct (context_total c ev A B) as (c2 & ke2 & E2 & _ & F & G & K); [now rewrite C|eauto|eauto|].
  rewrite H in E2. injection E2 as <- <-. unfold buffers_fit. rewrite K. auto.
Qed.

(** In every reachable state, whatever event is handled, the context does not
    overflow the buffer: it panics only if chords or layers do. *)
Theorem C33_context_fits : forall refs d pos debug fuel cf ops k ev,
  valid_macros d (cf_automation cf) ->
  run_ops (cconf refs d pos debug) fuel ops (km_new (ctx_from_config cf)) = Ok k ->
  event_in_range (cf_automation cf) ev ->
  (exists h, step_chorded (cx_chorded (km_ctx k)) ev = Ok h) ->
  (exists l, step_layered (cx_layered (km_ctx k)) ev = Ok l) ->
  exists c kes, cctx_handle_event (km_ctx k) ev = Ok (c, kes) /\ (length kes <= MAX_KEY_EVENTS)%nat.
Proof.
  intros refs d pos debug fuel cf ops k ev Hv H He Hh Hl.
  assert (HJ : buffers_fit (cf_automation cf) (km_ctx k)).
  { eapply (run_ops_ctx_E (cconf refs d pos debug) (event_in_range (cf_automation cf)) (buffers_fit (cf_automation cf)));
      [now apply composite_macros|intros; exact I|intros; exact I|apply buffers_fit_step|intros c t i Hc; exact Hc| | |exact H].
    - split; [split; constructor|intros p; discriminate].
    - cbn. split; [cbn; lia|]. split; [|reflexivity]. split; [discriminate|]. cbn.
      repeat constructor; left; reflexivity. }
  destruct HJ as (A & B & C). destruct (context_total (km_ctx k) ev A B) as (c & kes & E & F & _); [now rewrite C|exact Hh|exact Hl|].
  exists c, kes. auto.
Qed.
(** Keys emit at most two events at a time. *)
Theorem C33_keys_fit : forall d ki c r,
  (forall p kes, c_new_pressed_key d ki c r = Ok (p, kes) -> (length kes <= 2)%nat)
  /\ (forall s ev s' kes, c_update_state d s r c ki ev = Ok (s', kes) -> (length kes <= 2)%nat)
  /\ (forall p ev p' n kes, c_update_pending d p ki c r ev = Ok (p', n, kes) -> (length kes <= 2)%nat).
Proof.
  intros d ki c r. split; [|split]; intros.
  - apply new_pressed_few in H. lia.
  - now apply update_state_few in H.
  - apply update_pending_few in H. lia.
Qed.
(** The bound is reached: four sticky modifiers released together, and a macro
    that taps a key as its last instruction while another one is queued. *)
Example C33_example :
  valid_macros sample_data (cf_automation sample_config)
  /\ returns (st_handle_event (mkStCtx sticky_config_default [1; 2; 4; 8] (Some 0)) (EvInput (Release 0)))
       (fun '(_, kes) => length kes = 4%nat)
  /\ returns (auto_handle_event (mkAutoCtx (cf_automation sample_config) (mkExec 1 1 :: mkExec 0 1 :: repeat exec_empty 6))
       (EvKey 0 AuNextInstruction)) (fun '(_, kes) => length kes = 4%nat).
Proof.
  split; [|vm_compute; repeat split; reflexivity].
  unfold valid_macros, exec_in_range. cbn.
  repeat match goal with
    | |- Forall _ [] => constructor
    | |- Forall _ (_ :: _) => constructor
    | |- _ /\ _ => split
    end; cbn; (left; reflexivity) || (right; lia).
Qed.

Print Assumptions C37_context.
Print Assumptions C37_pressed_keys.
Print Assumptions C37_pending_keys.
Print Assumptions C37_keys_emit_own.
Print Assumptions C33_context_fits.
Print Assumptions C33_keys_fit.
