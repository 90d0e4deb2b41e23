(** Stamping a keymap does not change its behaviour. *)
From Verif Require Import BaseFacts Output Types Scheduler Reporter Keymap SpecKeymap WatchFacts SpecDecide.
Local Open Scope N_scope.

Section Stamp.
Context {R Ctx Ev PKS KS : Type}.
Variable conf : kconf R Ctx Ev PKS KS.
Local Notation W := (stamp conf).
Local Notation wkm := (keymap R (Ctx * u32) Ev (PKS * u32) KS).
Implicit Type k : wkm.

Lemma stamp_schedule_all k kes :
  schedule_all conf (unstamp k) kes = res_map unstamp (schedule_all W k kes).
Proof. unfold schedule_all. rewrite res_map_bind. reflexivity. Qed.
Lemma stamp_update_pressed_list c ev pis : forall s,
  update_pressed_list conf (fst c) ev pis s = update_pressed_list W c ev pis s.
Proof.
  induction pis as [|[i r ks|ko] pis IH]; intros s; cbn; [reflexivity| |].
  - apply bind_ext. intros [ks' kes]. apply bind_ext. intros s1. now rewrite IH.
  - now rewrite IH.
Qed.
Lemma stamp_update_pressed k ev :
  update_pressed conf (unstamp k) ev = res_map unstamp (update_pressed W k ev).
Proof.
  unfold update_pressed. rewrite res_map_bind. cbn [unstamp km_ctx km_pressed km_sched].
  rewrite stamp_update_pressed_list. apply bind_ext. now intros [pis s].
Qed.
Lemma stamp_update_context k ev :
  update_context conf (unstamp k) ev = res_map unstamp (update_context W k ev).
Proof.
  unfold update_context. cbn. rewrite res_map_bind.
  destruct (sys_ctx_handle_event (kc_sys conf) (fst (km_ctx k)) ev) as [[c kes]| |]; cbn; [|reflexivity|reflexivity].
  rewrite <- stamp_schedule_all. reflexivity.
Qed.
Lemma stamp_requeue evs : forall i q s, requeue conf evs i q s = requeue W evs i q s.
Proof.
  induction evs as [|[ie|j ke|kk] evs IH]; intros i q s; cbn; [reflexivity| | |]; apply bind_ext; intros; apply IH.
Qed.
Lemma stamp_run_callback k ev : run_callback (unstamp k) ev = unstamp (run_callback k ev).
Proof.
  destruct ev as [ie|i ke|[cb|i ko]]; cbn; try reflexivity. now destruct (lm_get (km_callbacks k) cb).
Qed.

Section Step.
Variables (r1 : job R Ev KS -> keymap R Ctx Ev PKS KS -> res (keymap R Ctx Ev PKS KS))
          (r2 : job R Ev KS -> wkm -> res wkm).
Hypothesis Hrec : forall j k, r1 j (unstamp k) = res_map unstamp (r2 j k).

Lemma stamp_emit i r ks k : emit_resolved conf r1 i r ks (unstamp k) = res_map unstamp (emit_resolved W r2 i r ks k).
Proof.
  unfold emit_resolved. cbn. rewrite res_map_bind. apply bind_ext. intros [ko|]; [apply Hrec|reflexivity].
Qed.

Lemma stamp_step j k : step conf r1 j (unstamp k) = res_map unstamp (step W r2 j k).
Proof.
  destruct j as [|ev|ie|i r|ev|npk|ks]; cbn [step].
  - unfold step_handle_pending. cbn [unstamp km_sched].
    destruct (sched_dequeue (km_sched k)) as [s [ev|]]; [|reflexivity].
    rewrite res_map_bind. change (set_sched (unstamp k) s) with (unstamp (set_sched k s)). rewrite Hrec, bind_res_map.
    apply bind_ext. intros. apply Hrec.
  - unfold step_handle_event. cbv zeta. rewrite stamp_run_callback, Hrec, bind_res_map, res_map_bind.
    apply bind_ext. intros k1. rewrite stamp_update_pressed, bind_res_map, res_map_bind.
    apply bind_ext. intros k2. rewrite stamp_update_context, bind_res_map, res_map_bind.
    apply bind_ext. intros k3. destruct ev; [apply Hrec|reflexivity|reflexivity].
  - unfold step_process_input. rewrite res_map_bind. cbn [unstamp km_pending].
    transitivity (bind (res_map unstamp (match km_pending k with
    | Some p =>
        let! q := push_cap MAX_PRESSED_KEYS (pd_queued p) (EvInput ie) in
        r2 (JUpdatePending (EvInput ie))
            (set_pending k (Some (mkPending (pd_index p) (pd_ref p) (pd_state p) q)))
    | None =>
        let! k1 := update_pressed W k (EvInput ie) in
        let! k2 := update_context W k1 (EvInput ie) in
        step_input_dispatch W r2 ie k2
    end)) (r1 JHandlePending)).
    + f_equal. destruct (km_pending k) as [p|].
      * rewrite res_map_bind. apply bind_ext. intros q. rewrite <- Hrec. reflexivity.
      * rewrite stamp_update_pressed, bind_res_map, res_map_bind. apply bind_ext. intros k1.
        rewrite stamp_update_context, bind_res_map, res_map_bind. apply bind_ext. intros k2.
        destruct ie as [i|i|ko|ko]; cbn [step_input_dispatch].
        -- change (has_pressed (unstamp k2) i) with (has_pressed k2 i). destruct (has_pressed k2 i); [reflexivity|].
           rewrite res_map_bind. cbn [stamp kc_refs]. apply bind_ext. intros r. apply Hrec.
        -- reflexivity.
        -- rewrite res_map_bind. apply bind_ext. reflexivity.
        -- reflexivity.
    + rewrite bind_res_map. apply bind_ext. intros. apply Hrec.
  - unfold step_press_loop. cbn [stamp kc_sys stamp_sys sys_new_pressed_key unstamp km_ctx].
    destruct (sys_new_pressed_key (kc_sys conf) i (fst (km_ctx k)) r) as [[pkr kes]| |]; cbn [bind]; [|reflexivity|reflexivity].
    rewrite stamp_schedule_all, bind_res_map, res_map_bind.
    apply bind_ext. intros k1. destruct pkr as [pks|[r'|]|ks]; cbn [stamp_result].
    + reflexivity.
    + apply Hrec.
    + rewrite res_map_bind. apply bind_ext. reflexivity.
    + rewrite res_map_bind. apply bind_ext. intros p.
      change (set_pressed (unstamp k1) p) with (unstamp (set_pressed k1 p)). apply stamp_emit.
  - unfold step_update_pending. cbn [unstamp km_pending]. destruct (km_pending k) as [p|]; [|reflexivity].
    cbn [stamp kc_sys stamp_sys sys_update_pending_state unstamp km_ctx option_map unstamp_pending pd_state pd_index pd_ref pd_queued].
    destruct (sys_update_pending_state (kc_sys conf) (fst (pd_state p)) (pd_index p) (fst (km_ctx k)) (pd_ref p) ev)
      as [[[pks n] kes]| |]; cbn [bind]; [|reflexivity|reflexivity]. rewrite res_map_bind.
    change (set_pending (unstamp k) (Some (mkPending (pd_index p) (pd_ref p) pks (pd_queued p))))
      with (unstamp (set_pending k (Some (mkPending (pd_index p) (pd_ref p) (pks, snd (pd_state p)) (pd_queued p))))).
    rewrite stamp_schedule_all, bind_res_map. apply bind_ext. intros k1. destruct n; [apply Hrec|reflexivity].
  - unfold step_pending_loop. cbn [unstamp km_pending]. destruct (km_pending k) as [p|]; [|reflexivity].
    destruct npk as [r|]; [|apply Hrec].
    cbn [stamp kc_sys stamp_sys sys_new_pressed_key unstamp km_ctx option_map unstamp_pending pd_state pd_index pd_ref pd_queued].
    destruct (sys_new_pressed_key (kc_sys conf) (pd_index p) (fst (km_ctx k)) r) as [[pkr kes]| |]; cbn [bind]; [|reflexivity|reflexivity].
    rewrite res_map_bind.
    change (set_pending (unstamp k) (Some (mkPending (pd_index p) r (fst (pd_state p)) (pd_queued p))))
      with (unstamp (set_pending k (Some (mkPending (pd_index p) r (pd_state p) (pd_queued p))))).
    rewrite stamp_schedule_all, bind_res_map. apply bind_ext. intros k1. destruct pkr as [pks|[r'|]|ks]; cbn [stamp_result].
    + rewrite res_map_bind. apply bind_ext. reflexivity.
    + apply Hrec.
    + apply Hrec.
    + apply Hrec.
  - unfold step_resolve. cbn [unstamp km_pending]. destruct (km_pending k) as [p|]; [|reflexivity].
    cbv zeta. rewrite res_map_bind. cbn [unstamp set_sched set_pending set_pressed km_pressed km_sched].
    apply bind_ext. intros pr. rewrite res_map_bind. cbn [unstamp set_pressed set_sched set_pending km_sched].
    rewrite stamp_requeue. apply bind_ext. intros [q s]. rewrite res_map_bind. cbn [km_inq].
    apply bind_ext. intros q'. rewrite res_map_bind.
    match goal with |- bind (r1 JHandlePending ?a) _ = bind (r2 JHandlePending ?b) _ =>
      change a with (unstamp b) end.
    rewrite Hrec, bind_res_map. apply bind_ext. intros k3. apply stamp_emit.
Qed.
End Step.

Lemma stamp_exec fuel : forall j k, exec conf fuel j (unstamp k) = res_map unstamp (exec W fuel j k).
Proof.
  induction fuel as [|f IH]; intros j k; [reflexivity|]. cbn [exec]. apply stamp_step. exact IH.
Qed.

Lemma stamp_handle_input fuel ev k :
  km_handle_input conf fuel ev (unstamp k) = res_map unstamp (km_handle_input W fuel ev k).
Proof.
  unfold km_handle_input. cbv zeta. cbn [unstamp set_idle set_inq km_inq km_delay].
  destruct (length (km_inq k) <? INPUT_QUEUE_CAPACITY)%nat; [|reflexivity].
  destruct (km_delay k =? 0); [|reflexivity].
  destruct (km_inq k ++ [ev]) as [|ie q]; [reflexivity|]. rewrite res_map_bind.
  match goal with |- bind (exec conf fuel _ ?a) _ = bind (exec W fuel _ ?b) _ => change a with (unstamp b) end.
  rewrite stamp_exec, bind_res_map. reflexivity.
Qed.

Lemma stamp_tick fuel k : km_tick conf fuel (unstamp k) = res_map unstamp (km_tick W fuel k).
Proof.
  unfold km_tick. cbv zeta. rewrite res_map_bind.
  set (k0 := set_ctx k _).
  change (set_ctx (unstamp k) _) with (unstamp k0).
  transitivity (bind (res_map unstamp
    (match km_inq k0 with
    | ie :: q =>
        if km_delay k0 =? 0
        then let! k1 := exec W fuel (JProcessInput ie) (set_inq k0 q) in
             Ok (set_delay k1 INPUT_QUEUE_TICK_DELAY)
        else Ok k0
    | [] => Ok k0
    end)) (fun x1 => let x2 := if 0 <? km_delay x1 then set_delay x1 (km_delay x1 - 1) else x1 in
  let! s := sched_tick (km_sched x2) (km_ms_per_tick x2) in
  let! x3 := exec conf fuel JHandlePending (set_sched x2 s) in
  let! idle := u32_add (km_idle x3) (km_ms_per_tick x3) in
  Ok (set_idle x3 idle))).
  - f_equal. cbn [unstamp km_inq km_delay]. destruct (km_inq k0) as [|ie q]; [reflexivity|].
    destruct (km_delay k0 =? 0); [|reflexivity]. rewrite res_map_bind.
    change (set_inq (unstamp k0) q) with (unstamp (set_inq k0 q)). rewrite stamp_exec, bind_res_map. reflexivity.
  - rewrite bind_res_map. apply bind_ext. intros k1. cbv zeta. rewrite res_map_bind.
    cbn [unstamp km_delay].
    replace (if 0 <? km_delay k1 then set_delay (unstamp k1) (km_delay k1 - 1) else unstamp k1)
      with (unstamp (if 0 <? km_delay k1 then set_delay k1 (km_delay k1 - 1) else k1))
      by (destruct (0 <? km_delay k1); reflexivity).
    set (k2 := if 0 <? km_delay k1 then set_delay k1 (km_delay k1 - 1) else k1).
    cbn [unstamp km_sched km_ms_per_tick]. apply bind_ext. intros s. rewrite res_map_bind.
    change (set_sched (unstamp k2) s) with (unstamp (set_sched k2 s)). rewrite stamp_exec, bind_res_map.
    apply bind_ext. intros k3. rewrite res_map_bind. apply bind_ext. reflexivity.
Qed.

Lemma stamp_tick_n fuel n : forall k, tick_n conf fuel n (unstamp k) = res_map unstamp (tick_n W fuel n k).
Proof.
  induction n as [|n IH]; intros k; [reflexivity|]. cbn. rewrite stamp_tick, bind_res_map, res_map_bind.
  apply bind_ext. exact IH.
Qed.
Lemma stamp_tick_by fuel d k : km_tick_by conf fuel d (unstamp k) = res_map unstamp (km_tick_by W fuel d k).
Proof.
  unfold km_tick_by. cbn [unstamp km_ms_per_tick]. destruct (d =? 0); [apply stamp_tick|].
  destruct (km_ms_per_tick k =? 0); [reflexivity|]. apply stamp_tick_n.
Qed.
Lemma stamp_pressed_keys k : km_pressed_keys conf (unstamp k) = km_pressed_keys W k.
Proof.
  unfold km_pressed_keys. cbn [unstamp km_pressed]. induction (km_pressed k) as [|[i r ks|ko] l IH]; cbn; [reflexivity| |].
  - apply bind_ext. intros o. now rewrite IH.
  - now rewrite IH.
Qed.
Lemma stamp_op fuel o k : run_op conf fuel (unstamp k) o = res_map unstamp (run_op W fuel k o).
Proof.
  destruct o as [ev| |d ev| | | |ms|c f]; cbn [run_op].
  - apply stamp_handle_input.
  - apply stamp_tick.
  - unfold km_handle_input_after_time. rewrite stamp_tick_by. cbn [stamp kc_debug].
    destruct (km_tick_by W fuel d k) as [k1| |]; cbn; [|reflexivity|reflexivity].
    rewrite stamp_handle_input. destruct (km_handle_input W fuel ev k1) as [k2| |]; cbn; [|reflexivity|reflexivity].
    destruct (next_event_time (km_sched k2)) as [[t|]| |]; cbn; try reflexivity.
    now destruct ((t =? 0) && kc_debug conf).
  - unfold km_tick_to_next. cbn [unstamp km_sched].
    destruct (next_event_time (km_sched k)) as [[t|]| |]; cbn; try reflexivity.
    rewrite stamp_tick_by. destruct (km_tick_by W fuel t k) as [k1| |]; cbn; try reflexivity.
    now destruct (next_event_time (km_sched k1)).
  - unfold km_report_output. rewrite stamp_pressed_keys. now destruct (km_pressed_keys W k).
  - reflexivity.
  - reflexivity.
  - unfold km_set_callback. cbn [unstamp km_callbacks]. now destruct (lm_insert (km_callbacks k) c f).
Qed.
Lemma stamp_run fuel ops : forall k, run_ops conf fuel ops (unstamp k) = res_map unstamp (run_ops W fuel ops k).
Proof.
  unfold run_ops. induction ops as [|o ops IH]; intros k; [reflexivity|]. cbn.
  rewrite stamp_op, bind_res_map, res_map_bind. apply bind_ext. exact IH.
Qed.
End Stamp.
