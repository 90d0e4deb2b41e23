(** Watching a keymap does not change its behaviour. *)
From Verif Require Import BaseFacts Output Types Scheduler Reporter Keymap SpecKeymap.
Local Open Scope N_scope.

Lemma res_map_bind {A B C} (f : B -> C) (m : res A) g :
  res_map f (bind m g) = bind m (fun a => res_map f (g a)).
Proof. now destruct m. Qed.
Lemma bind_res_map {A B C} (f : A -> B) (m : res A) (g : B -> res C) :
  bind (res_map f m) g = bind m (fun a => g (f a)).
Proof. now destruct m. Qed.
Lemma bind_ext {A B} (m : res A) (f g : A -> res B) : (forall a, f a = g a) -> bind m f = bind m g.
Proof. intros H. destruct m; cbn; auto. Qed.

Section Watch.
Context {R Ctx Ev PKS KS : Type}.
Variable conf : kconf R Ctx Ev PKS KS.
Local Notation W := (watch conf).
Local Notation wkm := (keymap R (Ctx * list (event Ev)) Ev PKS KS).
Implicit Type k : wkm.

Lemma watch_schedule_all k kes :
  schedule_all conf (forget k) kes = res_map forget (schedule_all W k kes).
Proof. unfold schedule_all. rewrite res_map_bind. reflexivity. Qed.
Lemma watch_update_pressed_list c ev pis : forall s,
  update_pressed_list conf (fst c) ev pis s = update_pressed_list W c ev pis s.
Proof.
  induction pis as [|[i r ks|ko] pis IH]; intros s; cbn; [reflexivity| |].
  - apply bind_ext. intros [ks' kes]. apply bind_ext. intros s1. now rewrite IH.
  - now rewrite IH.
Qed.
Lemma watch_update_pressed k ev :
  update_pressed conf (forget k) ev = res_map forget (update_pressed W k ev).
Proof.
  unfold update_pressed. rewrite res_map_bind. cbn [forget km_ctx km_pressed km_sched].
  rewrite watch_update_pressed_list. apply bind_ext. now intros [pis s].
Qed.
Lemma watch_update_context k ev :
  update_context conf (forget k) ev = res_map forget (update_context W k ev).
Proof.
  unfold update_context. cbn. rewrite res_map_bind.
  destruct (sys_ctx_handle_event (kc_sys conf) (fst (km_ctx k)) ev) as [[c kes]| |]; cbn; [|reflexivity|reflexivity].
  rewrite <- watch_schedule_all. reflexivity.
Qed.
Lemma watch_requeue evs : forall i q s, requeue conf evs i q s = requeue W evs i q s.
Proof.
  induction evs as [|[ie|j ke|kk] evs IH]; intros i q s; cbn; [reflexivity| | |]; apply bind_ext; intros; apply IH.
Qed.
Lemma watch_run_callback k ev : run_callback (forget k) ev = forget (run_callback k ev).
Proof.
  destruct ev as [ie|i ke|[cb|i ko]]; cbn; try reflexivity. now destruct (lm_get (km_callbacks k) cb).
Qed.

Section Step.
Variables (r1 : job R Ev KS -> keymap R Ctx Ev PKS KS -> res (keymap R Ctx Ev PKS KS))
          (r2 : job R Ev KS -> wkm -> res wkm).
Hypothesis Hrec : forall j k, r1 j (forget k) = res_map forget (r2 j k).

Lemma watch_emit i r ks k : emit_resolved conf r1 i r ks (forget k) = res_map forget (emit_resolved W r2 i r ks k).
Proof.
  unfold emit_resolved. cbn. rewrite res_map_bind. apply bind_ext. intros [ko|]; [apply Hrec|reflexivity].
Qed.

Lemma watch_step j k : step conf r1 j (forget k) = res_map forget (step W r2 j k).
Proof.
  destruct j as [|ev|ie|i r|ev|npk|ks]; cbn [step].
  - unfold step_handle_pending. cbn [forget km_sched].
    destruct (sched_dequeue (km_sched k)) as [s [ev|]]; [|reflexivity].
    rewrite res_map_bind. change (set_sched (forget k) s) with (forget (set_sched k s)). rewrite Hrec, bind_res_map.
    apply bind_ext. intros. apply Hrec.
  - unfold step_handle_event. cbv zeta. rewrite watch_run_callback, Hrec, bind_res_map, res_map_bind.
    apply bind_ext. intros k1. rewrite watch_update_pressed, bind_res_map, res_map_bind.
    apply bind_ext. intros k2. rewrite watch_update_context, bind_res_map, res_map_bind.
    apply bind_ext. intros k3. destruct ev; [apply Hrec|reflexivity|reflexivity].
  - unfold step_process_input. rewrite res_map_bind. cbn [forget km_pending].
    transitivity (bind (res_map forget (match km_pending k with
    | Some p =>
        let! q := push_cap MAX_PRESSED_KEYS (pd_queued p) (EvInput ie) in
        r2 (JUpdatePending (EvInput ie))
            (set_pending k (Some (mkPending (pd_index p) (pd_ref p) (pd_state p) q)))
    | None =>
        let! k1 := update_pressed W k (EvInput ie) in
        let! k2 := update_context W k1 (EvInput ie) in
        step_input_dispatch W r2 ie k2
    end)) (r1 JHandlePending)).
    + f_equal. destruct (km_pending k) as [p|].
      * rewrite res_map_bind. apply bind_ext. intros q. rewrite <- Hrec. reflexivity.
      * rewrite watch_update_pressed, bind_res_map, res_map_bind. apply bind_ext. intros k1.
        rewrite watch_update_context, bind_res_map, res_map_bind. apply bind_ext. intros k2.
        destruct ie as [i|i|ko|ko]; cbn [step_input_dispatch].
        -- change (has_pressed (forget k2) i) with (has_pressed k2 i). destruct (has_pressed k2 i); [reflexivity|].
           rewrite res_map_bind. cbn [watch kc_refs]. apply bind_ext. intros r. apply Hrec.
        -- reflexivity.
        -- rewrite res_map_bind. apply bind_ext. reflexivity.
        -- reflexivity.
    + rewrite bind_res_map. apply bind_ext. intros. apply Hrec.
  - unfold step_press_loop. rewrite res_map_bind. cbn [watch kc_sys watch_sys sys_new_pressed_key forget km_ctx].
    apply bind_ext. intros [pkr kes]. rewrite watch_schedule_all, bind_res_map, res_map_bind.
    apply bind_ext. intros k1. destruct pkr as [pks|[r'|]|ks].
    + reflexivity.
    + apply Hrec.
    + rewrite res_map_bind. apply bind_ext. reflexivity.
    + rewrite res_map_bind. apply bind_ext. intros p.
      change (set_pressed (forget k1) p) with (forget (set_pressed k1 p)). apply watch_emit.
  - unfold step_update_pending. cbn [forget km_pending]. destruct (km_pending k) as [p|]; [|reflexivity].
    rewrite res_map_bind. cbn [watch kc_sys watch_sys sys_update_pending_state forget km_ctx].
    apply bind_ext. intros [[pks n] kes]. rewrite res_map_bind.
    change (set_pending (forget k) ?x) with (forget (set_pending k x)).
    rewrite watch_schedule_all, bind_res_map. apply bind_ext. intros k1. destruct n; [apply Hrec|reflexivity].
  - unfold step_pending_loop. cbn [forget km_pending]. destruct (km_pending k) as [p|]; [|reflexivity].
    destruct npk as [r|]; [|apply Hrec].
    rewrite res_map_bind. cbn [watch kc_sys watch_sys sys_new_pressed_key forget km_ctx].
    apply bind_ext. intros [pkr kes]. rewrite res_map_bind.
    change (set_pending (forget k) ?x) with (forget (set_pending k x)).
    rewrite watch_schedule_all, bind_res_map. apply bind_ext. intros k1. destruct pkr as [pks|[r'|]|ks].
    + rewrite res_map_bind. apply bind_ext. reflexivity.
    + apply Hrec.
    + apply Hrec.
    + apply Hrec.
  - unfold step_resolve. cbn [forget km_pending]. destruct (km_pending k) as [p|]; [|reflexivity].
    cbv zeta. rewrite res_map_bind. cbn [forget set_sched set_pending set_pressed km_pressed km_sched].
    apply bind_ext. intros pr. rewrite res_map_bind. cbn [forget set_pressed set_sched set_pending km_sched].
    rewrite watch_requeue. apply bind_ext. intros [q s]. rewrite res_map_bind. cbn [km_inq].
    apply bind_ext. intros q'. rewrite res_map_bind.
    match goal with |- bind (r1 JHandlePending ?a) _ = bind (r2 JHandlePending ?b) _ =>
      change a with (forget b) end.
    rewrite Hrec, bind_res_map. apply bind_ext. intros k3. apply watch_emit.
Qed.
End Step.

Lemma watch_exec fuel : forall j k, exec conf fuel j (forget k) = res_map forget (exec W fuel j k).
Proof.
  induction fuel as [|f IH]; intros j k; [reflexivity|]. cbn [exec]. apply watch_step. exact IH.
Qed.

Lemma watch_handle_input fuel ev k :
  km_handle_input conf fuel ev (forget k) = res_map forget (km_handle_input W fuel ev k).
Proof.
  unfold km_handle_input. cbv zeta. cbn [forget set_idle set_inq km_inq km_delay].
  destruct (length (km_inq k) <? INPUT_QUEUE_CAPACITY)%nat; [|reflexivity].
  destruct (km_delay k =? 0); [|reflexivity].
  destruct (km_inq k ++ [ev]) as [|ie q]; [reflexivity|]. rewrite res_map_bind.
  match goal with |- bind (exec conf fuel _ ?a) _ = bind (exec W fuel _ ?b) _ => change a with (forget b) end.
  rewrite watch_exec, bind_res_map. reflexivity.
Qed.

Lemma watch_tick fuel k : km_tick conf fuel (forget k) = res_map forget (km_tick W fuel k).
Proof.
  unfold km_tick. cbv zeta. rewrite res_map_bind.
  set (k0 := set_ctx k _).
  change (set_ctx (forget k) _) with (forget k0).
  transitivity (bind (res_map forget
    (match km_inq k0 with
    | ie :: q =>
        if km_delay k0 =? 0
        then let! k1 := exec W fuel (JProcessInput ie) (set_inq k0 q) in
             Ok (set_delay k1 INPUT_QUEUE_TICK_DELAY)
        else Ok k0
    | [] => Ok k0
    end)) (fun x1 => let x2 := if 0 <? km_delay x1 then set_delay x1 (km_delay x1 - 1) else x1 in
  let! s := sched_tick (km_sched x2) (km_ms_per_tick x2) in
  let! x3 := exec conf fuel JHandlePending (set_sched x2 s) in
  let! idle := u32_add (km_idle x3) (km_ms_per_tick x3) in
  Ok (set_idle x3 idle))).
  - f_equal. cbn [forget km_inq km_delay]. destruct (km_inq k0) as [|ie q]; [reflexivity|].
    destruct (km_delay k0 =? 0); [|reflexivity]. rewrite res_map_bind.
    change (set_inq (forget k0) q) with (forget (set_inq k0 q)). rewrite watch_exec, bind_res_map. reflexivity.
  - rewrite bind_res_map. apply bind_ext. intros k1. cbv zeta. rewrite res_map_bind.
    cbn [forget km_delay].
    replace (if 0 <? km_delay k1 then set_delay (forget k1) (km_delay k1 - 1) else forget k1)
      with (forget (if 0 <? km_delay k1 then set_delay k1 (km_delay k1 - 1) else k1))
      by (destruct (0 <? km_delay k1); reflexivity).
    set (k2 := if 0 <? km_delay k1 then set_delay k1 (km_delay k1 - 1) else k1).
    cbn [forget km_sched km_ms_per_tick]. apply bind_ext. intros s. rewrite res_map_bind.
    change (set_sched (forget k2) s) with (forget (set_sched k2 s)). rewrite watch_exec, bind_res_map.
    apply bind_ext. intros k3. rewrite res_map_bind. apply bind_ext. reflexivity.
Qed.

Lemma watch_tick_n fuel n : forall k, tick_n conf fuel n (forget k) = res_map forget (tick_n W fuel n k).
Proof.
  induction n as [|n IH]; intros k; [reflexivity|]. cbn. rewrite watch_tick, bind_res_map, res_map_bind.
  apply bind_ext. exact IH.
Qed.
Lemma watch_tick_by fuel d k : km_tick_by conf fuel d (forget k) = res_map forget (km_tick_by W fuel d k).
Proof.
  unfold km_tick_by. cbn [forget km_ms_per_tick]. destruct (d =? 0); [apply watch_tick|].
  destruct (km_ms_per_tick k =? 0); [reflexivity|]. apply watch_tick_n.
Qed.
Lemma watch_pressed_keys k : km_pressed_keys conf (forget k) = km_pressed_keys W k.
Proof.
  unfold km_pressed_keys. cbn [forget km_pressed]. induction (km_pressed k) as [|[i r ks|ko] l IH]; cbn; [reflexivity| |].
  - apply bind_ext. intros o. now rewrite IH.
  - now rewrite IH.
Qed.
Lemma watch_op fuel o k : run_op conf fuel (forget k) o = res_map forget (run_op W fuel k o).
Proof.
  destruct o as [ev| |d ev| | | |ms|c f]; cbn [run_op].
  - apply watch_handle_input.
  - apply watch_tick.
  - unfold km_handle_input_after_time. rewrite watch_tick_by. cbn [watch kc_debug].
    destruct (km_tick_by W fuel d k) as [k1| |]; cbn; [|reflexivity|reflexivity].
    rewrite watch_handle_input. destruct (km_handle_input W fuel ev k1) as [k2| |]; cbn; [|reflexivity|reflexivity].
    destruct (next_event_time (km_sched k2)) as [[t|]| |]; cbn; try reflexivity.
    now destruct ((t =? 0) && kc_debug conf).
  - unfold km_tick_to_next. cbn [forget km_sched].
    destruct (next_event_time (km_sched k)) as [[t|]| |]; cbn; try reflexivity.
    rewrite watch_tick_by. destruct (km_tick_by W fuel t k) as [k1| |]; cbn; try reflexivity.
    now destruct (next_event_time (km_sched k1)).
  - unfold km_report_output. rewrite watch_pressed_keys. now destruct (km_pressed_keys W k).
  - reflexivity.
  - reflexivity.
  - unfold km_set_callback. cbn [forget km_callbacks]. now destruct (lm_insert (km_callbacks k) c f).
Qed.
Lemma watch_run fuel ops : forall k, run_ops conf fuel ops (forget k) = res_map forget (run_ops W fuel ops k).
Proof.
  unfold run_ops. induction ops as [|o ops IH]; intros k; [reflexivity|]. cbn.
  rewrite watch_op, bind_res_map, res_map_bind. apply bind_ext. exact IH.
Qed.
End Watch.
