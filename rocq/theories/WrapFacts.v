(** Proofs about the wrappers around the keymap (C47). *)
From Verif Require Import Base BaseFacts Output OutputFacts Types Scheduler Reporter DistinctReports
  ReporterFacts SpecReporter Keymap Observed Firmware SpecWrap.
Local Open Scope N_scope.

Lemma bind_assoc {A B C} (m : res A) (f : A -> res B) (g : B -> res C) :
  bind (bind m f) g = bind m (fun a => bind (f a) g).
Proof. destruct m; reflexivity. Qed.
Lemma bind_ext {A B} (m : res A) (f g : A -> res B) : (forall a, f a = g a) -> bind m f = bind m g.
Proof. intros H. destruct m; cbn; auto. Qed.
Section Wrap.
Context {R Ctx Ev PKS KS : Type}.
Variable conf : kconf R Ctx Ev PKS KS.
Local Notation km := (keymap R Ctx Ev PKS KS).

(** *** The reporter is not looked at *)
Definition rmap (r : reporter) (m : res km) : res km :=
  match m with Ok k => Ok (set_rep k r) | Panic => Panic | NoFuel => NoFuel end.
Lemma rmap_bind {A} r (m : res A) f : rmap r (bind m f) = bind m (fun a => rmap r (f a)).
Proof. destruct m; reflexivity. Qed.
Lemma bind_rmap {A} r (m : res km) (f : km -> res A) : bind (rmap r m) f = bind m (fun k => f (set_rep k r)).
Proof. destruct m; reflexivity. Qed.

Ltac rr := repeat first
  [ progress rewrite ?rmap_bind, ?bind_rmap, ?bind_assoc
  | apply bind_ext; intros ?
  | match goal with |- context[let '(_, _) := ?x in _] => destruct x end
  | match goal with |- context[match ?x with _ => _ end] => destruct x eqn:? end
  | progress cbn [rmap]
  | reflexivity ].

Lemma schedule_all_rep r (k : km) kes : schedule_all conf (set_rep k r) kes = rmap r (schedule_all conf k kes).
Proof. unfold schedule_all. cbn. rr. Qed.
Lemma update_pressed_rep r (k : km) ev : update_pressed conf (set_rep k r) ev = rmap r (update_pressed conf k ev).
Proof. unfold update_pressed. cbn. rr. Qed.
Lemma update_context_rep r (k : km) ev : update_context conf (set_rep k r) ev = rmap r (update_context conf k ev).
Proof. unfold update_context. cbn. rr. exact (schedule_all_rep r (set_ctx k c) k0). Qed.
Lemma run_callback_rep r (k : km) ev : run_callback (set_rep k r) ev = set_rep (run_callback k ev) r.
Proof. unfold run_callback. destruct ev as [| |km]; try reflexivity. destruct km; try reflexivity. cbn. now destruct (lm_get _ _). Qed.

Lemma sr_ctx (k : km) r x : set_ctx (set_rep k r) x = set_rep (set_ctx k x) r. Proof. reflexivity. Qed.
Lemma sr_pressed (k : km) r x : set_pressed (set_rep k r) x = set_rep (set_pressed k x) r. Proof. reflexivity. Qed.
Lemma sr_sched (k : km) r x : set_sched (set_rep k r) x = set_rep (set_sched k x) r. Proof. reflexivity. Qed.
Lemma sr_idle (k : km) r x : set_idle (set_rep k r) x = set_rep (set_idle k x) r. Proof. reflexivity. Qed.
Lemma sr_pending (k : km) r x : set_pending (set_rep k r) x = set_rep (set_pending k x) r. Proof. reflexivity. Qed.
Lemma sr_inq (k : km) r x : set_inq (set_rep k r) x = set_rep (set_inq k x) r. Proof. reflexivity. Qed.
Lemma sr_delay (k : km) r x : set_delay (set_rep k r) x = set_rep (set_delay k x) r. Proof. reflexivity. Qed.
Ltac sr := rewrite ?sr_ctx, ?sr_pressed, ?sr_sched, ?sr_idle, ?sr_pending, ?sr_inq, ?sr_delay.
Ltac proj := cbn [set_rep km_ctx km_pressed km_sched km_ms_per_tick km_idle km_pending km_inq km_delay km_callbacks km_calls].

Section Step.
Variable rec : job R Ev KS -> km -> res km.
Hypothesis Hrec : forall j k r, rec j (set_rep k r) = rmap r (rec j k).

Lemma emit_rep i rf ks (k : km) r : emit_resolved conf rec i rf ks (set_rep k r) = rmap r (emit_resolved conf rec i rf ks k).
Proof. unfold emit_resolved. rr. apply Hrec. Qed.

Lemma dispatch_rep ie (k : km) r : step_input_dispatch conf rec ie (set_rep k r) = rmap r (step_input_dispatch conf rec ie k).
Proof.
  destruct ie as [i|i|ko|ko]; cbn [step_input_dispatch]; sr; proj; [|reflexivity|rr|reflexivity].
  change (has_pressed (set_rep k r) i) with (has_pressed k i). destruct (has_pressed k i); [reflexivity|].
  rr. apply Hrec.
Qed.

Lemma step_rep j (k : km) r : step conf rec j (set_rep k r) = rmap r (step conf rec j k).
Proof.
  destruct j; cbn [step].
  - unfold step_handle_pending. proj. destruct (sched_dequeue _) as [s [ev|]]; [|reflexivity].
    sr. rewrite Hrec. rr. apply Hrec.
  - unfold step_handle_event. rewrite run_callback_rep, Hrec, bind_rmap, rmap_bind. apply bind_ext; intros k1.
    rewrite update_pressed_rep, bind_rmap, rmap_bind. apply bind_ext; intros k2.
    rewrite update_context_rep, bind_rmap, rmap_bind. apply bind_ext; intros k3.
    destruct ev; try reflexivity; apply Hrec.
  - unfold step_process_input. proj. rewrite rmap_bind.
    match goal with |- bind ?a _ = bind ?b _ => replace a with (rmap r b) end;
      [rewrite bind_rmap; apply bind_ext; intros k1; apply Hrec|].
    destruct (km_pending k) as [p|].
    + rewrite rmap_bind. apply bind_ext; intros q. sr. symmetry. apply Hrec.
    + rewrite update_pressed_rep, bind_rmap, rmap_bind. apply bind_ext; intros k2.
      rewrite update_context_rep, bind_rmap, rmap_bind. apply bind_ext; intros k3. symmetry. apply dispatch_rep.
  - unfold step_press_loop. proj. rewrite rmap_bind. apply bind_ext; intros [pkr kes].
    rewrite schedule_all_rep, bind_rmap, rmap_bind. apply bind_ext; intros k1.
    destruct pkr as [pks|[r'|]|ks]; proj; sr; try reflexivity; try apply Hrec.
    + rewrite rmap_bind. apply bind_ext; intros p. reflexivity.
    + rewrite rmap_bind. apply bind_ext; intros p. sr. apply emit_rep.
  - unfold step_update_pending. proj. destruct (km_pending k) as [p|]; [|reflexivity].
    rewrite rmap_bind. apply bind_ext; intros [[pks' m] kes]. sr.
    rewrite schedule_all_rep, bind_rmap, rmap_bind. apply bind_ext; intros k1.
    destruct m; [apply Hrec|reflexivity].
  - unfold step_pending_loop. proj. destruct (km_pending k) as [p|]; [|reflexivity].
    destruct n as [rf|]; [|apply Hrec].
    rewrite rmap_bind. apply bind_ext; intros [pkr kes]. sr.
    rewrite schedule_all_rep, bind_rmap, rmap_bind. apply bind_ext; intros k1.
    destruct pkr as [pks|[r'|]|ks]; try apply Hrec. proj.
    rewrite rmap_bind. apply bind_ext; intros q. reflexivity.
  - unfold step_resolve. proj. destruct (km_pending k) as [p|]; [|reflexivity]. cbv zeta. sr.
    change (km_pressed (set_rep ?a r)) with (km_pressed a).
    rewrite rmap_bind. apply bind_ext; intros pr. sr.
    change (km_sched (set_rep ?a r)) with (km_sched a). change (km_inq (set_rep ?a r)) with (km_inq a).
    rewrite rmap_bind. apply bind_ext; intros [q s].
    rewrite rmap_bind. apply bind_ext; intros q'. sr.
    rewrite Hrec, bind_rmap, rmap_bind. apply bind_ext; intros k3. apply emit_rep.
Qed.
End Step.

Lemma exec_rep fuel j (k : km) r : exec conf fuel j (set_rep k r) = rmap r (exec conf fuel j k).
Proof.
  revert j k r. induction fuel as [|f IH]; intros; [reflexivity|]. apply step_rep. exact IH.
Qed.

Lemma handle_input_rep fuel ev (k : km) r : km_handle_input conf fuel ev (set_rep k r) = rmap r (km_handle_input conf fuel ev k).
Proof.
  unfold km_handle_input. proj. sr. proj. cbn [set_idle set_inq km_inq km_delay].
  destruct (_ <? _)%nat; [|reflexivity]. destruct (km_delay k =? 0); [|reflexivity].
  destruct (km_inq k ++ [ev]) as [|ie q]; [reflexivity|]. sr. rewrite exec_rep, bind_rmap, rmap_bind. reflexivity.
Qed.
Lemma tick_rep fuel (k : km) r : km_tick conf fuel (set_rep k r) = rmap r (km_tick conf fuel k).
Proof.
  unfold km_tick. proj. sr. proj. rewrite rmap_bind. cbn [set_ctx km_inq km_delay].
  assert (H : forall m : res km, forall f g : km -> res km, (forall a, f (set_rep a r) = rmap r (g a)) ->
            bind (rmap r m) f = bind m (fun a => rmap r (g a))).
  { intros m f g Hf. rewrite bind_rmap. apply bind_ext. exact Hf. }
  match goal with |- bind ?a _ = bind ?b _ => replace a with (rmap r b) end.
  - apply H. intros k1. cbv zeta. proj.
    replace (if 0 <? km_delay k1 then set_delay (set_rep k1 r) (km_delay k1 - 1) else set_rep k1 r)
      with (set_rep (if 0 <? km_delay k1 then set_delay k1 (km_delay k1 - 1) else k1) r)
      by (destruct (0 <? _); reflexivity).
    set (k2 := if 0 <? km_delay k1 then _ else k1). proj.
    rewrite rmap_bind. apply bind_ext. intros s. sr. rewrite exec_rep, bind_rmap, rmap_bind.
    apply bind_ext. intros k3. proj. rewrite rmap_bind. reflexivity.
  - destruct (km_inq k) as [|ie q]; [reflexivity|]. destruct (km_delay k =? 0); [|reflexivity].
    sr. rewrite exec_rep, bind_rmap, rmap_bind. reflexivity.
Qed.
Lemma tick_n_rep fuel n (k : km) r : tick_n conf fuel n (set_rep k r) = rmap r (tick_n conf fuel n k).
Proof.
  revert k. induction n as [|n IH]; intros k; cbn [tick_n]; [reflexivity|].
  rewrite tick_rep, bind_rmap, rmap_bind. apply bind_ext. exact IH.
Qed.
Lemma tick_by_rep fuel d (k : km) r : km_tick_by conf fuel d (set_rep k r) = rmap r (km_tick_by conf fuel d k).
Proof.
  unfold km_tick_by. proj. destruct (d =? 0); [apply tick_rep|]. destruct (km_ms_per_tick k =? 0); [reflexivity|].
  apply tick_n_rep.
Qed.

(** *** Every operation except [report_output] and [init] leaves the reporter
    alone and does not look at it. *)
Lemma run_op_rep fuel (k : km) r o : is_report o = false -> o <> OpInit ->
  run_op conf fuel (set_rep k r) o = rmap r (run_op conf fuel k o).
Proof.
  intros Hr Hi. destruct o; try discriminate; try congruence; cbn [run_op].
  - apply handle_input_rep.
  - apply tick_rep.
  - unfold km_handle_input_after_time. rewrite !bind_assoc, tick_by_rep, bind_rmap, rmap_bind. apply bind_ext; intros k1.
    rewrite !bind_assoc, handle_input_rep, bind_rmap, rmap_bind. apply bind_ext; intros k2. proj.
    rewrite !bind_assoc, rmap_bind. apply bind_ext; intros [t|]; [|reflexivity].
    destruct (_ && _); reflexivity.
  - unfold km_tick_to_next. proj. rewrite !bind_assoc, rmap_bind. apply bind_ext; intros [t|]; [|reflexivity].
    rewrite !bind_assoc, tick_by_rep, bind_rmap, rmap_bind. apply bind_ext; intros k1. proj.
    rewrite !bind_assoc, rmap_bind. reflexivity.
  - reflexivity.
  - unfold km_set_callback. proj. rewrite rmap_bind. reflexivity.
Qed.

Lemma set_rep_id (k : km) : set_rep k (km_rep k) = k. Proof. now destruct k. Qed.
Lemma set_rep_twice (k : km) r r' : set_rep (set_rep k r) r' = set_rep k r'. Proof. reflexivity. Qed.
Lemma sbr_sym (k k' : km) : same_but_reporter k k' -> same_but_reporter k' k.
Proof. unfold same_but_reporter. congruence. Qed.
Lemma sbr_eq (k k' : km) : same_but_reporter k k' -> k' = set_rep k (km_rep k').
Proof. intros H. destruct k, k'. unfold same_but_reporter, set_rep in *. cbn in *. inversion H; subst. reflexivity. Qed.

Lemma run_op_sbr fuel (k k' k1 : km) o : is_report o = false -> same_but_reporter k k' ->
  run_op conf fuel k o = Ok k1 -> exists k1', run_op conf fuel k' o = Ok k1' /\ same_but_reporter k1 k1'.
Proof.
  intros Hr Hs H. rewrite (sbr_eq _ _ Hs).
  destruct (match o with OpInit => true | _ => false end) eqn:Ei.
  - destruct o; try discriminate. cbn in *. inversion H; subst. eexists. split; [reflexivity|]. reflexivity.
  - rewrite run_op_rep; [|exact Hr|intros ->; discriminate]. rewrite H. cbn. eexists. split; [reflexivity|]. reflexivity.
Qed.

Lemma run_ops_without_reports fuel ops (k k' k1 : km) : same_but_reporter k k' ->
  run_ops conf fuel ops k = Ok k1 ->
  exists k1', run_ops conf fuel (filter (fun o => negb (is_report o)) ops) k' = Ok k1' /\ same_but_reporter k1 k1'.
Proof.
  revert k k'. induction ops as [|o ops IH]; intros k k' Hs H; cbn in *.
  - inversion H; subst. eauto.
  - destruct (run_op conf fuel k o) as [k2| |] eqn:E; cbn in H; try discriminate.
    destruct (is_report o) eqn:Er; cbn [negb].
    + apply (IH k2 k'); [|exact H]. destruct o; try discriminate. cbn in E. unfold km_report_output in E.
      destruct (km_pressed_keys conf k); cbn in E; try discriminate. inversion E; subst. exact Hs.
    + destruct (run_op_sbr fuel k k' k2 o Er Hs E) as (k2' & E' & Hs'). cbn. rewrite E'. cbn. eapply IH; eauto.
Qed.

(** *** Collected reports *)
Lemma run_reporting_acc fuel ops (k : km) acc :
  fold_res (report_step conf fuel) ops (k, acc)
  = let! (k', outs) := run_reporting conf fuel ops k in Ok (k', acc ++ outs).
Proof.
  revert k acc. unfold run_reporting. induction ops as [|o ops IH]; intros k acc; cbn [fold_res].
  - cbn. now rewrite app_nil_r.
  - assert (Hne : o = OpReport \/ o <> OpReport) by (destruct o; (left; reflexivity) || (right; discriminate)).
    destruct Hne as [->|Hne].
    + cbn [report_step fst snd]. rewrite !bind_assoc. apply bind_ext; intros [k1 out]. cbn [bind].
      rewrite IH, (IH k1 ([] ++ [out])). rewrite bind_assoc. apply bind_ext; intros [k2 outs]. cbn. now rewrite <- app_assoc.
    + assert (Hs : forall a, report_step conf fuel (k, a) o = let! k1 := run_op conf fuel k o in Ok (k1, a)).
      { intros a. destruct o; try reflexivity. congruence. }
      rewrite !Hs. rewrite !bind_assoc. apply bind_ext; intros k1. cbn [bind]. rewrite IH, (IH k1 []).
      rewrite !bind_assoc. apply bind_ext; intros [k2 outs]. reflexivity.
Qed.
Lemma run_reporting_app fuel a b (k : km) :
  run_reporting conf fuel (a ++ b) k
  = let! (k1, o1) := run_reporting conf fuel a k in
    let! (k2, o2) := run_reporting conf fuel b k1 in Ok (k2, o1 ++ o2).
Proof.
  unfold run_reporting at 1. rewrite fold_res_app. fold (run_reporting conf fuel a k). apply bind_ext; intros [k1 o1].
  apply run_reporting_acc.
Qed.
Lemma run_reporting_run fuel ops (k : km) :
  run_ops conf fuel ops k = let! (k', outs) := run_reporting conf fuel ops k in Ok k'.
Proof.
  revert k. induction ops as [|o ops IH]; intros k; [reflexivity|].
  change (o :: ops) with ([o] ++ ops) at 2. rewrite run_reporting_app.
  cbn [run_ops fold_res]. unfold run_reporting at 1. cbn [fold_res].
  assert (H1 : bind (report_step conf fuel (k, []) o) (fun s => Ok (fst s)) = run_op conf fuel k o).
  { destruct o; try (cbn [report_step fst snd];
      match goal with |- bind (bind ?m _) _ = _ => destruct m; reflexivity end).
    cbn. destruct (km_report_output conf k) as [[? ?]| |]; reflexivity. }
  unfold run_ops. cbn [fold_res]. rewrite <- H1. rewrite !bind_assoc. apply bind_ext; intros [k1 o1]. cbn [bind fst].
  fold (run_ops conf fuel ops k1). rewrite IH, !bind_assoc. apply bind_ext; intros [k2 o2]. reflexivity.
Qed.

(** *** Observed keymaps *)
Definition seen (d : list report) (outs : list (list key_output)) : list report :=
  fold_left dr_update (map as_hid_boot_keyboard_report outs) d.

Lemma obs_step_eq fuel c (k : km) d :
  obs_step conf fuel (mkObs k d) c
  = let! (k', outs) := run_reporting conf fuel (obs_ops c) k in Ok (mkObs k' (seen d outs)).
Proof.
  destruct c; unfold run_reporting; cbn [obs_ops fold_res report_step fst snd obs_step run_op].
  - unfold obs_handle_input, obs_tick, obs_update. cbn [ob_km ob_reports]. rewrite ?bind_assoc. apply bind_ext; intros k1. cbn [bind fst snd].
    rewrite ?bind_assoc. apply bind_ext; intros [k2 o1]. cbn [bind fst snd ob_km ob_reports].
    rewrite ?bind_assoc. apply bind_ext; intros k3. cbn [bind fst snd]. rewrite ?bind_assoc. apply bind_ext; intros [k4 o2]. reflexivity.
  - unfold obs_tick, obs_update. cbn [ob_km ob_reports]. rewrite ?bind_assoc. apply bind_ext; intros k1. cbn [bind fst snd].
    rewrite ?bind_assoc. apply bind_ext; intros [k2 o1]. reflexivity.
  - unfold obs_handle_input_after_time, obs_tick, obs_update. cbn [ob_km ob_reports]. rewrite ?bind_assoc. apply bind_ext; intros [k1 t]. cbn [bind fst snd].
    rewrite ?bind_assoc. apply bind_ext; intros [k2 o1]. cbn [bind fst snd ob_km ob_reports].
    rewrite ?bind_assoc. apply bind_ext; intros k3. cbn [bind fst snd]. rewrite ?bind_assoc. apply bind_ext; intros [k4 o2]. reflexivity.
  - unfold obs_tick_to_next, obs_update. cbn [ob_km ob_reports]. rewrite ?bind_assoc. apply bind_ext; intros [k1 t]. cbn [bind fst snd].
    rewrite ?bind_assoc. apply bind_ext; intros [k2 o1]. reflexivity.
Qed.

Lemma obs_run_eq fuel cs (k : km) d :
  obs_run conf fuel cs (mkObs k d)
  = let! (k', outs) := run_reporting conf fuel (flat_map obs_ops cs) k in Ok (mkObs k' (seen d outs)).
Proof.
  revert k d. unfold obs_run. induction cs as [|c cs IH]; intros k d; [reflexivity|].
  cbn [fold_res flat_map]. rewrite obs_step_eq, run_reporting_app, ?bind_assoc. apply bind_ext; intros [k1 o1]. cbn [bind].
  rewrite IH, ?bind_assoc. apply bind_ext; intros [k2 o2]. cbn [bind]. unfold seen. now rewrite map_app, fold_left_app.
Qed.

(** *** Ticking until nothing is scheduled *)
Lemma tick_until_spec fuel n (o o' : observed R Ctx Ev PKS KS) :
  obs_tick_until conf fuel n o = Ok o' ->
  exists m, (m <= n)%nat
    /\ obs_run conf fuel (repeat ObTick m) o = Ok o'
    /\ km_has_scheduled_events (ob_km o') = false
    /\ forall j oj, (j < m)%nat -> obs_run conf fuel (repeat ObTick j) o = Ok oj ->
         km_has_scheduled_events (ob_km oj) = true.
Proof.
  revert o. induction n as [|n IH]; intros o H; cbn [obs_tick_until] in H;
    destruct (km_has_scheduled_events (ob_km o)) eqn:Eh; try discriminate.
  - inversion H; subst. exists O. split; [lia|]. split; [reflexivity|]. split; [exact Eh|intros; lia].
  - destruct (obs_tick conf fuel o) as [o1| |] eqn:Et; cbn in H; try discriminate.
    destruct (IH o1 H) as (m & Hm & Hr & Hs & Hj). exists (S m). split; [lia|]. split; [|split; [exact Hs|]].
    + unfold obs_run in *. cbn [repeat fold_res obs_step]. rewrite Et. exact Hr.
    + intros [|j] oj Hlt Hrj; unfold obs_run in *; cbn in Hrj.
      * inversion Hrj; subst. exact Eh.
      * rewrite Et in Hrj. cbn in Hrj. apply (Hj j oj); [lia|exact Hrj].
  - inversion H; subst. exists O. split; [lia|]. split; [reflexivity|]. split; [exact Eh|intros; lia].
Qed.
Lemma tick_until_more fuel n n' (o o' : observed R Ctx Ev PKS KS) : (n <= n')%nat ->
  obs_tick_until conf fuel n o = Ok o' -> obs_tick_until conf fuel n' o = Ok o'.
Proof.
  revert n' o. induction n as [|n IH]; intros n' o Hn H; cbn [obs_tick_until] in H.
  - destruct (km_has_scheduled_events (ob_km o)) eqn:Eh; try discriminate.
    destruct n'; cbn [obs_tick_until]; rewrite Eh; exact H.
  - destruct n' as [|n']; [lia|]. cbn [obs_tick_until].
    destruct (km_has_scheduled_events (ob_km o)); [|exact H].
    destruct (obs_tick conf fuel o); cbn in *; try discriminate. apply IH; [lia|exact H].
Qed.

(** *** The backend *)
Lemma outputs_eqb_eq a b : outputs_eqb a b = true <-> a = b.
Proof.
  revert b. induction a as [|x a IH]; destruct b as [|y b]; cbn; try (split; congruence).
  rewrite andb_true_iff, IH. rewrite ko_eqb_eq. split; [intros [-> ->]; reflexivity|intros H; inversion H; auto].
Qed.
Lemma outputs_eqb_neq a b : outputs_eqb a b = false <-> a <> b.
Proof. rewrite <- outputs_eqb_eq. destruct (outputs_eqb a b); split; congruence. Qed.

Fixpoint flags (prev : list key_output) (outs : list (list key_output)) : list bool :=
  match outs with [] => [] | o :: t => negb (outputs_eqb prev o) :: flags o t end.
Lemma flags_changed outs prev : changed prev outs (flags prev outs).
Proof.
  revert prev. induction outs as [|o outs IH]; intros prev; cbn; [constructor|].
  destruct (outputs_eqb prev o) eqn:E; cbn.
  - apply outputs_eqb_eq in E. subst. constructor. apply IH.
  - constructor; [|apply IH]. apply outputs_eqb_neq in E. congruence.
Qed.
Lemma be_run_eq fuel cs (k : km) prev fl :
  fold_res (be_step conf fuel) cs (mkBackend k prev, fl)
  = let! (k', outs) := run_reporting conf fuel (flat_map be_ops cs) k in
    Ok (mkBackend k' (last outs prev), fl ++ flags prev outs).
Proof.
  revert k prev fl. induction cs as [|c cs IH]; intros k prev fl.
  - cbn. now rewrite app_nil_r.
  - cbn [fold_res flat_map]. rewrite run_reporting_app. destruct c; unfold run_reporting at 1; cbn [be_step be_ops fold_res report_step fst snd].
    + unfold be_event. cbn [be_km be_output]. rewrite ?bind_assoc. cbn [run_op]. apply bind_ext; intros k1. cbn [bind fst snd].
      rewrite IH, ?bind_assoc. apply bind_ext; intros [k2 o2]. reflexivity.
    + unfold be_tick. cbn [be_km be_output run_op]. rewrite ?bind_assoc. apply bind_ext; intros k1. cbn [bind fst snd].
      rewrite ?bind_assoc. apply bind_ext; intros [k2 o1]. cbn [bind fst snd].
      rewrite IH, ?bind_assoc. apply bind_ext; intros [k3 o2]. cbn [bind app flags]. rewrite <- app_assoc. cbn [app].
      do 3 f_equal. clear. revert prev o1. induction o2 as [|x o2 IH]; intros prev o1; [reflexivity|].
      cbn [last]. destruct o2; [reflexivity|]. exact (IH prev o1).
Qed.
End Wrap.
