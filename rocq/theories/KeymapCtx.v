(** How the context evolves over the recursion and over histories. *)
From Verif Require Import BaseFacts Output Types Scheduler Reporter Keymap SchedulerFacts KeymapFacts KeymapInv.
Local Open Scope N_scope.

Section Ctx.
Context {R Ctx Ev PKS KS : Type}.
Variable conf : kconf R Ctx Ev PKS KS.
Local Notation km := (keymap R Ctx Ev PKS KS).
Local Notation sys := (kc_sys conf).
Local Notation job := (job R Ev KS).
Implicit Types (k : km).

(** A reflexive and transitive relation kept by the context's own updates. *)
Section Rel.
Variable Rc : Ctx -> Ctx -> Prop.
Hypothesis Rc_refl : forall c, Rc c c.
Hypothesis Rc_trans : forall a b c, Rc a b -> Rc b c -> Rc a c.
Hypothesis Rc_event : forall c ev c' kes, sys_ctx_handle_event sys c ev = Ok (c', kes) -> Rc c c'.

Lemma run_callback_ctx k ev : km_ctx (run_callback k ev) = km_ctx k.
Proof. destruct (run_callback_eq k ev) as (new & -> & _). reflexivity. Qed.

Lemma exec_ctx fuel j k k' : exec conf fuel j k = Ok k' -> Rc (km_ctx k) (km_ctx k').
Proof.
  apply (exec_contract conf (fun _ _ => True) (fun _ k k' => Rc (km_ctx k) (km_ctx k'))); [|exact I].
  clear j k k'. intros j k k' _ H.
  assert (Hemit : forall i r ks a b,
    emit_rel conf (fun (j : job) a b => True -> Rc (km_ctx a) (km_ctx b)) i r ks a b -> Rc (km_ctx a) (km_ctx b)).
  { intros i r ks a b (o & _ & Ho). destruct o; [exact (Ho I)|subst; apply Rc_refl]. }
  destruct H; inv_prim;
    repeat match goal with
    | H : True -> Rc _ _ |- _ => specialize (H I)
    | H : emit_rel _ _ _ _ _ _ _ |- _ => apply Hemit in H
    | H : sys_ctx_handle_event _ _ _ = Ok _ |- _ => apply Rc_event in H
    end; cbn in *; eauto.
  rewrite run_callback_ctx in H. destruct ev as [ie|i ke|kk]; [specialize (H2 I)|subst; cbn..]; eauto.
Qed.

Lemma handle_input_ctx fuel ev k k' : km_handle_input conf fuel ev k = Ok k' -> Rc (km_ctx k) (km_ctx k').
Proof.
  intros H. apply handle_input_cases in H as [(_ & _ & ie & q & k2 & _ & H & ->)|[(_ & _ & ->)|(_ & ->)]]; auto.
  apply exec_ctx in H. exact H.
Qed.

Lemma tick_ctx fuel k k' : km_tick conf fuel k = Ok k' ->
  Rc (sys_ctx_set_keymap_context sys (km_ctx k) (sc_counter (km_sched k)) (km_idle k)) (km_ctx k').
Proof.
  intros H. apply tick_cases in H as (k1 & k2 & s & k3 & H1 & -> & Hs & H3 & _ & ->). cbn [km_ctx set_idle].
  apply exec_ctx in H3. cbn [km_ctx set_sched] in H3.
  eapply Rc_trans; [|exact H3].
  replace (km_ctx (if 0 <? km_delay k1 then set_delay k1 (km_delay k1 - 1) else k1)) with (km_ctx k1)
    by (destruct (0 <? km_delay k1); reflexivity).
  destruct H1 as [(ie & q & k1' & _ & _ & H1 & ->)|(-> & _)]; [|apply Rc_refl].
  apply exec_ctx in H1. exact H1.
Qed.
End Rel.

(** An invariant of the context kept by its updates holds of every reachable keymap. *)
Lemma run_ops_ctx_inv (J : Ctx -> Prop) fuel :
  (forall c ev c' kes, J c -> sys_ctx_handle_event sys c ev = Ok (c', kes) -> J c') ->
  (forall c t i, J c -> J (sys_ctx_set_keymap_context sys c t i)) ->
  forall ops k k', J (km_ctx k) -> run_ops conf fuel ops k = Ok k' -> J (km_ctx k').
Proof.
  intros Hev Hset. apply (run_ops_inv conf (fun k => J (km_ctx k))); try (intros; assumption).
  - intros k ev k' Hk H. refine (handle_input_ctx (fun a b => J a -> J b) _ _ _ _ _ _ _ H Hk); eauto.
  - intros k k' Hk H. refine (tick_ctx (fun a b => J a -> J b) _ _ _ _ _ _ H _); eauto.
Qed.

(** *** Calls that advance time are sequences of ticks *)
Lemma tick_n_ops fuel n k : tick_n conf fuel n k = run_ops conf fuel (repeat OpTick n) k.
Proof.
  revert k. induction n as [|n IH]; intros k; cbn; [reflexivity|].
  destruct (km_tick conf fuel k); cbn; [apply IH|reflexivity|reflexivity].
Qed.

Lemma tick_by_ops fuel d k k' :
  km_tick_by conf fuel d k = Ok k' ->
  exists n, run_ops conf fuel (repeat OpTick n) k = Ok k'
    /\ n = (if d =? 0 then 1%nat else N.to_nat (d / km_ms_per_tick k)).
Proof.
  unfold km_tick_by. destruct (d =? 0).
  - intros H. exists 1%nat. cbn. rewrite H. auto.
  - destruct (km_ms_per_tick k =? 0); [discriminate|]. intros H. rewrite tick_n_ops in H. eauto.
Qed.
End Ctx.
