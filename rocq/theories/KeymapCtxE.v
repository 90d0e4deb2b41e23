(** Invariants of the context that depend on which events are ever emitted. *)
From Verif Require Import BaseFacts Output Types Scheduler Reporter Keymap SchedulerFacts SpecKeymap KeymapFacts
  KeymapInv KeymapHist KeymapStuck KeymapHeld KeymapCtx.
Local Open Scope N_scope.

Section CtxE.
Context {R Ctx Ev PKS KS : Type}.
Variable conf : kconf R Ctx Ev PKS KS.
Local Notation km := (keymap R Ctx Ev PKS KS).
Local Notation sys := (kc_sys conf).
Local Notation job := (job R Ev KS).
Implicit Types (k : km).

Variable E : event Ev -> Prop.
Variable J : Ctx -> Prop.
Hypothesis He : emits_only sys E.
Hypothesis Hin : forall x, E (EvInput x).
Hypothesis HE : forall kk, E (EvKeymap kk).
Hypothesis Hev : forall c ev c' kes, J c -> E ev -> sys_ctx_handle_event sys c ev = Ok (c', kes) -> J c'.
Hypothesis Hset : forall c t i, J c -> J (sys_ctx_set_keymap_context sys c t i).

Lemma exec_ctx_E fuel j k k' : pie E j k -> exec conf fuel j k = Ok k' -> J (km_ctx k) -> J (km_ctx k').
Proof.
  apply (exec_contract_ie conf E (fun _ k k' => J (km_ctx k) -> J (km_ctx k')) He); [auto|].
  clear fuel j k k'. intros j k k' [_ HP] H.
  assert (Hemit : forall i r ks a b,
    emit_rel conf (fun (j : job) a b => pie E j a /\ (J (km_ctx a) -> J (km_ctx b))) i r ks a b -> J (km_ctx a) -> J (km_ctx b)).
  { intros i r ks a b (o & _ & Ho). destruct o; [apply Ho|subst; auto]. }
  assert (Hin' : forall c x c' kes, J c -> sys_ctx_handle_event sys c (EvInput x) = Ok (c', kes) -> J c') by eauto.
  destruct H; inv_prim;
    repeat match goal with
    | H : pie _ _ _ /\ _ |- _ => destruct H as [_ H]
    | H : emit_rel _ _ _ _ _ _ _ |- _ => pose proof (Hemit _ _ _ _ _ H); clear H
    end; cbn in *; eauto.
  - rewrite run_callback_ctx in H. intros Hk. apply H in Hk.
    destruct ev as [ie|i ke|kk]; [destruct H2 as [_ H2]; eapply H2|subst; cbn..]; eauto.
Qed.

Lemma run_ops_ctx_E fuel ops k k' : ie E k -> J (km_ctx k) ->
  run_ops conf fuel ops k = Ok k' -> J (km_ctx k').
Proof.
  intros Hi Hj H. enough (ie E k' /\ J (km_ctx k')) by tauto. revert H.
  apply (run_ops_inv conf (fun k => ie E k /\ J (km_ctx k))); auto.
  - intros a ev b [A B] H. split; [eapply handle_input_ie; eauto|].
    apply handle_input_cases in H as [(_ & _ & x & q & k2 & _ & H & ->)|[(_ & _ & ->)|(_ & ->)]]; auto.
    apply exec_ctx_E in H; [exact H| |exact B]. split; [exact A|exact I].
  - intros a b [A B] H. split; [eapply tick_ie; eauto|].
    apply tick_cases in H as (k1 & k2 & s & k3 & H1 & -> & Hs & H3 & _ & ->). cbn [km_ctx set_idle].
    assert (G1 : ie E k1 /\ J (km_ctx k1)).
    { destruct H1 as [(x & q & k1' & Eq & _ & H1 & ->)|(-> & _)]; [|split; [exact A|apply Hset, B]].
      pose proof H1 as H1'. apply exec_ctx_E in H1; [|split; [exact A|exact I]|apply Hset, B].
      eapply exec_ie in H1'; [split; [exact H1'|exact H1]|exact He|auto|]. split; [exact A|exact I]. }
    destruct G1 as [G1 J1].
    apply exec_ctx_E in H3; [exact H3| |]; cbn.
    + split; [|exact I]. assert (G2 : ie E (if 0 <? km_delay k1 then set_delay k1 (km_delay k1 - 1) else k1))
        by (destruct (0 <? km_delay k1); exact G1).
      destruct G2 as [P1 P3]. split; [|exact P3]. eapply sched_tick_events; eauto.
    + destruct (0 <? km_delay k1); exact J1.
  - intros a [A B]. split; [now apply ie_init|exact B].
Qed.
End CtxE.
