(** Contract induction over the keymap's functions in which every recursive call
    is known to start from a state that meets the conditions of KeymapSafe. *)
From Verif Require Import BaseFacts Output Types Scheduler Keymap SpecScheduler SchedulerFacts SpecKeymap KeymapFacts KeymapInv KeymapHist KeymapQueue KeymapStuck KeymapHeld KeymapSafe KeymapSwitch.
Local Open Scope N_scope.

Section Calls.
Context {R Ctx Ev PKS KS : Type}.
Variable conf : kconf R Ctx Ev PKS KS.
Local Notation km := (keymap R Ctx Ev PKS KS).
Local Notation sys := (kc_sys conf).
Local Notation job := (job R Ev KS).
Implicit Types k : km.
Variable F : @parts R Ctx Ev PKS KS.
Hypothesis HS : safe_parts conf F.
Local Notation base_ok := (base_ok F).
Local Notation pend_ok := (pend_ok F).
Local Notation all_ok := (all_ok F).
Local Notation pre_ok := (pre_ok conf F).
Local Notation entry_ok := (entry_ok F).

Lemma step_calls_ok (rec : job -> km -> km -> Prop) f j k k' :
  (forall j a b, rec j a b -> exec conf f j a = Ok b) -> pre_ok j k ->
  step_rel conf rec j k k' -> step_rel conf (fun j a b => rec j a b /\ pre_ok j a) j k k'.
Proof.
  intros Hrec [HB HP] H.
  assert (Hex : forall j a b, rec j a b -> pre_ok j a -> all_ok b).
  { intros j0 a b Ha Hp. eapply (exec_safe conf F HS); [exact Hp|]. apply Hrec. exact Ha. }
  assert (Hemit : forall i r ks a b, all_ok a -> may_be F i r -> down_as F i r ks ->
    emit_rel conf rec i r ks a b -> emit_rel conf (fun (j : job) a b => rec j a b /\ pre_ok j a) i r ks a b).
  { intros i r ks a b [Ha1 Ha2] Hm Hd (o & Eo & Ho). exists o. split; [exact Eo|]. destruct o as [ko|]; [|exact Ho].
    split; [exact Ho|]. split; [exact Ha1|]. split; [exact Ha2|]. eapply (sf_output conf F HS); eauto. }
  assert (Hsnoc : forall (a : km) x, base_ok a -> entry_ok x -> base_ok (set_pressed a (km_pressed a ++ [x]))).
  { intros a x (A & B & C & D & E) Hx. repeat split; try assumption; try apply B. apply Forall_app. split; [exact D|].
    constructor; [assumption|constructor]. }
  assert (Hq : forall (a : km) i r ps q, base_ok a -> Forall (sf_ev F) q ->
     base_ok (set_pending a (Some (mkPending i r ps q)))).
  { intros a i r ps q (A & B & C & D & E) Hx. repeat split; try assumption; try apply B. intros p Hp. cbn in Hp.
    injection Hp as <-. exact Hx. }
  assert (Hrm : forall (a : km) f, base_ok a -> base_ok (set_pressed a (remove_first f (km_pressed a)))).
  { intros a f0 (A & B & C & D & E). repeat split; try assumption; try apply B. now apply remove_first_ok. }
  destruct H; cbn [KeymapSafe.pre_ok] in HP; try (econstructor; eassumption);
    repeat match goal with
    | H : schedule_all _ ?a ?kes = Ok ?b |- _ =>
        lazymatch goal with
        | _ : base_ok a -> _ -> base_ok b /\ _ |- _ => fail
        | _ => let H' := fresh "Hs" in pose proof (fun A B => schedule_safe conf F a kes b A B H) as H'
        end
    | H : update_pressed _ ?a ?ev = Ok ?b |- _ =>
        lazymatch goal with
        | _ : base_ok a -> _ -> base_ok b /\ _ |- _ => fail
        | _ => let H' := fresh "Hu" in pose proof (fun A B => update_pressed_safe conf F HS a ev b A B H) as H'
        end
    | H : update_context _ ?a ?ev = Ok ?b |- _ =>
        lazymatch goal with
        | _ : base_ok a -> _ -> base_ok b /\ _ |- _ => fail
        | _ => let H' := fresh "Hc" in pose proof (fun A B => update_context_safe conf F HS a ev b A B H) as H'
        end
    | H : km_pending ?k = Some ?p, HB : base_ok ?k |- _ =>
        lazymatch goal with
        | _ : Forall (sf_ev F) (pd_queued p) |- _ => fail
        | _ => assert (Forall (sf_ev F) (pd_queued p)) by (apply HB; exact H)
        end
    end.
  - (* SrHpSome *) pose proof HB as (A & [B1 B2] & C & D & E). rewrite H in B1. inversion B1; subst.
    match type of H0 with rec ?j ?a _ => assert (X : pre_ok j a) end.
    { split; [|split; assumption]. repeat split; assumption. }
    eapply SrHpSome; [exact H|split; eassumption|]. split; [exact H1|]. exact (Hex _ _ _ H0 X).
  - (* SrEvent *) destruct HP as [HP He].
    assert (X : pre_ok (JUpdatePending ev) (run_callback k ev)).
    { destruct (run_callback_eq k ev) as (new & -> & _). split; [exact HB|split; [exact HP|exact He]]. }
    destruct (Hex _ _ _ H X) as [B1 B2]. destruct (Hu B1 He) as [U1 U2]. destruct (Hc U1 He) as [V1 V2].
    assert (A2 : pend_ok k3) by (eapply pend_same; [|exact B2]; congruence).
    eapply SrEvent; [split; eassumption|exact H0|exact H1|].
    destruct ev; [split; [exact H2|]; split; [exact V1|split; [exact A2|exact He]]|exact H2..].
  - (* SrInPending *) destruct HP as [HP He].
    match type of H1 with rec ?j ?a _ => assert (X : pre_ok j a) end.
    { split; [|split; [|exact He]].
      + apply Hq; [exact HB|]. apply Forall_app. split; [assumption|]. constructor; [exact He|constructor].
      + intros q Hq'. cbn in Hq'. injection Hq' as <-. cbn. apply HP. exact H. }
    eapply SrInPending; [exact H|exact H0|split; eassumption|]. split; [exact H2|]. exact (Hex _ _ _ H1 X).
  - (* SrInPressHeld *) destruct HP as [HP He]. destruct (Hu HB He) as [U1 U2]. destruct (Hc U1 He) as [V1 V2].
    eapply SrInPressHeld; eauto. split; [exact H3|]. split; [exact V1|]. eapply pend_same; [|exact HP]; congruence.
  - (* SrInPress *) destruct HP as [HP He]. destruct (Hu HB He) as [U1 U2]. destruct (Hc U1 He) as [V1 V2].
    assert (X : pre_ok (JPressLoop i r) k2).
    { split; [exact V1|]. split; [eapply pend_same; [|exact HP]; congruence|]. now apply (sf_start conf F HS). }
    eapply SrInPress; [exact H|exact H0|exact H1|exact H2|exact H3|split; eassumption|]. split; [exact H5|].
    exact (Hex _ _ _ H4 X).
  - (* SrInRelease *) destruct HP as [HP He]. destruct (Hu HB He) as [U1 U2]. destruct (Hc U1 He) as [V1 V2].
    eapply SrInRelease; eauto. split; [exact H2|]. split; [now apply Hrm|]. eapply pend_same; [|exact HP]; cbn; congruence.
  - (* SrInVPress *) destruct HP as [HP He]. destruct (Hu HB He) as [U1 U2]. destruct (Hc U1 He) as [V1 V2].
    eapply SrInVPress; eauto. split; [exact H3|]. split; [apply Hsnoc; [exact V1|exact He]|]. eapply pend_same; [|exact HP]; cbn; congruence.
  - (* SrInVRelease *) destruct HP as [HP He]. destruct (Hu HB He) as [U1 U2]. destruct (Hc U1 He) as [V1 V2].
    eapply SrInVRelease; eauto. split; [exact H2|]. split; [now apply Hrm|]. eapply pend_same; [|exact HP]; cbn; congruence.
  - (* SrPlResolved *) destruct HP as [HP1 HP2].
    destruct (sf_press conf F HS _ _ _ _ _ (proj1 HB) HP2 H) as [K1 K2]. destruct (Hs HB K1) as (S1 & S2 & S3).
    eapply SrPlResolved; eauto. apply Hemit; [|exact HP2|exact K2|exact H2]. split; [apply Hsnoc; [exact S1|split; assumption]|].
    eapply pend_same; [|exact HP1]; cbn; congruence.
  - (* SrPlKey *) destruct HP as [HP1 HP2].
    destruct (sf_press conf F HS _ _ _ _ _ (proj1 HB) HP2 H) as [K1 K2]. destruct (Hs HB K1) as (S1 & S2 & S3).
    eapply SrPlKey; eauto. split; [exact H1|]. split; [exact S1|]. split; [eapply pend_same; [|exact HP1]; cbn; congruence|exact K2].
  - (* SrUpGo *) destruct HP as [HP He]. destruct (HP _ H) as [A1 A2].
    destruct (sf_pending conf F HS _ _ _ _ _ _ _ _ (proj1 HB) He A1 A2 H0) as (K1 & K2 & K3).
    destruct (Hs (Hq _ _ _ _ _ HB ltac:(eassumption)) K1) as (S1 & S2 & S3).
    eapply SrUpGo; eauto. split; [exact H2|]. split; [exact S1|].
    destruct npk as [r'|]; intros q Hq'; rewrite S2 in Hq'; cbn in Hq'; injection Hq' as <-; cbn; auto.
  - (* SrLoopNoOp *) eapply SrLoopNoOp; eauto. split; [exact H0|]. split; [exact HB|exact HP].
  - (* SrLoopResolved *) destruct (sf_press conf F HS _ _ _ _ _ (proj1 HB) (HP _ H) H0) as [K1 K2].
    destruct (Hs (Hq _ _ _ _ _ HB ltac:(eassumption)) K1) as (S1 & S2 & S3).
    eapply SrLoopResolved; eauto. split; [exact H2|]. split; [exact S1|].
    intros q Hq'. rewrite S2 in Hq'. cbn in Hq'. injection Hq' as <-. cbn. auto.
  - (* SrLoopKey *) destruct (sf_press conf F HS _ _ _ _ _ (proj1 HB) (HP _ H) H0) as [K1 K2].
    destruct (Hs (Hq _ _ _ _ _ HB ltac:(eassumption)) K1) as (S1 & S2 & S3).
    eapply SrLoopKey; eauto. split; [exact H2|]. split; [exact S1|].
    intros q Hq'. rewrite S2 in Hq'. cbn in Hq'. injection Hq' as <-. cbn. auto.
  - (* SrLoopKeyNoOp *) destruct (sf_press conf F HS _ _ _ _ _ (proj1 HB) (HP _ H) H0) as [K1 K2].
    destruct (Hs (Hq _ _ _ _ _ HB ltac:(eassumption)) K1) as (S1 & S2 & S3).
    eapply SrLoopKeyNoOp; eauto. split; [exact H2|]. split; [exact S1|].
    intros q Hq'. rewrite S2 in Hq'. cbn in Hq'. injection Hq' as <-. cbn. auto.
  - (* SrResolve *) destruct (HP _ H) as [A1 A2].
    match type of H3 with rec ?j ?a _ => assert (X : pre_ok j a) end.
    { pose proof HB as (A & B & C & D & E).
      pose proof (requeue_safe conf F _ (resolve_queue_safe F p (pd_index p) ltac:(assumption)) _ _ _ _ _ H1 (Forall_nil _)
        (cancel_events _ _ _ B)) as [R1 R2].
      apply push_all_cap_ok in H2 as [-> _]. split; [|now apply pend_none].
      split; [exact A|]. split; [exact R2|]. split; [cbn; apply Forall_app; split; assumption|].
      split; [cbn; apply Forall_app; split; [exact D|constructor; [split; assumption|constructor]]|].
      intros p' Hp'. discriminate Hp'. }
    eapply SrResolve; [exact H|exact H0|exact H1|exact H2|split; eassumption|].
    apply Hemit; [exact (Hex _ _ _ H3 X)|exact A1|exact A2|exact H4].
Qed.

Lemma exec_contract_safe E (P : job -> km -> Prop) (Q : job -> km -> km -> Prop) :
  emits_only sys E -> (forall i ko, E (EvKeymap (KmResolvedKeyOutput i ko))) ->
  (forall j k k', pie E j k -> p15 j k -> pre_ok j k -> P j k ->
     step_rel conf (fun j a b => (all_ok b /\ ie E b) /\ (P j a -> Q j a b)) j k k' -> Q j k k') ->
  forall fuel j k k', pie E j k -> p15 j k -> pre_ok j k -> P j k -> exec conf fuel j k = Ok k' -> Q j k k'.
Proof.
  intros He Hres Hstep fuel. induction fuel as [|f IH]; intros j k k' HE H15 HO HP H; [discriminate|].
  cbn [exec] in H. apply step_inv in H. apply Hstep; [exact HE|exact H15|exact HO|exact HP|].
  eapply (step_calls conf E f) in H; [|exact He|exact Hres|exact HE].
  eapply (step_calls15 _ _ f) in H; [|now intros j0 a b [Hx _]|exact H15].
  eapply (step_calls_ok _ f) in H; [|now intros j0 a b [[Hx _] _]|exact HO].
  eapply step_rel_mono; [|exact H]. cbn. intros j0 a b [[[Hab HPa] H15a] HOa]. split.
  - split; [eapply (exec_safe conf F HS); eauto|eapply exec_ie; eauto].
  - intros HPj. eapply IH; eauto.
Qed.
End Calls.
