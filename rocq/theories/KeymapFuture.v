(** The immediate events that are still to be handled, and what adds to them. *)
From Verif Require Import BaseFacts Output Types Scheduler Reporter Keymap SpecScheduler SchedulerFacts
  SpecKeymap KeymapFacts KeymapInv KeymapHist KeymapQueue.
Local Open Scope N_scope.

Definition is_immediate {E} (se : sched_event E) : bool :=
  match se_schedule se with Immediate => true | After _ => false end.
(** The events of a list to be handled at once, in order. *)
Definition imm {E} (kes : key_events E) : list (event E) := map se_event (filter is_immediate kes).
Definition sched_future {E} (s : scheduler E) : list (event E) := filter_map (fun o => o) (sc_pending s).

Lemma imm_app {E} (a b : key_events E) : imm (a ++ b) = imm a ++ imm b.
Proof. unfold imm. now rewrite filter_app, map_app. Qed.
Lemma filter_map_app {A B} (f : A -> option B) a b : filter_map f (a ++ b) = filter_map f a ++ filter_map f b.
Proof. induction a as [|x a IH]; cbn; [reflexivity|]. destruct (f x); cbn; now rewrite IH. Qed.

Section Future.
Context {R Ctx Ev PKS KS : Type}.
Variable conf : kconf R Ctx Ev PKS KS.
Local Notation km := (keymap R Ctx Ev PKS KS).
Local Notation sys := (kc_sys conf).
Local Notation pos := (kc_pos conf).
Implicit Types (k : km) (p : pending_state R Ev PKS).

Definition future k : list (event Ev) := sched_future (km_sched k).

Lemma sched_event_future (s : scheduler Ev) se s' : sched_event_in pos s se = Ok s' ->
  sched_future s' = sched_future s ++ imm [se].
Proof.
  intros H. apply sched_event_in_ok in H as (_ & [(Hs & _ & Hp & _)|(d & Hs & Hp & _)]); unfold sched_future, imm;
    rewrite Hp; cbn; unfold is_immediate; rewrite Hs; cbn.
  - now rewrite filter_map_app.
  - now rewrite app_nil_r.
Qed.
Lemma sched_all_future kes : forall (s s' : scheduler Ev), sched_all pos s kes = Ok s' ->
  sched_future s' = sched_future s ++ imm kes.
Proof.
  unfold sched_all. induction kes as [|se kes IH]; intros s s' H; cbn [fold_res] in H.
  - inv_ok H. now rewrite app_nil_r.
  - inv_bind H. apply sched_event_future in E. apply IH in H. rewrite H, E, <- app_assoc. f_equal.
    change (se :: kes) with ([se] ++ kes). now rewrite imm_app.
Qed.
Lemma sched_all_app a b (s s' : scheduler Ev) : sched_all pos s (a ++ b) = Ok s' <->
  exists s1, sched_all pos s a = Ok s1 /\ sched_all pos s1 b = Ok s'.
Proof.
  unfold sched_all. revert s. induction a as [|x a IH]; intros s; cbn [app fold_res].
  - split; [eauto|]. intros (s1 & H & H'). now inv_ok H.
  - destruct (sched_event_in pos s x) as [s1| |] eqn:Ex; cbn [bind].
    + apply IH.
    + split; [discriminate|]. intros (? & H & _). discriminate.
    + split; [discriminate|]. intros (? & H & _). discriminate.
Qed.

(** Delayed events satisfy [D] if every delayed event emitted does. *)
Definition delayed_ok (D : event Ev -> Prop) (kes : key_events Ev) : Prop :=
  Forall (fun se => is_immediate se = true \/ D (se_event se)) kes.
Definition scheduled_ok (D : event Ev -> Prop) (s : scheduler Ev) : Prop :=
  Forall (fun en => D (en_event en)) (sc_scheduled s).
Lemma sched_all_scheduled D kes : delayed_ok D kes -> forall (s s' : scheduler Ev),
  sched_all pos s kes = Ok s' -> scheduled_ok D s -> scheduled_ok D s'.
Proof.
  intros HD s s' H Hs. revert H. apply (sched_all_inv conf (scheduled_ok D)); [|exact Hs]. clear s s' Hs.
  intros s se s' Hs Hin H. unfold delayed_ok in HD. rewrite Forall_forall in HD. apply HD in Hin.
  apply sched_event_in_ok in H as (_ & [(Hi & Hc & _)|(dl & Hi & _ & Ha)]).
  - unfold scheduled_ok. now rewrite Hc.
  - destruct Hin as [Hin|Hin]; [unfold is_immediate in Hin; rewrite Hi in Hin; discriminate|].
    apply sched_after_ok in Ha as (_ & _ & Es & _). unfold scheduled_ok. rewrite Es. now apply insert_at_Forall.
Qed.

(** What the pressed keys emit on an event. *)
Inductive emitted (ctx : Ctx) (ev : event Ev)
  : list (pressed_input R KS) -> list (pressed_input R KS) -> key_events Ev -> Prop :=
| em_nil : emitted ctx ev [] [] []
| em_virtual ko t t' kes : emitted ctx ev t t' kes -> emitted ctx ev (PiVirtual ko :: t) (PiVirtual ko :: t') kes
| em_key i r ks ks' e1 t t' e2 :
    sys_update_state sys ks r ctx i ev = Ok (ks', e1) -> emitted ctx ev t t' e2 ->
    emitted ctx ev (PiKey i r ks :: t) (PiKey i r ks' :: t') (e1 ++ e2).
Lemma update_pressed_list_emitted ctx ev pis : forall s pis' s',
  update_pressed_list conf ctx ev pis s = Ok (pis', s') ->
  exists kes, emitted ctx ev pis pis' kes /\ sched_all pos s kes = Ok s'.
Proof.
  induction pis as [|[i r ks|ko] pis IH]; intros s pis' s' H; cbn [update_pressed_list] in H.
  - inv_ok H. exists []. split; [constructor|reflexivity].
  - inv_bind H. destruct a as [ks' e1]. inv_bind H. inv_bind H. destruct a0 as [t' s2]. inv_ok H.
    apply IH in E1 as (e2 & H1 & H2). exists (e1 ++ e2). split; [now constructor|]. apply sched_all_app. eauto.
  - inv_bind H. destruct a as [t' s2]. inv_ok H. apply IH in E as (e2 & H1 & H2). exists e2. split; [now constructor|exact H2].
Qed.

Lemma emitted_shape ctx ev l l' kes : emitted ctx ev l l' kes -> map (@shape_of R KS) l' = map shape_of l.
Proof. induction 1; cbn; congruence. Qed.

(** [emitted] for systems where a set of events is never emitted. *)
Lemma emitted_forall (P : sched_event Ev -> Prop) ctx ev l l' kes :
  (forall i r ks ks' e1, In (PiKey i r ks) l -> sys_update_state sys ks r ctx i ev = Ok (ks', e1) -> Forall P e1) ->
  emitted ctx ev l l' kes -> Forall P kes.
Proof.
  intros HP H. induction H; [constructor| |].
  - apply IHemitted. intros; eapply HP; eauto. now right.
  - apply Forall_app. split; [eapply HP; eauto; now left|]. apply IHemitted. intros; eapply HP; eauto. now right.
Qed.
End Future.
