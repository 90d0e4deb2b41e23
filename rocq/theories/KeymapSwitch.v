(** Something a key switches on when it is pressed and off when it is released:
    it is on only while such a key is pressed, and, where only one key switches
    it, exactly then. *)
From Verif Require Import BaseFacts Output Types Scheduler Reporter Keymap SpecScheduler SchedulerFacts
  SpecKeymap KeymapFacts KeymapInv KeymapHist KeymapQueue KeymapHeld.
Local Open Scope N_scope.

Section Calls15.
Context {R Ctx Ev PKS KS : Type}.
Variable conf : kconf R Ctx Ev PKS KS.
Local Notation km := (keymap R Ctx Ev PKS KS).
Local Notation job := (job R Ev KS).
Implicit Types (k : km).

(** Every recursive call is made in a state in which no key is pressed twice. *)
Lemma step_calls15 (rec : job -> km -> km -> Prop) f j k k' :
  (forall j a b, rec j a b -> exec conf f j a = Ok b) ->
  p15 j k -> step_rel conf rec j k k' -> step_rel conf (fun j a b => rec j a b /\ p15 j a) j k k'.
Proof.
  intros Hrec [HI HP] H.
  assert (Hex : forall j a b, p15 j a -> rec j a b -> inv15 b).
  { intros j0 a b Ha Hab. eapply exec_inv15; [exact Ha|]. apply Hrec. exact Hab. }
  assert (Hemit : forall i r ks a b, inv15 a -> emit_rel conf rec i r ks a b ->
    emit_rel conf (fun (j : job) a b => rec j a b /\ p15 j a) i r ks a b).
  { intros i r ks a b Ha (o & Eo & Ho). exists o. split; [exact Eo|]. destruct o; [|exact Ho]. split; [exact Ho|]. split; [exact Ha|exact I]. }
  assert (Hsame : forall a b : km, inv15 a -> pressed_indices (km_pressed b) = pressed_indices (km_pressed a) ->
             km_pending b = km_pending a -> inv15 b).
  { intros a b [A1 A2] Hp Hq. unfold inv15. rewrite Hp, Hq. auto. }
  assert (Hpend : forall (a b : km) p q, inv15 a -> pressed_indices (km_pressed b) = pressed_indices (km_pressed a) ->
             km_pending a = Some p -> km_pending b = Some q -> pd_index q = pd_index p -> inv15 b).
  { intros a b p q [A1 A2] Hp Ha Hb Hi. unfold inv15. rewrite Hp, Hb. split; [exact A1|].
    intros q0 Hq0. injection Hq0 as <-. rewrite Hi. auto. }
  assert (Hup : forall (a : km) ev b, update_pressed conf a ev = Ok b -> inv15 a -> inv15 b /\ km_pending b = km_pending a).
  { intros a ev b H1 Ha. apply update_pressed_ok in H1 as (pis & s & -> & H1). split; [|reflexivity].
    apply (Hsame a); [exact Ha| |reflexivity]. apply update_pressed_list_ok, pressed_indices_map in H1. exact H1. }
  assert (Hcx : forall (a : km) ev b, update_context conf a ev = Ok b -> inv15 a -> inv15 b /\ km_pending b = km_pending a).
  { intros a ev b H1 Ha. apply update_context_ok in H1 as (c & kes & s & -> & _). split; [|reflexivity].
    apply (Hsame a); [exact Ha|reflexivity|reflexivity]. }
  assert (Hsch : forall a kes b, schedule_all conf a kes = Ok b -> km_pressed b = km_pressed a /\ km_pending b = km_pending a).
  { intros a kes b H1. apply schedule_all_ok in H1 as (s & _ & ->). auto. }
  destruct H; try (econstructor; eassumption).
  - assert (X : p15 (JHandleEvent ev) (set_sched k (mkSched t (sc_scheduled (km_sched k)) (sc_counter (km_sched k)))))
      by (split; [exact HI|exact I]).
    eapply SrHpSome; [exact H|split; eassumption|]. split; [exact H1|]. split; [|exact I]. eapply Hex; eauto.
  - destruct (run_callback_eq k ev) as (new & Er & _).
    assert (X : p15 (JUpdatePending ev) (run_callback k ev)) by (rewrite Er; split; [exact HI|exact I]).
    assert (X1 : inv15 k1) by (eapply Hex; eauto).
    destruct (Hup _ _ _ H0 X1) as [X2 _]. destruct (Hcx _ _ _ H1 X2) as [X3 _].
    eapply SrEvent; [split; eassumption|exact H0|exact H1|]. destruct ev; [split; [exact H2|split; [exact X3|exact I]]|exact H2..].
  - assert (X : p15 (JUpdatePending (EvInput ie)) (set_pending k (Some (with_queued p (pd_queued p ++ [EvInput ie]))))).
    { split; [|exact I]. eapply (Hpend k); [exact HI|reflexivity|exact H|reflexivity|reflexivity]. }
    eapply SrInPending; [exact H|exact H0|split; eassumption|]. split; [exact H2|]. split; [|exact I]. eapply Hex; eauto.
  - destruct (Hup _ _ _ H0 HI) as [X2 _]. destruct (Hcx _ _ _ H1 X2) as [X3 _].
    eapply SrInPressHeld; eauto. split; [exact H3|]. split; [exact X3|exact I].
  - destruct (Hup _ _ _ H0 HI) as [X2 Y2]. destruct (Hcx _ _ _ H1 X2) as [X3 Y3].
    assert (X : p15 (JPressLoop i r) k2).
    { split; [exact X3|]. split; [|congruence]. intros Hin. apply has_pressed_In in Hin. congruence. }
    eapply SrInPress; eauto. split; [exact H5|]. split; [|exact I]. eapply Hex; eauto.
  - destruct (Hup _ _ _ H0 HI) as [X2 Y2]. destruct (Hcx _ _ _ H1 X2) as [X3 Y3].
    eapply SrInRelease; eauto. split; [exact H2|]. split; [|exact I]. destruct X3 as [A1 A2].
    split; cbn; [now apply remove_first_NoDup|]. rewrite Y3, Y2, H. discriminate.
  - destruct (Hup _ _ _ H0 HI) as [X2 _]. destruct (Hcx _ _ _ H1 X2) as [X3 _].
    eapply SrInVPress; eauto. split; [exact H3|]. split; [|exact I].
    apply (Hsame k2); [exact X3| |reflexivity]. cbn. rewrite pressed_indices_app. cbn. now rewrite app_nil_r.
  - destruct (Hup _ _ _ H0 HI) as [X2 Y2]. destruct (Hcx _ _ _ H1 X2) as [X3 Y3].
    eapply SrInVRelease; eauto. split; [exact H2|]. split; [|exact I]. destruct X3 as [A1 A2].
    split; cbn; [now apply remove_first_NoDup|]. rewrite Y3, Y2, H. discriminate.
  - destruct HP as [HP1 HP2]. destruct (Hsch _ _ _ H0) as [E1 E2]. eapply SrPlResolved; eauto. apply Hemit; [|exact H2].
    eapply (inv15_push k); [exact HI|exact HP1|cbn; now rewrite E1|cbn; congruence].
  - destruct (Hsch _ _ _ H0) as [E1 E2]. eapply SrPlKey; eauto. split; [exact H1|].
    split; [apply (Hsame k); congruence|]. rewrite E1, E2. exact HP.
  - destruct (Hsch _ _ _ H1) as [E1 E2]. eapply SrUpGo; eauto. split; [exact H2|]. split; [|exact I].
    eapply (Hpend k); [exact HI|now rewrite E1|exact H|exact E2|reflexivity].
  - eapply SrLoopNoOp; eauto. split; [exact H0|]. split; [exact HI|exact I].
  - destruct (Hsch _ _ _ H1) as [E1 E2]. eapply SrLoopResolved; eauto. split; [exact H2|]. split; [|exact I].
    eapply (Hpend k); [exact HI|now rewrite E1|exact H|exact E2|reflexivity].
  - destruct (Hsch _ _ _ H1) as [E1 E2]. eapply SrLoopKey; eauto. split; [exact H2|]. split; [|exact I].
    eapply (Hpend k); [exact HI|now rewrite E1|exact H|exact E2|reflexivity].
  - destruct (Hsch _ _ _ H1) as [E1 E2]. eapply SrLoopKeyNoOp; eauto. split; [exact H2|]. split; [|exact I].
    eapply (Hpend k); [exact HI|now rewrite E1|exact H|exact E2|reflexivity].
  - assert (X : p15 JHandlePending (set_inq (set_sched (set_pressed (set_pending k None)
         (km_pressed k ++ [PiKey (pd_index p) (pd_ref p) ks])) s) q')).
    { split; [|exact I]. eapply (inv15_push k); eauto; try reflexivity. now apply HI. }
    eapply SrResolve; [exact H|exact H0|exact H1|exact H2|split; eassumption|]. apply Hemit; [|exact H4]. eapply Hex; eauto.
Qed.

(** Contract induction in which the recursive calls are known to be made with
    only events of [E] scheduled and no key pressed twice. *)
Lemma exec_contract_both E (P : job -> km -> Prop) (Q : job -> km -> km -> Prop) :
  emits_only (kc_sys conf) E -> (forall i ko, E (EvKeymap (KmResolvedKeyOutput i ko))) ->
  (forall j k k', pie E j k -> p15 j k -> P j k ->
     step_rel conf (fun j a b => pie E j a /\ (P j a -> Q j a b)) j k k' -> Q j k k') ->
  forall fuel j k k', pie E j k -> p15 j k -> P j k -> exec conf fuel j k = Ok k' -> Q j k k'.
Proof.
  intros He Hres Hstep fuel. induction fuel as [|f IH]; intros j k k' HE H15 HP H; [discriminate|].
  cbn [exec] in H. apply step_inv in H. apply Hstep; [exact HE|exact H15|exact HP|].
  eapply (step_calls conf E f) in H; [|exact He|exact Hres|exact HE].
  eapply (step_calls15 _ f) in H; [|now intros j0 a b [Hx _]|exact H15].
  eapply step_rel_mono; [|exact H]. cbn. intros j0 a b [[Hab HPa] H15a]. split; [exact HPa|]. intros HPj. eapply IH; eauto.
Qed.
End Calls15.

Section Switch.
Context {R Ctx Ev PKS KS : Type}.
Variable conf : kconf R Ctx Ev PKS KS.
Local Notation km := (keymap R Ctx Ev PKS KS).
Local Notation sys := (kc_sys conf).
Local Notation pos := (kc_pos conf).
Local Notation job := (job R Ev KS).
Implicit Types (k : km) (p : pending_state R Ev PKS).

(** [act ev]: whether an event switches it, on or off; [holds r]: whether the key
    switches it on while held; [rel]: what is claimed about "it is on" and "such a
    key is pressed". *)
Record switch := mkSwitch {
  on : Ctx -> bool;
  act : event Ev -> option bool;
  holds : R -> bool;
  good_state : KS -> Prop;
  key_at : u16 -> R -> Prop;
  ctx_ok : Ctx -> Prop;
  ev_ok : event Ev -> Prop;
  rel : bool -> bool -> Prop }.
Variable S : switch.

Definition collect (l : list (option (event Ev))) : list bool :=
  flat_map (fun o => match o with
                     | Some e => match act S e with Some b => [b] | None => [] end
                     | None => [] end) l.
Definition acts (kes : key_events Ev) : list bool := collect (map (fun se => Some (se_event se)) kes).
Definition at_once (kes : key_events Ev) : Prop :=
  Forall (fun se => act S (se_event se) <> None -> se_schedule se = Immediate) kes.
Definition neutral (b : bool) : Prop := forall f h, rel S f h -> rel S b h.
Definition is_release (i : u16) (ev : event Ev) : bool :=
  match ev with EvInput (Release j) => i =? j | _ => false end.

Record switches : Prop := {
  sw_tt : rel S true true;
  sw_false : rel S false false;
  sw_alone : rel S false true
    \/ forall i j r r', key_at S i r -> holds S r = true -> key_at S j r' -> holds S r' = true -> i = j;
  sw_start : forall i r, nth_error (kc_refs conf) (N.to_nat i) = Some r -> key_at S i r;
  sw_next : forall i c r r' kes, key_at S i r ->
    sys_new_pressed_key sys i c r = Ok (PkNewPressedKey (NpkKey r'), kes) -> key_at S i r';
  sw_decided : forall i c r ps ps' ev r' kes, key_at S i r ->
    sys_update_pending_state sys ps i c r ev = Ok (ps', Some (NpkKey r'), kes) -> key_at S i r';
  sw_press_hold : forall i c r x kes, holds S r = true -> sys_new_pressed_key sys i c r = Ok (x, kes) ->
    (exists ks, x = PkResolved ks /\ good_state S ks) /\ acts kes = [true] /\ at_once kes;
  sw_press : forall i c r x kes, holds S r = false -> sys_new_pressed_key sys i c r = Ok (x, kes) ->
    ((exists ks, x = PkResolved ks) /\ Forall neutral (acts kes) \/ acts kes = []) /\ at_once kes;
  sw_pending : forall i c r ps x ev kes, sys_update_pending_state sys ps i c r ev = Ok (x, kes) ->
    acts kes = [] /\ at_once kes;
  sw_state : forall i c r ks ks' ev kes, (holds S r = true -> good_state S ks) ->
    sys_update_state sys ks r c i ev = Ok (ks', kes) ->
    (holds S r = true -> good_state S ks') /\ at_once kes
    /\ acts kes = (if holds S r && is_release i ev then [false] else []);
  sw_ctx : forall c ev c' kes, ctx_ok S c -> ev_ok S ev -> sys_ctx_handle_event sys c ev = Ok (c', kes) ->
    ctx_ok S c' /\ acts kes = [] /\ at_once kes
    /\ on S c' = match act S ev with Some b => b | None => on S c end;
  sw_set : forall c t i, on S (sys_ctx_set_keymap_context sys c t i) = on S c
    /\ (ctx_ok S c -> ctx_ok S (sys_ctx_set_keymap_context sys c t i));
  sw_input : forall x, act S (EvInput x) = None /\ ev_ok S (EvInput x);
  sw_keymap : forall x, act S (EvKeymap x) = None /\ ev_ok S (EvKeymap x);
  sw_emits : emits_only sys (fun ev => not_physical ev /\ ev_ok S ev) }.
Hypothesis HS : switches.
Local Notation EV := (fun ev => not_physical ev /\ ev_ok S ev).

(** ** The pending events *)
Definition pacts (s : scheduler Ev) : list bool := collect (sc_pending s).
Definition silent (s : scheduler Ev) : Prop := Forall (fun en => act S (en_event en) = None) (sc_scheduled s).
Definition fin (b : bool) (l : list bool) : bool := fold_left (fun _ x => x) l b.
Lemma fin_app b l l' : fin b (l ++ l') = fin (fin b l) l'.
Proof. apply fold_left_app. Qed.
Lemma collect_app l l' : collect (l ++ l') = collect l ++ collect l'.
Proof. apply flat_map_app. Qed.

Lemma event_acts s se s' : (act S (se_event se) <> None -> se_schedule se = Immediate) -> silent s ->
  sched_event_in pos s se = Ok s' -> pacts s' = pacts s ++ acts [se] /\ silent s'.
Proof.
  intros Hse Hs H. unfold pacts, silent in *. apply sched_event_in_ok in H as (_ & [(_ & -> & -> & _)|(t & Et & -> & Ha)]).
  - rewrite collect_app. auto.
  - assert (Hn : act S (se_event se) = None).
    { destruct (act S (se_event se)) eqn:Ea; [|reflexivity]. assert (X : Some b <> None) by discriminate. apply Hse in X. congruence. }
    apply sched_after_ok in Ha as (_ & _ & Es & _). rewrite Es. unfold acts. cbn. rewrite Hn. cbn. rewrite app_nil_r.
    split; [reflexivity|]. apply insert_at_Forall; [exact Hs|exact Hn].
Qed.
Lemma all_acts kes : forall s s', at_once kes -> silent s -> sched_all pos s kes = Ok s' ->
  pacts s' = pacts s ++ acts kes /\ silent s'.
Proof.
  induction kes as [|se kes IH]; intros s s' Ha Hs H; cbn in H.
  - inv_ok H. unfold acts. cbn. now rewrite app_nil_r.
  - inv_bind H. inversion Ha; subst. destruct (event_acts _ _ _ H2 Hs E) as [A1 A2].
    destruct (IH _ _ H3 A2 H) as [B1 B2]. split; [|exact B2]. rewrite B1, A1, <- app_assoc. f_equal.
    unfold acts. cbn [map]. rewrite <- collect_app. reflexivity.
Qed.

(** ** The pressed keys *)
Definition hold_pi (pi : pressed_input R KS) : bool := match pi with PiKey _ r _ => holds S r | PiVirtual _ => false end.
Definition held (pis : list (pressed_input R KS)) : bool := existsb hold_pi pis.
Definition hold_of (i : u16) (pi : pressed_input R KS) : bool := hold_pi pi && pi_has_index i pi.
Definition pi_ok (pi : pressed_input R KS) : Prop :=
  match pi with PiKey i r ks => key_at S i r /\ (holds S r = true -> good_state S ks) | PiVirtual _ => True end.
Definition keep (a b : list (pressed_input R KS)) : Prop :=
  map (fun pi => match pi with PiKey i r _ => Some (i, r) | PiVirtual _ => None end) b
  = map (fun pi => match pi with PiKey i r _ => Some (i, r) | PiVirtual _ => None end) a.
Lemma keep_hold f a b : keep a b ->
  (forall i r ks ks', f (PiKey i r ks) = f (PiKey i r ks')) -> (forall ko, f (PiVirtual ko) = false) ->
  existsb f b = existsb f a.
Proof.
  unfold keep. revert b. induction a as [|x a IH]; intros [|y b] H Hf Hv; cbn in *; try discriminate; [reflexivity|].
  injection H as H1 H2. rewrite (IH b) by assumption.
  destruct x as [i r ks|ko], y as [i' r' ks'|ko']; try discriminate; [|now rewrite !Hv].
  injection H1 as -> ->. now rewrite (Hf i r ks ks').
Qed.
Lemma keep_held a b : keep a b -> held b = held a.
Proof. intros H. apply keep_hold; [exact H|reflexivity|reflexivity]. Qed.

Lemma update_list_acts c ev pis : forall s pis' s', Forall pi_ok pis -> silent s ->
  update_pressed_list conf c ev pis s = Ok (pis', s') ->
  Forall pi_ok pis' /\ silent s' /\ keep pis pis'
  /\ exists l, pacts s' = pacts s ++ l /\ (forall b, In b l -> b = false)
     /\ (l = [] <-> existsb (fun pi => match pi with PiKey i r _ => holds S r && is_release i ev | _ => false end) pis = false).
Proof.
  induction pis as [|[i r ks|ko] pis IH]; intros s pis' s' Hp Hs H; cbn [update_pressed_list] in H.
  - inv_ok H. split; [constructor|]. split; [exact Hs|]. split; [reflexivity|]. exists []. rewrite app_nil_r.
    split; [reflexivity|]. split; [intros b []|]. cbn. tauto.
  - inv_bind H. destruct a as [ks' kes]. inv_bind H. inv_bind H. destruct a0 as [t' s2]. inv_ok H.
    inversion Hp as [|? ? Hx Hp']; subst. destruct Hx as [Hk Hg].
    destruct (sw_state HS _ _ _ _ _ _ _ Hg E) as (F1 & F2 & F3).
    destruct (all_acts _ _ _ F2 Hs E0) as [A1 A2].
    apply IH in E1 as (C1 & C2 & C3 & l & C4 & C5 & C6); [|exact Hp'|exact A2].
    split; [constructor; [split; assumption|exact C1]|]. split; [exact C2|]. split; [unfold keep in *; cbn; now rewrite C3|].
    exists (acts kes ++ l). rewrite C4, A1, <- app_assoc. split; [reflexivity|]. cbn [existsb].
    destruct (holds S r && is_release i ev); rewrite F3; cbn.
    + split; [intros b [<-|Hb]; [reflexivity|now apply C5]|]. split; discriminate.
    + split; [exact C5|exact C6].
  - inv_bind H. destruct a as [t' s2]. inv_ok H. inversion Hp; subst.
    apply IH in E as (C1 & C2 & C3 & l & C4 & C5 & C6); [|assumption|exact Hs].
    split; [constructor; [exact I|exact C1]|]. split; [exact C2|]. split; [unfold keep in *; cbn; now rewrite C3|].
    exists l. cbn [existsb]. auto.
Qed.
Lemma fin_false l b : (forall x, In x l -> x = false) -> l <> [] -> fin b l = false.
Proof.
  revert b. induction l as [|x l IH]; intros b H Hn; [contradiction|]. cbn. fold (fin x l).
  destruct l as [|y l]; [cbn; apply H; now left|]. apply IH; [|discriminate]. intros z Hz. apply H. now right.
Qed.
Lemma fin_neutral l : Forall neutral l -> forall f h, rel S f h -> rel S (fin f l) h.
Proof. induction 1 as [|x l Hx _ IH]; intros f h Hf; [exact Hf|]. cbn. apply IH. eapply Hx. exact Hf. Qed.

(** ** The invariant *)
Definition sbase k : Prop :=
  ctx_ok S (km_ctx k) /\ silent (km_sched k) /\ Forall pi_ok (km_pressed k)
  /\ (forall p, km_pending k = Some p -> key_at S (pd_index p) (pd_ref p)).
Definition value k : bool := fin (on S (km_ctx k)) (pacts (km_sched k)).
Definition calm k : Prop :=
  forall p, km_pending k = Some p -> holds S (pd_ref p) = false /\ pacts (km_sched k) = [].
Definition sgood k : Prop := sbase k /\ calm k /\ rel S (value k) (held (km_pressed k)).
Definition pre (j : job) k : Prop :=
  sbase k /\
  match j with
  | JHandleEvent ev =>
      calm k /\ (km_pending k <> None -> act S ev = None)
      /\ rel S (fin (on S (km_ctx k)) (match act S ev with Some b => [b] | None => [] end ++ pacts (km_sched k)))
               (held (km_pressed k))
  | JResolve ks =>
      rel S (value k) (held (km_pressed k)
        || match km_pending k with Some p => holds S (pd_ref p) | None => false end)
      /\ (forall p, km_pending k = Some p -> holds S (pd_ref p) = true -> good_state S ks)
  | JPressLoop i r => sgood k /\ key_at S i r /\ km_pending k = None /\ pacts (km_sched k) = []
  | JPendingLoop npk =>
      sgood k /\ match npk with NpkKey r => forall p, km_pending k = Some p -> key_at S (pd_index p) r | NpkNoOp => True end
  | JProcessInput ie => sgood k /\ (physical ie = true -> pacts (km_sched k) = [])
  | JUpdatePending _ => km_pending k <> None -> sgood k
  | JHandlePending => sgood k
  end.
Definition post (j : job) k k' : Prop :=
  match j with
  | JUpdatePending _ => (km_pending k = None -> k' = k) /\ (km_pending k <> None -> sgood k')
  | _ => sgood k'
  end.

Lemma sgood_same a b : sgood a -> km_ctx b = km_ctx a -> km_sched b = km_sched a -> km_pressed b = km_pressed a ->
  km_pending b = km_pending a -> sgood b.
Proof.
  intros ((A1 & A2 & A3 & A4) & A5 & A6) E1 E2 E3 E4. unfold sgood, sbase, calm, value. rewrite E1, E2, E3, E4. auto 10.
Qed.

(** Scheduling events. *)
Lemma schedule_good k kes k' : sbase k -> at_once kes -> schedule_all conf k kes = Ok k' ->
  sbase k' /\ pacts (km_sched k') = pacts (km_sched k) ++ acts kes /\ km_ctx k' = km_ctx k
  /\ km_pressed k' = km_pressed k /\ km_pending k' = km_pending k.
Proof.
  intros (A1 & A2 & A3 & A4) Ha H. apply schedule_all_ok in H as (s & Hs & ->).
  destruct (all_acts _ _ _ Ha A2 Hs) as [B1 B2]. cbn. repeat split; auto.
Qed.
Lemma context_good k ev k' : sbase k -> ev_ok S ev -> update_context conf k ev = Ok k' ->
  sbase k' /\ pacts (km_sched k') = pacts (km_sched k) /\ km_pressed k' = km_pressed k /\ km_pending k' = km_pending k
  /\ on S (km_ctx k') = match act S ev with Some b => b | None => on S (km_ctx k) end.
Proof.
  intros (A1 & A2 & A3 & A4) He H. apply update_context_ok in H as (c & kes & s & -> & Hc & Hs).
  destruct (sw_ctx HS _ _ _ _ A1 He Hc) as (B1 & B2 & B3 & B4).
  destruct (all_acts _ _ _ B3 A2 Hs) as [C1 C2]. rewrite B2, app_nil_r in C1. cbn. repeat split; auto.
Qed.
Lemma pressed_good k ev k' : sbase k -> update_pressed conf k ev = Ok k' ->
  sbase k' /\ km_ctx k' = km_ctx k /\ km_pending k' = km_pending k /\ keep (km_pressed k) (km_pressed k')
  /\ exists l, pacts (km_sched k') = pacts (km_sched k) ++ l /\ (forall b, In b l -> b = false)
     /\ (l = [] <-> existsb (fun pi => match pi with PiKey i r _ => holds S r && is_release i ev | _ => false end)
                     (km_pressed k) = false).
Proof.
  intros (A1 & A2 & A3 & A4) H. apply update_pressed_ok in H as (pis & s & -> & H).
  destruct (update_list_acts _ _ _ _ _ _ A3 A2 H) as (B1 & B2 & B3 & l & B4 & B5 & B6).
  split; [repeat split; auto|]. cbn. repeat split; auto. exists l. auto.
Qed.
(** An event other than a release changes nothing. *)
Lemma pressed_calm k ev k' : (forall i, is_release i ev = false) -> sbase k -> update_pressed conf k ev = Ok k' ->
  sbase k' /\ km_ctx k' = km_ctx k /\ km_pending k' = km_pending k /\ keep (km_pressed k) (km_pressed k')
  /\ pacts (km_sched k') = pacts (km_sched k).
Proof.
  intros Hr Hb H. destruct (pressed_good _ _ _ Hb H) as (B1 & B2 & B3 & B4 & l & B5 & _ & B6).
  repeat split; auto; try apply B1. rewrite (proj2 B6), app_nil_r in B5; [exact B5|].
  clear -Hr. induction (km_pressed k) as [|[i r ks|ko] pis IH]; cbn; auto. now rewrite Hr, andb_false_r.
Qed.
Lemma not_physical_release (ev : event Ev) i : not_physical ev -> is_release i ev = false.
Proof. destruct ev as [[j|j|ko|ko]|j e|kk]; cbn; try reflexivity. discriminate. Qed.

Lemma in_remove_first {A} (f : A -> bool) l x : In x (remove_first f l) -> In x l.
Proof. induction l as [|y l IH]; cbn; [auto|]. destruct (f y); cbn; intuition. Qed.
Lemma remove_release i pis : NoDup (pressed_indices pis) -> Forall pi_ok pis ->
  (existsb (hold_of i) pis = false -> held (remove_first (pi_has_index i) pis) = held pis)
  /\ (existsb (hold_of i) pis = true -> rel S false (held (remove_first (pi_has_index i) pis))).
Proof.
  intros Hd Hok. split.
  - clear Hd Hok. unfold held. induction pis as [|pi pis IH]; cbn; [reflexivity|]. intros H. apply orb_false_iff in H as [H1 H2].
    unfold hold_of in H1. destruct (pi_has_index i pi); [rewrite andb_true_r in H1; now rewrite H1|].
    cbn. now rewrite (IH H2).
  - intros H. destruct (sw_alone HS) as [Hr|Hal]; [destruct (held _); [exact Hr|exact (sw_false HS)]|].
    assert (Hx : held (remove_first (pi_has_index i) pis) = false); [|rewrite Hx; exact (sw_false HS)].
    apply existsb_exists in H as (pi & Hin & Hpi). unfold hold_of in Hpi. apply andb_true_iff in Hpi as [Hh Hi].
    destruct pi as [i' r ks|ko]; [|discriminate]. cbn in Hh, Hi. apply N.eqb_eq in Hi. 
    assert (Hkr : key_at S i' r) by (rewrite Forall_forall in Hok; exact (proj1 (Hok _ Hin))).
    apply not_true_is_false. intros Hx. apply existsb_exists in Hx as (pj & Hj & Hhj).
    assert (Hj' : In pj pis) by (eapply in_remove_first; exact Hj).
    destruct pj as [j r' ks'|ko]; [|discriminate]. cbn in Hhj.
    assert (Hkj : key_at S j r') by (rewrite Forall_forall in Hok; exact (proj1 (Hok _ Hj'))).
    pose proof (Hal _ _ _ _ Hkr Hh Hkj Hhj) as <-.
    assert (Hin' : In i' (pressed_indices (remove_first (pi_has_index i) pis))).
    { clear -Hj. induction (remove_first _ pis) as [|[a b c|ko] l IH]; cbn in *; [contradiction| |].
      - destruct Hj as [Hj|Hj]; [injection Hj as -> _ _; now left|right; auto].
      - destruct Hj as [Hj|Hj]; [discriminate|auto]. }
    clear -Hd Hi Hin'. induction pis as [|[a b c|ko] l IH]; cbn in *; [contradiction| |].
    + inversion Hd as [|? ? Hn Hd']. destruct (N.eqb_spec i a); [congruence|]. cbn in Hin'. destruct Hin' as [Hx|Hx]; [congruence|auto].
    + auto.
Qed.

Lemma exec_switch fuel j k k' : pie EV j k -> p15 j k -> pre j k -> exec conf fuel j k = Ok k' -> post j k k'.
Proof.
  apply (exec_contract_both conf EV pre post).
  { exact (sw_emits HS). }
  { intros i ko. split; [exact I|]. apply (sw_keymap HS). }
  clear fuel j k k'. intros j k k' [[He Hq] Hj] [H15 HP15] [Hb HJ] H.
  assert (Hemit : forall i r ks a b, sgood a ->
    emit_rel conf (fun (j : job) a b => pie EV j a /\ (pre j a -> post j a b)) i r ks a b -> sgood b).
  { intros i r ks a b Ha (o & _ & Ho). destruct o; [|subst; exact Ha]. destruct Ho as [_ Ho]. apply Ho.
    destruct Ha as (A1 & A2 & A3). split; [exact A1|]. rewrite (proj1 (sw_keymap HS _)). split; [exact A2|]. split; [auto|exact A3]. }
  assert (Hui : forall a x k1 k2, (forall i, is_release i (EvInput x) = false) -> sgood a ->
     update_pressed conf a (EvInput x) = Ok k1 -> update_context conf k1 (EvInput x) = Ok k2 ->
     sgood k2 /\ km_pending k2 = km_pending a /\ pacts (km_sched k2) = pacts (km_sched a)).
  { intros a x k1 k2 Hx (A1 & A2 & A3) H1 H2. destruct (pressed_calm _ _ _ Hx A1 H1) as (B1 & B2 & B3 & B4 & B5).
    destruct (context_good _ _ _ B1 (proj2 (sw_input HS x)) H2) as (C1 & C2 & C3 & C4 & C5).
    rewrite (proj1 (sw_input HS x)), B2 in C5.
    split; [|split; congruence]. split; [exact C1|]. unfold calm, value in *. rewrite C2, C3, C4, C5, B3, B5.
    split; [exact A2|]. rewrite (keep_held _ _ B4). exact A3. }
  assert (Hset : forall a p, sgood a -> key_at S (pd_index p) (pd_ref p) -> holds S (pd_ref p) = false ->
     pacts (km_sched a) = [] -> sgood (set_pending a (Some p))).
  { intros a p ((A1 & A2 & A3 & A4) & A5 & A6) K1 K2 K3. split; [repeat split; auto|].
    - cbn. intros p' Hp. injection Hp as <-. exact K1.
    - split; [|exact A6]. intros p' Hp. injection Hp as <-. auto. }
  assert (Hpush : forall a i r ks, sbase a -> key_at S i r -> (holds S r = true -> good_state S ks) -> km_pending a = None ->
     rel S (value a) (held (km_pressed a) || holds S r) ->
     sgood (set_pressed a (km_pressed a ++ [PiKey i r ks]))).
  { intros a i r ks (A1 & A2 & A3 & A4) K1 K2 K3 K4. split; [split; [exact A1|]; split; [exact A2|]; split; [|exact A4]|].
    - cbn. apply Forall_app. split; [exact A3|]. constructor; [split; assumption|constructor].
    - split; [intros p Hp; cbn in Hp; congruence|]. cbn. unfold held in *. rewrite existsb_app. cbn. now rewrite orb_false_r. }
  assert (Hnot : forall i c r x kes, sys_new_pressed_key sys i c r = Ok (x, kes) -> (forall ks, x <> PkResolved ks) ->
     holds S r = false /\ acts kes = [] /\ at_once kes).
  { intros i c r x kes Hx Hn. destruct (holds S r) eqn:Hh.
    - destruct (sw_press_hold HS _ _ _ _ _ Hh Hx) as ((ks0 & Ek & _) & _). now destruct (Hn ks0).
    - destruct (sw_press HS _ _ _ _ _ Hh Hx) as ([[[ks0 Ek] _]|Ha] & Ho); [now destruct (Hn ks0)|]. auto. }
  assert (Hsch : forall a kes b, sgood a -> at_once kes -> acts kes = [] -> schedule_all conf a kes = Ok b ->
     sgood b /\ km_pressed b = km_pressed a /\ km_pending b = km_pending a /\ pacts (km_sched b) = pacts (km_sched a)).
  { intros a kes b (A1 & A2 & A3) Ho Ha Hs. destruct (schedule_good _ _ _ A1 Ho Hs) as (B1 & B2 & B3 & B4 & B5).
    rewrite Ha, app_nil_r in B2. split; [|auto]. split; [exact B1|]. unfold calm, value in *. rewrite B2, B3, B4, B5. auto. }
  destruct H.
  - exact HJ.
  - destruct HJ as (A1 & A2 & A3). split; [exact A1|]. unfold calm, value, pacts in *. cbn in *. rewrite H in A2, A3.
    split; assumption.
  - destruct H0 as [_ H0]. destruct H1 as [_ H1]. destruct HJ as (A1 & A2 & A3).
    unfold calm, value, pacts in *. rewrite H in *. cbn [collect flat_map] in *.
    assert (X : sgood k1).
    { apply H0. split; [exact A1|]. cbn. fold (collect t) in *. split; [|split; [|exact A3]].
      - intros p Hp. destruct (A2 p Hp) as [B1 B2]. split; [exact B1|]. now apply app_eq_nil in B2.
      - intros Hp. destruct (km_pending k) as [p|]; [|congruence]. destruct (A2 p eq_refl) as [_ B2].
        apply app_eq_nil in B2 as [B2 _]. now destruct (act S ev). }
    apply H1. split; [exact (proj1 X)|exact X].
  - destruct H as [_ H]. destruct HJ as (A1 & A2 & A3).
    destruct (run_callback_eq k ev) as (new & Er & _). rewrite Er in H.
    destruct Hj as [Hj1 Hj2].
    assert (Hrel : forall i, is_release i ev = false) by (intros i; now apply not_physical_release).
    assert (X1 : sbase k1 /\ calm k1 /\ rel S (fin (match act S ev with Some b => b | None => on S (km_ctx k1) end) (pacts (km_sched k1)))
                                        (held (km_pressed k1))).
    { destruct (km_pending k) as [p|] eqn:Hp.
      - rewrite A2 in * by discriminate. destruct H as [_ H].
        { split; [exact Hb|]. intros _. apply (sgood_same k); try reflexivity. split; [exact Hb|]. split; [exact A1|exact A3]. }
        cbn in H. apply H. congruence.
      - destruct H as [H _].
        { split; [exact Hb|]. cbn. congruence. }
        cbn in H. rewrite (H Hp). split; [exact Hb|]. split; [exact A1|]. cbn. destruct (act S ev); exact A3. }
    assert (X : sgood k3).
    { destruct X1 as (X1 & X2 & X3).
      destruct (pressed_calm _ _ _ Hrel X1 H0) as (B1 & B2 & B3 & B4 & B5).
      destruct (context_good _ _ _ B1 Hj2 H1) as (C1 & C2 & C3 & C4 & C5).
      rewrite B2 in C5.
      split; [exact C1|]. unfold calm, value in *. rewrite C2, C3, C4, C5, B3, B5.
      split; [exact X2|]. rewrite (keep_held _ _ B4). exact X3. }
    destruct ev as [x| |]; [|subst; exact X..]. destruct H2 as [_ H2]. apply H2. split; [exact (proj1 X)|].
    split; [exact X|]. intros Hp. cbn in Hj1. congruence.
  - (* SrInPending *) destruct H1 as [_ H1]. destruct H2 as [_ H2]. destruct HJ as (HG & _). pose proof HG as (_ & A2 & _). destruct (A2 p H) as [B1 B2].
    assert (X0 : sgood (set_pending k (Some (with_queued p (pd_queued p ++ [EvInput ie])))))
      by (apply Hset; [exact HG|exact (proj2 (proj2 (proj2 Hb)) p H)|exact B1|exact B2]).
    assert (X : sgood k1) by (apply H1; [split; [exact (proj1 X0)|intros _; exact X0]|discriminate]).
    apply H2. split; [exact (proj1 X)|exact X].
  - (* SrInPressHeld *) destruct H3 as [_ H3]. destruct HJ as (HG & _).
    destruct (Hui k (Press i) k1 k2 (fun _ => eq_refl) HG H0 H1) as (X & _). apply H3. split; [exact (proj1 X)|exact X].
  - (* SrInPress *) destruct H4 as [_ H4]. destruct H5 as [_ H5]. destruct HJ as (HG & Hp).
    destruct (Hui k (Press i) k1 k2 (fun _ => eq_refl) HG H0 H1) as (X & Y & Z).
    assert (X3 : sgood k3).
    { apply H4. split; [exact (proj1 X)|]. split; [exact X|]. split; [eapply (sw_start HS); eauto|]. split; [congruence|].
      rewrite Z. now apply Hp. }
    apply H5. split; [exact (proj1 X3)|exact X3].
  - (* SrInRelease *) destruct H2 as [_ H2]. destruct HJ as ((G1 & G2 & G3) & Hp). specialize (Hp eq_refl).
    destruct (pressed_good _ _ _ G1 H0) as (B1 & B2 & B3 & B4 & l & B5 & B6 & B7).
    destruct (context_good _ _ _ B1 (proj2 (sw_input HS _)) H1) as (C1 & C2 & C3 & C4 & C5).
    rewrite (proj1 (sw_input HS _)), B2 in C5.
    assert (X : sgood (set_pressed k2 (remove_first (pi_has_index i) (km_pressed k2)))).
    2: { apply H2. split; [exact (proj1 X)|exact X]. }
    assert (Hnd : NoDup (pressed_indices (km_pressed k2))).
    { rewrite C3. clear -B4 H15. destruct H15 as [H15 _].
      assert (E : pressed_indices (km_pressed k1) = pressed_indices (km_pressed k)); [|now rewrite E].
      unfold keep in B4. revert B4. generalize (km_pressed k1), (km_pressed k). clear.
      induction l as [|[a b c|ko] l IH]; intros [|[a' b' c'|ko'] l'] H; cbn in *; try discriminate; try reflexivity.
      - injection H as -> _ H. now rewrite (IH _ H).
      - injection H as H. now rewrite (IH _ H). }
    destruct C1 as (D1 & D2 & D3 & D4).
    destruct (remove_release i _ Hnd D3) as [R1 R2].
    assert (Hex : existsb (hold_of i) (km_pressed k2)
                = existsb (fun pi => match pi with PiKey i0 r _ => holds S r && is_release i0 (EvInput (Release i)) | _ => false end) (km_pressed k)).
    { rewrite C3. rewrite (keep_hold (hold_of i) _ _ B4); [|reflexivity|reflexivity]. clear.
      induction (km_pressed k) as [|[a b c|ko] l IH]; cbn; [reflexivity| |exact IH].
      rewrite IH. unfold hold_of. cbn. now rewrite (N.eqb_sym i a). }
    split; [|split].
    + split; [exact D1|]. split; [exact D2|]. split; [|exact D4]. cbn. rewrite Forall_forall in *. intros x Hx.
      apply in_remove_first in Hx. auto.
    + intros p0 Hp0. cbn in Hp0. congruence.
    + unfold value in *. cbn [set_pressed km_ctx km_sched km_pressed]. rewrite C2, C5, B5, fin_app.
      destruct (existsb (hold_of i) (km_pressed k2)) eqn:Ex.
      * rewrite fin_false; [now apply R2|exact B6|]. intros ->. destruct B7 as [B7 _]. rewrite <- Hex in B7. now specialize (B7 eq_refl).
      * rewrite (R1 eq_refl). destruct B7 as [_ B7]. rewrite B7 by congruence. cbn [fin fold_left]. rewrite C3, (keep_held _ _ B4). exact G3.
  - (* SrInVPress *) destruct H3 as [_ H3]. destruct HJ as (HG & _).
    destruct (Hui k (VirtualKeyPress ko) k1 k2 (fun _ => eq_refl) HG H0 H1) as ((X1 & X2 & X3) & _).
    assert (X : sgood (set_pressed k2 (km_pressed k2 ++ [PiVirtual ko]))).
    { destruct X1 as (D1 & D2 & D3 & D4). split; [split; [exact D1|]; split; [exact D2|]; split; [|exact D4]|].
      - cbn. apply Forall_app. split; [exact D3|]. repeat constructor.
      - split; [exact X2|]. cbn. unfold held in *. rewrite existsb_app. cbn. now rewrite orb_false_r. }
    apply H3. split; [exact (proj1 X)|exact X].
  - (* SrInVRelease *) destruct H2 as [_ H2]. destruct HJ as (HG & _).
    destruct (Hui k (VirtualKeyRelease ko) k1 k2 (fun _ => eq_refl) HG H0 H1) as ((X1 & X2 & X3) & _).
    match type of H2 with pre _ ?st -> _ => assert (X : sgood st) end.
    { destruct X1 as (D1 & D2 & D3 & D4). split; [split; [exact D1|]; split; [exact D2|]; split; [|exact D4]|].
      - cbn. rewrite Forall_forall in *. intros x Hx. apply in_remove_first in Hx. auto.
      - split; [exact X2|]. unfold value in *. cbn. match goal with |- rel S _ ?h => assert (Eh : h = held (km_pressed k2)); [|now rewrite Eh] end. unfold held. clear.
        induction (km_pressed k2) as [|[a b c|ko'] l IH]; cbn; [reflexivity|now rewrite IH|].
        destruct (ko_eqb ko ko'); cbn; [reflexivity|exact IH]. }
    apply H2. split; [exact (proj1 X)|exact X].
  - (* SrPlResolved *) destruct HJ as (HG & Hk & Hn & Hp). eapply Hemit; [|exact H2]. clear H2.
    destruct (holds S r) eqn:Hh.
    + destruct (sw_press_hold HS _ _ _ _ _ Hh H) as ((ks0 & Ek & Hgs) & Ha & Ho). injection Ek as <-.
      destruct (schedule_good _ _ _ Hb Ho H0) as (B1 & B2 & B3 & B4 & B5).
      apply Hpush; [exact B1|exact Hk|auto|congruence|]. rewrite Hh, orb_true_r. unfold value. rewrite B2, Ha, fin_app. exact (sw_tt HS).
    + destruct (sw_press HS _ _ _ _ _ Hh H) as (Ha & Ho).
      destruct (schedule_good _ _ _ Hb Ho H0) as (B1 & B2 & B3 & B4 & B5).
      apply Hpush; [exact B1|exact Hk|congruence|congruence|]. rewrite Hh, orb_false_r. unfold value. rewrite B2, B3, B4, fin_app.
      destruct Ha as [[_ Ha]|Ha]; [|rewrite Ha; exact (proj2 (proj2 HG))]. apply fin_neutral; [exact Ha|exact (proj2 (proj2 HG))].
  - (* SrPlKey *) destruct H1 as [_ H1]. destruct HJ as (HG & Hk & Hn & Hp).
    destruct (Hnot _ _ _ _ _ H ltac:(discriminate)) as (Hh & Ha & Ho).
    destruct (Hsch _ _ _ HG Ho Ha H0) as (X & E1 & E2 & E3).
    apply H1. split; [exact (proj1 X)|]. split; [exact X|]. split; [eapply (sw_next HS); eauto|]. split; congruence.
  - (* SrPlNoOp *) destruct HJ as (HG & Hk & Hn & Hp).
    destruct (Hnot _ _ _ _ _ H ltac:(discriminate)) as (Hh & Ha & Ho).
    destruct (Hsch _ _ _ HG Ho Ha H0) as (X & E1 & E2 & E3).
    apply Hpush; [exact (proj1 X)|exact Hk|congruence|congruence|]. rewrite Hh, orb_false_r. exact (proj2 (proj2 X)).
  - (* SrPlPending *) destruct HJ as (HG & Hk & Hn & Hp).
    destruct (Hnot _ _ _ _ _ H ltac:(discriminate)) as (Hh & Ha & Ho).
    destruct (Hsch _ _ _ HG Ho Ha H0) as (X & E1 & E2 & E3).
    apply Hset; [exact X|exact Hk|exact Hh|congruence].
  - (* SrUpNone *) split; [reflexivity|]. congruence.
  - (* SrUpStay *) split; [congruence|]. intros _. cbn in HJ. assert (HG : sgood k) by (apply HJ; congruence).
    pose proof HG as (_ & A2 & _). destruct (A2 p H) as [B1 B2]. pose proof (proj2 (proj2 (proj2 Hb)) p H) as Hk.
    destruct (sw_pending HS _ _ _ _ _ _ _ H0) as [Ha Ho].
    eapply Hsch; [|exact Ho|exact Ha|exact H1]. now apply Hset.
  - (* SrUpGo *) split; [congruence|]. intros _. cbn in HJ. assert (HG : sgood k) by (apply HJ; congruence).
    pose proof HG as (_ & A2 & _). destruct (A2 p H) as [B1 B2]. pose proof (proj2 (proj2 (proj2 Hb)) p H) as Hk.
    destruct (sw_pending HS _ _ _ _ _ _ _ H0) as [Ha Ho].
    assert (X0 : sgood (set_pending k (Some (mkPending (pd_index p) (pd_ref p) pks (pd_queued p))))) by now apply Hset.
    destruct (Hsch _ _ _ X0 Ho Ha H1) as (X & E1 & E2 & E3). destruct H2 as [_ H2]. apply H2. split; [exact (proj1 X)|]. split; [exact X|].
    destruct npk as [r|]; [|exact I]. intros p' Hp'. rewrite E2 in Hp'. injection Hp' as <-. cbn. eapply (sw_decided HS); eauto.
  - (* SrLoopNone *) exact (proj1 HJ).
  - (* SrLoopNoOp *) destruct H0 as [_ H0]. destruct HJ as [HG _]. pose proof HG as (_ & A2 & A3). destruct (A2 p H) as [B1 B2].
    apply H0. split; [exact Hb|]. rewrite H, B1, orb_false_r. split; [exact A3|]. intros p' Hp'. injection Hp' as <-. congruence.
  - (* SrLoopResolved *) destruct H2 as [_ H2]. destruct HJ as [HG HK]. specialize (HK p H). pose proof HG as (_ & A2 & A3).
    destruct (A2 p H) as [B1 B2]. apply H2. clear H2.
    assert (Hb0 : sbase (set_pending k (Some (mkPending (pd_index p) r (pd_state p) (pd_queued p))))).
    { destruct Hb as (D1 & D2 & D3 & D4). split; [exact D1|]. split; [exact D2|]. split; [exact D3|]. cbn. intros p' Hp'.
      injection Hp' as <-. exact HK. }
    destruct (holds S r) eqn:Hh.
    + destruct (sw_press_hold HS _ _ _ _ _ Hh H0) as ((ks0 & Ek & Hgs) & Ha & Ho). injection Ek as <-.
      destruct (schedule_good _ _ _ Hb0 Ho H1) as (C1 & C2 & C3 & C4 & C5).
      split; [exact C1|]. rewrite C5. cbn. rewrite Hh, orb_true_r. unfold value. rewrite C2, Ha, fin_app.
      split; [exact (sw_tt HS)|auto].
    + destruct (sw_press HS _ _ _ _ _ Hh H0) as (Ha & Ho).
      destruct (schedule_good _ _ _ Hb0 Ho H1) as (C1 & C2 & C3 & C4 & C5).
      split; [exact C1|]. rewrite C5. cbn. rewrite Hh, orb_false_r. split; [|intros p' Hp'; injection Hp' as <-; cbn; congruence].
      unfold value. rewrite C2, C3, C4, fin_app.
      destruct Ha as [[_ Ha]|Ha]; [|rewrite Ha; exact A3]. apply fin_neutral; [exact Ha|exact A3].
  - (* SrLoopKey *) destruct H2 as [_ H2]. destruct HJ as [HG HK]. specialize (HK p H). pose proof HG as (_ & A2 & A3).
    destruct (A2 p H) as [B1 B2]. destruct (Hnot _ _ _ _ _ H0 ltac:(discriminate)) as (Hh & Ha & Ho).
    assert (X0 : sgood (set_pending k (Some (mkPending (pd_index p) r (pd_state p) (pd_queued p))))) by now apply Hset.
    destruct (Hsch _ _ _ X0 Ho Ha H1) as (X & E1 & E2 & E3). apply H2. split; [exact (proj1 X)|]. split; [exact X|].
    intros p' Hp'. rewrite E2 in Hp'. injection Hp' as <-. cbn. eapply (sw_next HS); eauto.
  - (* SrLoopKeyNoOp *) destruct H2 as [_ H2]. destruct HJ as [HG HK]. specialize (HK p H). pose proof HG as (_ & A2 & A3).
    destruct (A2 p H) as [B1 B2]. destruct (Hnot _ _ _ _ _ H0 ltac:(discriminate)) as (Hh & Ha & Ho).
    assert (X0 : sgood (set_pending k (Some (mkPending (pd_index p) r (pd_state p) (pd_queued p))))) by now apply Hset.
    destruct (Hsch _ _ _ X0 Ho Ha H1) as (X & E1 & E2 & E3). apply H2. split; [exact (proj1 X)|]. rewrite E2. cbn. rewrite Hh, orb_false_r.
    split; [exact (proj2 (proj2 X))|]. intros p' Hp'. injection Hp' as <-. cbn. congruence.
  - (* SrLoopPending *) destruct HJ as [HG HK]. specialize (HK p H). pose proof HG as (_ & A2 & A3).
    destruct (A2 p H) as [B1 B2]. destruct (Hnot _ _ _ _ _ H0 ltac:(discriminate)) as (Hh & Ha & Ho).
    assert (X0 : sgood (set_pending k (Some (mkPending (pd_index p) r (pd_state p) (pd_queued p))))) by now apply Hset.
    destruct (Hsch _ _ _ X0 Ho Ha H1) as (X & E1 & E2 & E3).
    apply (sgood_same (set_pending k1 (Some (mkPending (pd_index p) r pks [])))); try reflexivity.
    apply Hset; [exact X|exact HK|exact Hh|]. rewrite E3. exact B2.
  - (* SrResNone *) destruct HJ as [HJ _]. rewrite H, orb_false_r in HJ. split; [exact Hb|]. split; [|exact HJ]. intros p Hp. congruence.
  - (* SrResolve *) destruct H3 as [_ H3]. eapply Hemit; [|exact H4]. clear H4. destruct HJ as [HJ HJ2]. rewrite H in HJ.
    apply requeue_inputs in H1; [|now apply resolve_queue_inputs, Hq]. subst s.
    match type of H3 with pre _ ?st -> _ => assert (X : sgood st) end.
    2: { apply H3. split; [exact (proj1 X)|exact X]. }
    apply (sgood_same (set_pressed (set_sched (set_pending k None) (sched_cancel (km_sched k) (pd_index p)))
       (km_pressed k ++ [PiKey (pd_index p) (pd_ref p) ks]))); try reflexivity.
    apply (Hpush (set_sched (set_pending k None) (sched_cancel (km_sched k) (pd_index p)))).
    + destruct Hb as (D1 & D2 & D3 & D4). split; [exact D1|]. split; [|split; [exact D3|discriminate]].
      unfold silent in *. cbn. apply Forall_map. eapply Forall_impl; [|exact D2]. intros en Hen.
      assert (Hy : en_event (cancel_entry (pd_index p) en) = en_event en)
        by (unfold cancel_entry; destruct (en_event en) eqn:Ee; try congruence; destruct (_ =? _); cbn; congruence).
      now rewrite Hy.
    + exact (proj2 (proj2 (proj2 Hb)) p H).
    + exact (HJ2 p H).
    + reflexivity.
    + exact HJ.
Qed.

(** ** Between API calls *)
Definition rest k : Prop := sgood k /\ drained k /\ inv15 k /\ ie EV k.
Lemma rest_pacts k : drained k -> pacts (km_sched k) = [].
Proof. unfold drained, pacts. intros ->. reflexivity. Qed.
Lemma emits_ok : emits_only sys EV /\ forall i ko, EV (EvKeymap (KmResolvedKeyOutput i ko)).
Proof. split; [exact (sw_emits HS)|]. intros i ko. split; [exact I|]. apply (sw_keymap HS). Qed.

Lemma exec_rest fuel j k k' : match j with JProcessInput _ | JHandlePending => True | _ => False end ->
  sgood k -> (j = JHandlePending \/ drained k) -> inv15 k -> ie EV k -> exec conf fuel j k = Ok k' ->
  sgood k' /\ inv15 k' /\ ie EV k'.
Proof.
  intros Hj Hg Hd H15 Hie H.
  assert (Hp15 : p15 j k) by (split; [exact H15|destruct j; try exact I; contradiction]).
  assert (Hpie : pie EV j k) by (split; [exact Hie|destruct j; try exact I; contradiction]).
  split; [|split; [eapply exec_inv15; eauto|eapply exec_ie; [apply emits_ok|apply emits_ok|exact Hpie|exact H]]].
  apply exec_switch in H; [destruct j; try contradiction; exact H|exact Hpie|exact Hp15|].
  split; [exact (proj1 Hg)|]. destruct j; try contradiction; [exact Hg|].
  split; [exact Hg|]. intros _. apply rest_pacts. destruct Hd as [Hd|Hd]; [discriminate|exact Hd].
Qed.
Lemma handle_input_rest fuel ev k k' : rest k -> km_handle_input conf fuel ev k = Ok k' -> rest k'.
Proof.
  intros (Hg & Hd & H15 & Hie) H. pose proof (handle_input_drained _ _ _ _ _ Hd H) as Hd'.
  apply handle_input_cases in H as [(_ & _ & x & q & k2 & _ & H & ->)|[(_ & _ & ->)|(_ & ->)]].
  - apply exec_rest in H as (A & B & C); [|exact I|eapply sgood_same; [exact Hg|reflexivity..]|right; exact Hd|exact H15|exact Hie].
    split; [eapply sgood_same; [exact A|reflexivity..]|]. split; [exact Hd'|]. split; [exact B|exact C].
  - split; [eapply sgood_same; [exact Hg|reflexivity..]|]. split; [exact Hd|]. split; [exact H15|exact Hie].
  - split; [eapply sgood_same; [exact Hg|reflexivity..]|]. split; [exact Hd|]. split; [exact H15|exact Hie].
Qed.
Lemma tick_rest fuel k k' : rest k -> km_tick conf fuel k = Ok k' -> rest k'.
Proof.
  intros (Hg & Hd & H15 & Hie) H. pose proof (tick_drained _ _ _ _ Hd H) as Hd'.
  apply tick_cases in H as (k1 & k2 & s & k3 & H1 & -> & Hs & H3 & _ & ->). cbv zeta in H1.
  set (k0 := set_ctx k (sys_ctx_set_keymap_context sys (km_ctx k) (sc_counter (km_sched k)) (km_idle k))) in *.
  assert (Hg0 : sgood k0).
  { destruct Hg as ((A1 & A2 & A3 & A4) & A5 & A6). split; [split; [apply (sw_set HS); exact A1|auto]|]. split; [exact A5|].
    unfold value in *. cbn. rewrite (proj1 (sw_set HS _ _ _)). exact A6. }
  assert (X1 : sgood k1 /\ drained k1 /\ inv15 k1 /\ ie EV k1).
  { destruct H1 as [(x & q & k1' & _ & _ & H1 & ->)|(-> & _)].
    2: { split; [exact Hg0|]. split; [exact Hd|]. split; [exact H15|exact Hie]. }
    pose proof H1 as H1'.
    apply exec_rest in H1 as (A & B & C); [|exact I|eapply sgood_same; [exact Hg0|reflexivity..]|right; exact Hd|exact H15|exact Hie].
    split; [eapply sgood_same; [exact A|reflexivity..]|]. split; [|split; [exact B|exact C]].
    apply exec_drained in H1' as (_ & H1'); [exact H1'|]. left. unfold no_hole. cbn. unfold drained in Hd. rewrite Hd. constructor. }
  assert (X2 : forall k2, k2 = (if 0 <? km_delay k1 then set_delay k1 (km_delay k1 - 1) else k1) ->
     sgood k2 /\ drained k2 /\ inv15 k2 /\ ie EV k2).
  { intros k2 ->. destruct (0 <? km_delay k1); [|exact X1]. destruct X1 as (A & B & C & D).
    split; [eapply sgood_same; [exact A|reflexivity..]|]. split; [exact B|]. split; [exact C|exact D]. }
  specialize (X2 _ eq_refl). remember (if 0 <? km_delay k1 then set_delay k1 (km_delay k1 - 1) else k1) as k2 eqn:E2. clear E2.
  destruct X2 as (A & B & C & D).
  assert (Y : sgood (set_sched k2 s) /\ ie EV (set_sched k2 s)).
  { destruct A as ((A1 & A2 & A3 & A4) & A5 & A6). destruct D as [[D1 D2] D3].
    apply sched_tick_ok in Hs as (_ & [(Ep & Es & _)|(en & Es & _ & Ep)]).
    - unfold sgood, sbase, calm, value, silent, pacts, ie, events_ok, queued_ok in *. cbn. rewrite Ep, Es. auto 10.
    - unfold drained in B. unfold silent in A2. rewrite Es in A2, D2. apply Forall_app in A2 as [A2 A2']. apply Forall_app in D2 as [D2 D2'].
      inversion A2' as [|? ? F1 _]. inversion D2' as [|? ? F2 _]. subst.
      assert (Epc : pacts s = []).
      { unfold pacts. rewrite Ep, B. cbn. destruct (en_live en); [|reflexivity]. now rewrite F1. }
      assert (Epk : pacts (km_sched k2) = []) by now apply rest_pacts.
      split.
      + split; [split; [exact A1|]; split; [exact A2|]; split; [exact A3|exact A4]|].
        unfold calm, value in *. cbn. rewrite Epc. rewrite Epk in A5, A6. auto.
      + split; [split; [|exact D2]|exact D3]. cbn. rewrite Ep. apply Forall_app. split; [exact D1|].
        constructor; [destruct (en_live en); [exact F2|exact I]|constructor]. }
  destruct Y as [Y1 Y2].
  apply exec_rest in H3 as (Z1 & Z2 & Z3); [|exact I|exact Y1|left; reflexivity|exact C|exact Y2].
  split; [eapply sgood_same; [exact Z1|reflexivity..]|]. split; [exact Hd'|]. split; [exact Z2|exact Z3].
Qed.
Lemma run_rest fuel ops k k' : ~ In OpInit ops -> rest k -> run_ops conf fuel ops k = Ok k' -> rest k'.
Proof.
  intros Hn. apply run_ops_inv_in.
  - intros; eapply handle_input_rest; eauto.
  - intros; eapply tick_rest; eauto.
  - intros k0 r (A & B & C & D). split; [eapply sgood_same; [exact A|reflexivity..]|]. split; [exact B|]. split; [exact C|exact D].
  - intros; contradiction.
  - intros k0 r (A & B & C & D). split; [eapply sgood_same; [exact A|reflexivity..]|]. split; [exact B|]. split; [exact C|exact D].
  - intros k0 r (A & B & C & D). split; [eapply sgood_same; [exact A|reflexivity..]|]. split; [exact B|]. split; [exact C|exact D].
Qed.
Lemma new_rest c : ctx_ok S c -> on S c = false -> rest (km_new c).
Proof.
  intros Hc Ho. split; [|split; [reflexivity|split]].
  - split; [split; [exact Hc|]; split; [constructor|]; split; [constructor|discriminate]|].
    split; [intros p Hp; discriminate|]. unfold value. cbn. rewrite Ho. exact (sw_false HS).
  - split; [constructor|discriminate].
  - split; [split; constructor|]. intros p Hp. discriminate.
Qed.
Lemma rest_rel k : rest k -> rel S (on S (km_ctx k)) (held (km_pressed k)).
Proof.
  intros ((_ & _ & H) & Hd & _). unfold value in H. now rewrite (rest_pacts k Hd) in H.
Qed.
End Switch.
