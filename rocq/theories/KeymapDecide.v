(** A key is not undecided for ever: it holds an alarm in the schedule. *)
From Coq Require Import Sorted Permutation.
From Verif Require Import BaseFacts Output Types Scheduler Reporter Keymap SpecScheduler SchedulerFacts
  KeymapFacts SpecKeymap KeymapInv KeymapLive SpecDecide.
Local Open Scope N_scope.

Section Alarm.
Context {R Ctx Ev PKS KS : Type}.
Variable conf : kconf R Ctx Ev PKS KS.
Local Notation W := (stamp conf).
Local Notation sys := (kc_sys conf).
Local Notation pos := (kc_pos conf).
Local Notation km := (keymap R (Ctx * u32) Ev (PKS * u32) KS).
Local Notation job := (job R Ev KS).
Implicit Types (k : km) (s : scheduler Ev).

(** [alarm p e]: the event [e] of its key decides [p].  [lim]: the timeout;
    [taps]: how often it was started again; [fit]: the pending states a key may
    have; [C]: what is known of the context. *)
Record alarms := mkAlarms {
  alarm : PKS -> Ev -> Prop;
  lim : PKS -> N;
  taps : PKS -> N;
  fit : R -> PKS -> Prop;
  C : Ctx -> Prop }.
Variable A : alarms.
Definition raised (i : u16) (p : PKS) (kes : key_events Ev) : Prop :=
  exists e d, In (after d (EvKey i e)) kes /\ alarm A p e /\ d <= lim A p.
Record alarming : Prop := {
  al_ctx : forall c ev c' kes, C A c -> sys_ctx_handle_event sys c ev = Ok (c', kes) -> C A c';
  al_set : forall c t idle, C A c -> C A (sys_ctx_set_keymap_context sys c t idle);
  al_press : forall i c r p kes, C A c -> sys_new_pressed_key sys i c r = Ok (PkPending p, kes) ->
    taps A p = 0 /\ raised i p kes /\ fit A r p;
  al_wait : forall p i c r ev p' kes e, C A c -> fit A r p -> sys_update_pending_state sys p i c r ev = Ok (p', None, kes) ->
    alarm A p e -> ev <> EvKey i e /\ lim A p' = lim A p /\ fit A r p'
      /\ ((alarm A p' e /\ taps A p' = taps A p) \/ (taps A p' = taps A p + 1 /\ raised i p' kes)) }.
Hypothesis HA : alarming.
Hypothesis Hpos : position_ok pos.
(** The longest tick. *)
Variable M : N.

Definition now s : N := sc_counter s.
Definition slack : N := 32 * M.
(** The entry will be popped in time: it is not past, or it is among the next to go. *)
Definition timely (en : sch_entry Ev) s : Prop :=
  now s <= en_time en \/ exists n : nat, past en n s /\ now s + N.of_nat n * M <= en_time en + slack.
Definition fine s : Prop := decreasing (map en_time (sc_scheduled s)) /\ (length (sc_scheduled s) <= MAX_SCHEDULED_EVENTS)%nat.
Definition alive (i : u16) (pb : PKS * u32) (en : sch_entry Ev) : Prop :=
  exists e, en_live en = true /\ en_event en = EvKey i e /\ alarm A (fst pb) e
    /\ en_time en <= snd pb + M + taps A (fst pb) * (lim A (fst pb) + slack) + lim A (fst pb).
Definition armed (i : u16) (pb : PKS * u32) s : Prop :=
  exists en, In en (sc_scheduled s) /\ alive i pb en /\ timely en s.

Lemma armed_now i pb s : armed i pb s -> now s <= snd pb + M + (taps A (fst pb) + 1) * (lim A (fst pb) + slack).
Proof.
  intros (en & _ & (e & _ & _ & _ & Ht) & [H|(n & _ & H)]); lia.
Qed.

(** *** The scheduler *)
Lemma fine_event s se s' : fine s -> sched_event_in pos s se = Ok s' -> fine s'.
Proof.
  intros [F1 F2] H. unfold sched_event_in in H. destruct (se_schedule se) as [|d].
  - apply sched_enqueue_ok in H as (_ & _ & H & _). unfold fine. rewrite H. auto.
  - split; [eapply sched_after_sorted; eauto|]. apply sched_after_ok in H as (_ & _ & -> & Hl & _).
    rewrite (Permutation_length (insert_at_perm _ _ _)). cbn. exact Hl.
Qed.
Lemma fine_after s d e s' : fine s -> sched_after pos s d e = Ok s' -> fine s'.
Proof.
  intros [F1 F2] H. split; [eapply sched_after_sorted; eauto|]. apply sched_after_ok in H as (_ & _ & -> & Hl & _).
  rewrite (Permutation_length (insert_at_perm _ _ _)). cbn. exact Hl.
Qed.
Lemma event_now s se s' : sched_event_in pos s se = Ok s' -> now s' = now s.
Proof.
  unfold sched_event_in, now. destruct (se_schedule se) as [|d]; intros H.
  - now apply sched_enqueue_ok in H as (_ & -> & _).
  - now apply sched_after_ok in H as (_ & -> & _).
Qed.
Lemma armed_event i pb s se s' : armed i pb s -> sched_event_in pos s se = Ok s' -> armed i pb s'.
Proof.
  intros (en & Hi & Ha & Ht) H. exists en. split; [eapply event_in; eauto|]. split; [exact Ha|].
  pose proof (event_now _ _ _ H) as Hn. destruct Ht as [Ht|(n & Hp & Hl)].
  - left. now rewrite Hn.
  - right. exists n. rewrite Hn. split; [eapply event_past; eauto|exact Hl].
Qed.
Lemma all_kept s kes : forall s', fine s -> sched_all pos s kes = Ok s' ->
  fine s' /\ now s' = now s /\ (forall i pb, armed i pb s -> armed i pb s').
Proof.
  revert s. induction kes as [|se kes IH]; intros s s' Hf H; cbn in H; [inv_ok H; auto|].
  inv_bind H. pose proof (fine_event _ _ _ Hf E) as Hf1. pose proof (event_now _ _ _ E) as Hn.
  destruct (IH _ _ Hf1 H) as (A1 & A2 & A3). split; [exact A1|]. split; [congruence|].
  intros i pb Ha. apply A3. eapply armed_event; eauto.
Qed.
(** A raised alarm is in the schedule. *)
Lemma all_raised i p (b : u32) s kes : forall s', fine s -> raised i p kes -> sched_all pos s kes = Ok s' ->
  now s <= b + M + taps A p * (lim A p + slack) -> armed i (p, b) s'.
Proof.
  intros s' Hf (e & d & Hi & Ha & Hd) H Hn. revert s s' Hf H Hn.
  induction kes as [|se kes IH]; intros s s' Hf H Hn; [destruct Hi|]. cbn in H. inv_bind H.
  pose proof (fine_event _ _ _ Hf E) as Hf1. destruct Hi as [->|Hi].
  - destruct (all_kept _ _ _ Hf1 H) as (_ & _ & A3). apply A3.
    unfold sched_event_in, after in E. cbn in E. pose proof (sched_after_ok _ _ _ _ _ E) as (_ & Hc & Es & _).
    exists (mkEntry (sc_counter s + d) (EvKey i e) true). split; [rewrite Es; apply insert_at_In; now left|]. split.
    + exists e. unfold now in Hn. cbn [fst snd en_time en_live en_event]. repeat split; try assumption. unfold u16, u32 in *. lia.
    + left. unfold now. rewrite Hc. cbn. lia.
  - apply (IH Hi a s' Hf1 H). rewrite (event_now _ _ _ E). exact Hn.
Qed.
Lemma update_list_kept c ev pis : forall s pis' s', fine s -> update_pressed_list W c ev pis s = Ok (pis', s') ->
  fine s' /\ now s' = now s /\ (forall i pb, armed i pb s -> armed i pb s').
Proof.
  induction pis as [|[i0 r0 ks0|ko] pis IH]; intros s pis' s' Hf H; cbn [update_pressed_list] in H.
  - inv_ok H. auto.
  - inv_bind H. destruct a as [ks' kes]. inv_bind H. inv_bind H. destruct a0 as [t' s2]. inv_ok H.
    apply all_kept in E0 as (A1 & A2 & A3); [|exact Hf]. apply IH in E1 as (B1 & B2 & B3); [|exact A1].
    split; [exact B1|]. split; [congruence|]. auto.
  - inv_bind H. destruct a as [t' s2]. inv_ok H. now apply IH in E.
Qed.
Lemma requeue_fine evs : forall n q s q' s', fine s -> requeue W evs n q s = Ok (q', s') -> fine s' /\ now s' = now s.
Proof.
  induction evs as [|[ie|j ke|kk] evs IH]; intros n q s q' s' Hf H; cbn [requeue] in H.
  - inv_ok H. auto.
  - inv_bind H. now apply IH in H.
  - inv_bind H. pose proof (fine_after _ _ _ _ Hf E) as Hf1. apply IH in H as [H1 H2]; [|exact Hf1]. split; [exact H1|].
    rewrite H2. unfold now. now apply sched_after_ok in E as (_ & -> & _).
  - inv_bind H. pose proof (fine_after _ _ _ _ Hf E) as Hf1. apply IH in H as [H1 H2]; [|exact Hf1]. split; [exact H1|].
    rewrite H2. unfold now. now apply sched_after_ok in E as (_ & -> & _).
Qed.
Lemma cancel_fine s i : fine s -> fine (sched_cancel s i).
Proof. intros [F1 F2]. split; cbn; [now rewrite cancel_times|now rewrite map_length]. Qed.
(** A tick of the clock: the alarm stays timely, or rings. *)
Lemma armed_tick i pb s ms s' : fine s -> ms <= M -> armed i pb s -> sched_tick s ms = Ok s' ->
  armed i pb s' \/ exists e, alarm A (fst pb) e /\ sc_pending s' = sc_pending s ++ [Some (EvKey i e)].
Proof.
  intros [F1 F2] Hms (en & Hi & (e & Hl & He & Ha & Hb) & Ht) H.
  assert (Hal : alive i pb en) by (exists e; auto).
  pose proof (sched_tick_sorted _ _ _ F1 H) as F1'. pose proof (sched_tick_ok _ _ _ H) as (Hc & _).
  destruct Ht as [Ht|(n & Hp & Hn)].
  - destruct (tick_in en _ _ _ Hi H) as [Hi'|Hp]; [|right; exists e; rewrite Hp, Hl, He; auto].
    left. exists en. split; [exact Hi'|]. split; [exact Hal|]. unfold timely, now in *. rewrite Hc.
    destruct (N.le_gt_cases (sc_counter s + ms) (en_time en)) as [|Hgt]; [now left|right].
    apply in_split in Hi' as (pre & post & Es). exists (length post). split.
    + split; [exact F1'|]. split; [rewrite Hc; lia|]. exists pre, post. auto.
    + assert (Hlen : (length (sc_scheduled s') <= 32)%nat).
      { apply sched_tick_ok in H as (_ & [(_ & -> & _)|(e2 & E2 & _)]); [exact F2|].
        rewrite E2, app_length in F2. unfold MAX_SCHEDULED_EVENTS in F2. lia. }
      rewrite Es, app_length in Hlen. cbn in Hlen. unfold slack.
      assert (N.of_nat (length post) <= 31) by lia. nia.
  - destruct (tick_past en _ _ _ _ Hp H) as [(n' & -> & Hp')|Hp']; [|right; exists e; rewrite Hp', Hl, He; auto].
    left. exists en. split; [exact (within_in _ _ _ (proj2 (proj2 Hp')))|]. split; [exact Hal|]. right. exists n'.
    split; [exact Hp'|]. unfold now in *. rewrite Hc. rewrite Nat2N.inj_succ in Hn. lia.
Qed.
Lemma tick_fine s ms s' : fine s -> sched_tick s ms = Ok s' -> fine s'.
Proof.
  intros [F1 F2] H. split; [eapply sched_tick_sorted; eauto|].
  apply sched_tick_ok in H as (_ & [(_ & -> & _)|(e2 & E2 & _)]); [exact F2|].
  rewrite E2, app_length in F2. lia.
Qed.

(** *** The recursion *)
Definition base k : Prop := fine (km_sched k) /\ C A (fst (km_ctx k)) /\ now (km_sched k) <= snd (km_ctx k) + M.
Definition I1 k : Prop := forall p, km_pending k = Some p -> armed (pd_index p) (pd_state p) (km_sched k)
  /\ fit A (pd_ref p) (fst (pd_state p)).
Definition fires (ev : event Ev) k : Prop :=
  exists p e, km_pending k = Some p /\ ev = EvKey (pd_index p) e /\ alarm A (fst (pd_state p)) e
    /\ fit A (pd_ref p) (fst (pd_state p)).
Definition pre (j : job) k : Prop :=
  base k /\ match j with
  | JPendingLoop _ | JResolve _ => True
  | JUpdatePending ev | JHandleEvent ev => I1 k \/ fires ev k
  | JHandlePending => I1 k \/ exists ev t, sc_pending (km_sched k) = Some ev :: t /\ fires ev k
  | _ => I1 k
  end.
Definition post k : Prop := base k /\ I1 k.

Lemma update_pressed_post k ev k' : post k -> update_pressed W k ev = Ok k' -> post k' /\ km_pending k' = km_pending k.
Proof.
  intros [(B1 & B2 & B3) HI] H. inv_prim. apply update_list_kept in Hs as (A1 & A2 & A3); [|exact B1].
  split; [|reflexivity]. split; [split; [exact A1|split; [exact B2|cbn; now rewrite A2]]|].
  intros p Hp. split; [apply A3|]; apply HI, Hp.
Qed.
Lemma update_context_post k ev k' : post k -> update_context W k ev = Ok k' -> post k' /\ km_pending k' = km_pending k.
Proof.
  intros [(B1 & B2 & B3) HI] H. inv_prim. cbn in Hc. inv_bind Hc. destruct a as [c2 kes2]. inv_ok Hc.
  apply all_kept in Hs as (A1 & A2 & A3); [|exact B1].
  split; [|reflexivity]. split; [split; [exact A1|split; [eapply (al_ctx HA); eauto|cbn; now rewrite A2]]|].
  intros p Hp. split; [apply A3|]; apply HI, Hp.
Qed.
Lemma schedule_base k kes k' : base k -> schedule_all W k kes = Ok k' -> base k'
  /\ km_pending k' = km_pending k /\ (I1 k -> I1 k').
Proof.
  intros (B1 & B2 & B3) H. inv_prim. apply all_kept in Hs as (A1 & A2 & A3); [|exact B1].
  split; [split; [exact A1|split; [exact B2|cbn; now rewrite A2]]|]. split; [reflexivity|].
  intros HI p Hp. split; [apply A3|]; apply HI, Hp.
Qed.
Lemma new_inv i c r x kes : sys_new_pressed_key (kc_sys W) i c r = Ok (x, kes) ->
  exists y, sys_new_pressed_key sys i (fst c) r = Ok (y, kes) /\ x = stamp_result (snd c) y.
Proof. cbn. intros H. inv_bind H. destruct a as [y kes2]. inv_ok H. eauto. Qed.
Lemma pending_raised k i r pb q kes k' : base k ->
  sys_new_pressed_key (kc_sys W) i (km_ctx k) r = Ok (PkPending pb, kes) ->
  schedule_all W (set_pending k q) kes = Ok k' -> armed i pb (km_sched k') /\ fit A r (fst pb).
Proof.
  intros (B1 & B2 & B3) H Hs. apply new_inv in H as (y & Hy & Ey).
  destruct y as [p|?|?]; cbn in Ey; try discriminate. injection Ey as ->.
  apply (al_press HA) in Hy as (Ht & Hr & Hf); [|exact B2]. inv_prim. split; [|exact Hf].
  eapply all_raised; [exact B1|exact Hr|exact Hs0|]. cbn. rewrite Ht. cbn in B3. lia.
Qed.

Lemma exec_post fuel j k k' : pre j k -> exec W fuel j k = Ok k' -> post k'.
Proof.
  apply (exec_contract W pre (fun _ _ k' => post k')). clear fuel j k k'. intros j k k' [Hb HJ] H.
  assert (Hemit : forall i r ks a b, post a ->
    emit_rel W (fun (j : job) a b => pre j a -> post b) i r ks a b -> post b).
  { intros i r ks a b Ha (o & _ & Ho). destruct o; [|subst; exact Ha]. apply Ho. split; [apply Ha|left; apply Ha]. }
  assert (Hui : forall a ev k1 k2, post a -> update_pressed W a ev = Ok k1 -> update_context W k1 ev = Ok k2 ->
     post k2 /\ km_pending k2 = km_pending a).
  { intros a ev k1 k2 Ha H1 H2. apply update_pressed_post in H1 as [A1 A2]; [|exact Ha].
    apply update_context_post in H2 as [C1 C2]; [|exact A1]. split; [exact C1|congruence]. }
  assert (Hp2 : forall a, post a -> pre JHandlePending a) by (intros a [P1 P2]; split; [exact P1|now left]).
  assert (Hnone : forall a, base a -> km_pending a = None -> post a)
    by (intros a Ha Hn; split; [exact Ha|]; intros p Hp; congruence).
  destruct H.
  - destruct HJ as [HJ|(ev & t & Ht & _)]; [now split|congruence].
  - destruct HJ as [HJ|(ev & t' & Ht & _)]; [|congruence]. split; [exact Hb|exact HJ].
  - assert (Hx : post k1).
    { apply H0. split; [exact Hb|]. destruct HJ as [HJ|(ev' & t' & Ht & Hf)]; [now left|right].
      rewrite H in Ht. injection Ht as <- <-. exact Hf. }
    apply H1, Hp2, Hx.
  - assert (Hx : post k1).
    { destruct (run_callback_eq k ev) as (new & Er & _). rewrite Er in H. apply H. split; [exact Hb|exact HJ]. }
    destruct (Hui _ _ _ _ Hx H0 H1) as [Hy _]. destruct ev; [|now subst..].
    apply H2. exact Hy.
  - apply H2, Hp2, H1. split; [exact Hb|]. left. intros p' Hp'. cbn in Hp'. injection Hp' as <-. cbn. exact (HJ _ H).
  - apply H3, Hp2. exact (proj1 (Hui _ _ _ _ (conj Hb HJ) H0 H1)).
  - apply H5, Hp2, H4. exact (proj1 (Hui _ _ _ _ (conj Hb HJ) H0 H1)).
  - apply H2, Hp2. exact (proj1 (Hui _ _ _ _ (conj Hb HJ) H0 H1)).
  - apply H3, Hp2. exact (proj1 (Hui _ _ _ _ (conj Hb HJ) H0 H1)).
  - apply H2, Hp2. exact (proj1 (Hui _ _ _ _ (conj Hb HJ) H0 H1)).
  - destruct (schedule_base _ _ _ Hb H0) as (B1 & B2 & B3). eapply Hemit; [|exact H2]. exact (conj B1 (B3 HJ)).
  - destruct (schedule_base _ _ _ Hb H0) as (B1 & B2 & B3). apply H1. exact (conj B1 (B3 HJ)).
  - destruct (schedule_base _ _ _ Hb H0) as (B1 & B2 & B3). exact (conj B1 (B3 HJ)).
  - destruct (schedule_base _ _ _ Hb H0) as (B1 & B2 & B3). split; [exact B1|]. intros p Hp. cbn in Hp. injection Hp as <-.
    cbn. pose proof (pending_raised k i r pks (km_pending k) kes k1 Hb H) as Hr.
    replace (set_pending k (km_pending k)) with k in Hr by (destruct k; reflexivity). exact (Hr H0).
  - now apply Hnone.
  - cbn in H0. inv_bind H0. destruct a as [[p2 n] kes2]. inv_ok H0.
    destruct Hb as (B1 & B2 & B3).
    destruct (schedule_base (set_pending k (Some (mkPending (pd_index p) (pd_ref p) (p2, snd (pd_state p)) (pd_queued p)))) kes k1) as (D1 & D2 & D3);
      [exact (conj B1 (conj B2 B3))|exact H1|]. split; [exact D1|].
    destruct HJ as [HJ|(p' & e & Hp' & -> & Ha & Hfit0)].
    + intros p' Hp'. rewrite D2 in Hp'. cbn in Hp'. injection Hp' as <-. cbn.
      pose proof (HJ _ H) as [Harm Hfit0]. pose proof Harm as (en & Hi & (e & Hl & He & Ha & Htm) & Ht).
      destruct (al_wait HA _ _ _ _ _ _ _ e B2 Hfit0 E Ha) as (Hne & Hlim & Hfit & [(Ha' & Htap)|(Htap & Hr)]);
        (split; [|exact Hfit]).
      * inv_prim. apply all_kept in Hs as (_ & _ & A3); [|exact B1]. cbn in A3. apply A3. exists en. split; [exact Hi|].
        split; [|exact Ht]. exists e. cbn. rewrite Hlim, Htap. auto.
      * inv_prim. eapply all_raised; [exact B1|exact Hr|exact Hs|].
        pose proof (armed_now _ _ _ Harm) as Hnow. rewrite Hlim, Htap. exact Hnow.
    + exfalso. rewrite H in Hp'. injection Hp' as <-.
      destruct (al_wait HA _ _ _ _ _ _ _ e B2 Hfit0 E Ha) as (Hne & _). now apply Hne.
  - apply H2. destruct (schedule_base _ _ _ (Hb : base (set_pending k _)) H1) as (D1 & _). split; [exact D1|exact I].
  - now apply Hnone.
  - apply H0. split; [exact Hb|exact I].
  - apply H2. destruct (schedule_base _ _ _ (Hb : base (set_pending k _)) H1) as (D1 & _). split; [exact D1|exact I].
  - apply H2. destruct (schedule_base _ _ _ (Hb : base (set_pending k _)) H1) as (D1 & _). split; [exact D1|exact I].
  - apply H2. destruct (schedule_base _ _ _ (Hb : base (set_pending k _)) H1) as (D1 & _). split; [exact D1|exact I].
  - destruct (schedule_base _ _ _ (Hb : base (set_pending k _)) H1) as (D1 & _). split; [exact D1|].
    intros p' Hp'. cbn in Hp'. injection Hp' as <-. cbn. exact (pending_raised _ _ _ _ _ _ _ Hb H0 H1).
  - now apply Hnone.
  - destruct Hb as (B1 & B2 & B3). apply requeue_fine in H1 as [F1 F2]; [|now apply cancel_fine].
    eapply Hemit; [|exact H4]. apply H3, Hp2, Hnone; [|reflexivity]. split; [exact F1|]. split; [exact B2|].
    cbn. rewrite F2. exact B3.
Qed.

(** *** The operations *)
Definition ok_state k : Prop := post k /\ drained k /\ km_ms_per_tick k <= M.
Lemma handle_input_state fuel ev k k' : ok_state k -> km_handle_input W fuel ev k = Ok k' -> ok_state k'.
Proof.
  intros ([Hb HI] & Hd & Hm) H. pose proof (handle_input_drained _ _ _ _ _ Hd H) as Hd'.
  apply handle_input_cases in H as [(_ & _ & ie & q & k2 & _ & H & ->)|[(_ & _ & ->)|(_ & ->)]].
  - pose proof (exec_frame _ _ _ _ _ H) as (_ & F2 & _). apply exec_post in H; [|split; [exact Hb|exact HI]].
    split; [exact H|]. split; [exact Hd'|]. cbn. rewrite F2. exact Hm.
  - exact (conj (conj Hb HI) (conj Hd' Hm)).
  - exact (conj (conj Hb HI) (conj Hd' Hm)).
Qed.
Lemma tick_state fuel k k' : ok_state k -> km_tick W fuel k = Ok k' -> ok_state k'.
Proof.
  intros ([(B1 & B2 & B3) HI] & Hd & Hm) H. pose proof (tick_drained _ _ _ _ Hd H) as Hd'.
  apply tick_cases in H as (k1 & k2 & s & k3 & H1 & -> & Hs & H3 & _ & ->). cbv zeta in H1.
  set (k0 := set_ctx k _) in H1.
  assert (Hk0 : post k0).
  { split; [|exact HI]. split; [exact B1|]. split; [cbn; now apply (al_set HA)|]. unfold now. cbn. unfold u32. lia. }
  assert (Hk1 : post k1 /\ drained k1 /\ km_ms_per_tick k1 = km_ms_per_tick k /\ snd (km_ctx k1) = now (km_sched k1)).
  { assert (Hc0 : snd (km_ctx k0) = now (km_sched k0)) by reflexivity.
    destruct H1 as [(ie & q & k1' & _ & _ & H1 & ->)|(-> & _)]; [|auto].
    pose proof (exec_frame _ _ _ _ _ H1) as (F1 & F2 & _).
    assert (Hc : snd (km_ctx k1') = snd (km_ctx k0)).
    { apply (exec_contract W (fun _ _ => True) (fun _ a b => snd (km_ctx b) = snd (km_ctx a))) in H1; [exact H1| |exact I].
      clear. intros j k k' _ H.
      assert (Hctx : forall a ev b, update_context W a ev = Ok b -> snd (km_ctx b) = snd (km_ctx a)).
      { intros a ev b Hu. inv_prim. cbn in Hc. inv_bind Hc. destruct a0 as [c2 k2]. inv_ok Hc. reflexivity. }
      assert (Hprs : forall a ev b, update_pressed W a ev = Ok b -> snd (km_ctx b) = snd (km_ctx a)).
      { intros a ev b Hu. now inv_prim. }
      assert (Hsch : forall a kes b, schedule_all W a kes = Ok b -> snd (km_ctx b) = snd (km_ctx a)).
      { intros a kes b Hu. now inv_prim. }
      assert (Hem : forall i r ks a b, emit_rel W (fun (_ : job) a b => True -> snd (km_ctx b) = snd (km_ctx a)) i r ks a b ->
         snd (km_ctx b) = snd (km_ctx a)).
      { intros i r ks a b (o & _ & Ho). destruct o; [exact (Ho I)|now subst]. }
      destruct H;
        repeat match goal with
        | X : True -> _ |- _ => specialize (X I)
        | X : update_context _ _ _ = _ |- _ => apply Hctx in X
        | X : update_pressed _ _ _ = _ |- _ => apply Hprs in X
        | X : schedule_all _ _ _ = _ |- _ => apply Hsch in X
        | X : emit_rel _ _ _ _ _ _ _ |- _ => apply Hem in X
        end; cbn in *; try congruence.
      destruct (run_callback_eq k ev) as (new & Er & _). rewrite Er in H. cbn in H.
      destruct ev; [specialize (H2 I)|subst k'..]; cbn in *; congruence. }
    split; [|split; [|split; [exact F2|]]].
    - apply exec_post in H1; [exact H1|]. exact Hk0.
    - apply exec_drained in H1 as (_ & H1); [exact H1|]. left. unfold no_hole. cbn.
      unfold drained in Hd. rewrite Hd. constructor.
    - cbn. rewrite Hc. unfold now. rewrite F1. reflexivity. }
  set (k2 := if 0 <? km_delay k1 then set_delay k1 (km_delay k1 - 1) else k1) in *.
  assert (Hk2 : post k2 /\ drained k2 /\ km_ms_per_tick k2 = km_ms_per_tick k /\ snd (km_ctx k2) = now (km_sched k2))
    by (unfold k2; destruct (0 <? km_delay k1); exact Hk1).
  clearbody k2. clear Hk1 H1 Hk0 k1. destruct Hk2 as ([(D1 & D2 & D3) HI2] & Hd2 & Hm2 & Hc2).
  pose proof (exec_frame _ _ _ _ _ H3) as (_ & F2 & _). cbn in F2. unfold drained in Hd2.
  assert (Hp : pre JHandlePending (set_sched k2 s)).
  { split.
    - split; [eapply tick_fine; eauto|]. split; [exact D2|]. cbn. rewrite Hc2. unfold now.
      apply sched_tick_ok in Hs as (-> & _). lia.
    - destruct (km_pending k2) as [p|] eqn:Ep.
      2: { left. intros p Hp. cbn in Hp. congruence. }
      destruct (armed_tick _ _ _ (km_ms_per_tick k2) _ D1 ltac:(rewrite Hm2; exact Hm) (proj1 (HI2 _ Ep)) Hs) as [Ha|(e & Ha & Hpe)].
      + left. intros p' Hp'. cbn in Hp'. rewrite Ep in Hp'. injection Hp' as <-. split; [exact Ha|]. exact (proj2 (HI2 _ Ep)).
      + right. exists (EvKey (pd_index p) e), []. split; [cbn; rewrite Hpe, Hd2; reflexivity|].
        exists p, e. split; [exact Ep|]. split; [reflexivity|]. split; [exact Ha|]. exact (proj2 (HI2 _ Ep)). }
  apply exec_post in H3; [|exact Hp]. split; [exact H3|]. split; [exact Hd'|]. cbn. rewrite F2, Hm2. exact Hm.
Qed.
Lemma tick_n_state fuel n : forall k k', ok_state k -> tick_n W fuel n k = Ok k' -> ok_state k'.
Proof.
  induction n as [|n IH]; intros k k' Hk H; cbn in H; [now inv_ok H|]. inv_bind H. eapply IH; [|exact H].
  eapply tick_state; eauto.
Qed.
Lemma tick_by_state fuel d k k' : ok_state k -> km_tick_by W fuel d k = Ok k' -> ok_state k'.
Proof.
  unfold km_tick_by. intros Hk H. destruct (d =? 0); [eapply tick_state; eauto|].
  destruct (_ =? 0); [discriminate|]. eapply tick_n_state; eauto.
Qed.
Lemma init_state k : 1 <= M -> ok_state k -> ok_state (km_init k).
Proof.
  intros HM ([(B1 & B2 & B3) HI] & Hd & Hm). unfold drained in Hd. split; [split|].
  - split; [split; [constructor|cbn; lia]|]. split; [exact B2|]. unfold now. cbn. lia.
  - intros p Hp. discriminate.
  - split; [|exact HM]. unfold drained. cbn. rewrite Hd. reflexivity.
Qed.
Lemma op_state fuel o k k' : 1 <= M -> ticks_at_most M o -> ok_state k -> run_op W fuel k o = Ok k' -> ok_state k'.
Proof.
  intros HM Ho Hk H. destruct o as [ev| |d ev| | | |ms|c f]; cbn [run_op ticks_at_most] in *.
  - eapply handle_input_state; eauto.
  - eapply tick_state; eauto.
  - inv_bind H. destruct a as [k2 t]. inv_ok H. unfold km_handle_input_after_time in E. inv_bind E. inv_bind E. inv_bind E.
    assert (Hx : ok_state k'); [|exact Hx].
    apply tick_by_state in E0; [|exact Hk]. apply handle_input_state in E1; [|exact E0].
    destruct a1 as [t'|]; [destruct (_ && _)|]; try discriminate; inv_ok E; exact E1.
  - inv_bind H. destruct a as [k2 t]. inv_ok H. unfold km_tick_to_next in E. inv_bind E.
    destruct a as [d|]; [|inv_ok E; exact Hk]. inv_bind E. inv_bind E. inv_ok E. eapply tick_by_state; eauto.
  - inv_bind H. destruct a as [k2 t]. inv_ok H. unfold km_report_output in E. inv_bind E. inv_ok E. exact Hk.
  - inv_ok H. now apply init_state.
  - inv_ok H. destruct Hk as (H1 & H2 & H3). split; [exact H1|]. split; [exact H2|exact Ho].
  - unfold km_set_callback in H. inv_bind H. inv_ok H. exact Hk.
Qed.
Lemma run_state fuel ops : 1 <= M -> Forall (ticks_at_most M) ops -> forall k k',
  ok_state k -> run_ops W fuel ops k = Ok k' -> ok_state k'.
Proof.
  intros HM. induction 1 as [|o ops Ho _ IH]; intros k k' Hk H; cbn in H; [now inv_ok H|].
  inv_bind H. eapply IH; [|exact H]. eapply op_state; eauto.
Qed.
Lemma new_ok c : 1 <= M -> C A c -> ok_state (km_new (c, 0)).
Proof.
  intros HM Hc. split; [split|split; [reflexivity|exact HM]].
  - split; [split; [constructor|cbn; lia]|]. split; [exact Hc|]. unfold now. cbn. lia.
  - intros p Hp. discriminate.
Qed.
End Alarm.

(** *** Stamps are never in the future *)
Section Past.
Context {R Ctx Ev PKS KS : Type}.
Variable conf : kconf R Ctx Ev PKS KS.
Local Notation W := (stamp conf).
Local Notation km := (keymap R (Ctx * u32) Ev (PKS * u32) KS).
Local Notation job := (job R Ev KS).
Implicit Types k : km.
Definition stamped (t : u32) k : Prop :=
  snd (km_ctx k) <= t /\ forall p, km_pending k = Some p -> snd (pd_state p) <= t.
Lemma exec_stamped t fuel j k k' : stamped t k -> exec W fuel j k = Ok k' -> stamped t k'.
Proof.
  apply (exec_contract W (fun _ => stamped t) (fun _ _ => stamped t)). clear fuel j k k'. intros j k k' Hk H.
  assert (Hctx : forall a ev b, stamped t a -> update_context W a ev = Ok b -> stamped t b).
  { intros a ev b Ha Hu. inv_prim. cbn in Hc. inv_bind Hc. destruct a0 as [c2 k2]. inv_ok Hc. exact Ha. }
  assert (Hprs : forall a ev b, stamped t a -> update_pressed W a ev = Ok b -> stamped t b).
  { intros a ev b Ha Hu. inv_prim. exact Ha. }
  assert (Hui : forall a ev b c, stamped t a -> update_pressed W a ev = Ok b -> update_context W b ev = Ok c -> stamped t c) by eauto.
  assert (Hsch : forall a kes b, stamped t a -> schedule_all W a kes = Ok b -> stamped t b).
  { intros a kes b Ha Hu. inv_prim. exact Ha. }
  assert (Hem : forall i r ks a b, stamped t a -> emit_rel W (fun (_ : job) a b => stamped t a -> stamped t b) i r ks a b -> stamped t b).
  { intros i r ks a b Ha (o & _ & Ho). destruct o; [exact (Ho Ha)|now subst]. }
  assert (Hset : forall a i r (p : PKS * u32) q, stamped t a -> snd p <= t -> stamped t (set_pending a (Some (mkPending i r p q)))).
  { intros a i r p q [A1 A2] Hp. split; [exact A1|]. intros p' Hp'. injection Hp' as <-. exact Hp. }
  assert (Hnew : forall i c r p kes, snd c <= t -> sys_new_pressed_key (kc_sys W) i c r = Ok (PkPending p, kes) -> snd p <= t).
  { intros i c r p kes Hc Hn. cbn in Hn. inv_bind Hn. destruct a as [y ke]. destruct y; cbn in Hn; try discriminate.
    injection Hn as <- _. exact Hc. }
  assert (Hold : forall (p : PKS * u32) i c r ev p' n kes, sys_update_pending_state (kc_sys W) p i c r ev = Ok (p', n, kes) -> snd p <= t -> snd p' <= t).
  { intros p i c r ev p' n kes Hn. cbn in Hn. inv_bind Hn. destruct a as [[y n'] ke]. injection Hn as <- _ _. easy. }
  destruct H.
  - exact Hk.
  - exact Hk.
  - apply H1, H0. exact Hk.
  - assert (H3 : stamped t k1).
    { destruct (run_callback_eq k ev) as (new & Er & _). rewrite Er in H. apply H. exact Hk. }
    pose proof (Hui _ _ _ _ H3 H0 H1) as H4. destruct ev; [now apply H2|now subst..].
  - apply H2, H1. unfold with_queued. apply Hset; [exact Hk|]. exact (proj2 Hk _ H).
  - apply H3. exact (Hui _ _ _ _ Hk H0 H1).
  - apply H5, H4. exact (Hui _ _ _ _ Hk H0 H1).
  - apply H2. exact (Hui _ _ _ _ Hk H0 H1).
  - apply H3. exact (Hui _ _ _ _ Hk H0 H1).
  - apply H2. exact (Hui _ _ _ _ Hk H0 H1).
  - eapply Hem; [|exact H2]. exact (Hsch _ _ _ Hk H0).
  - apply H1. exact (Hsch _ _ _ Hk H0).
  - exact (Hsch _ _ _ Hk H0).
  - apply Hset; [exact (Hsch _ _ _ Hk H0)|]. exact (Hnew _ _ _ _ _ (proj1 Hk) H).
  - exact Hk.
  - eapply Hsch; [|exact H1]. apply Hset; [exact Hk|]. exact (Hold _ _ _ _ _ _ _ _ H0 (proj2 Hk _ H)).
  - apply H2. eapply Hsch; [|exact H1]. apply Hset; [exact Hk|]. exact (Hold _ _ _ _ _ _ _ _ H0 (proj2 Hk _ H)).
  - exact Hk.
  - apply H0. exact Hk.
  - apply H2. eapply Hsch; [|exact H1]. apply Hset; [exact Hk|]. exact (proj2 Hk _ H).
  - apply H2. eapply Hsch; [|exact H1]. apply Hset; [exact Hk|]. exact (proj2 Hk _ H).
  - apply H2. eapply Hsch; [|exact H1]. apply Hset; [exact Hk|]. exact (proj2 Hk _ H).
  - apply (Hset (set_inq k1 q)); [|exact (Hnew _ _ _ _ _ (proj1 Hk) H0)]. eapply (Hsch _ _ k1); [|exact H1].
    apply Hset; [exact Hk|]. exact (proj2 Hk _ H).
  - exact Hk.
  - eapply Hem; [|exact H4]. apply H3. split; [exact (proj1 Hk)|]. intros p' Hp'. discriminate.
Qed.
Definition not_later k : Prop := stamped (sc_counter (km_sched k)) k.
Lemma stamped_weaken t t' k : t <= t' -> stamped t k -> stamped t' k.
Proof. intros Ht [A1 A2]. split; [etransitivity; eassumption|]. intros p Hp. apply A2 in Hp. etransitivity; eassumption. Qed.
Lemma handle_input_not_later fuel ev k k' : not_later k -> km_handle_input W fuel ev k = Ok k' -> not_later k'.
Proof.
  intros Hk H. apply handle_input_cases in H as [(_ & _ & ie & q & k2 & _ & H & ->)|[(_ & _ & ->)|(_ & ->)]]; [|exact Hk|exact Hk].
  pose proof (exec_frame _ _ _ _ _ H) as (F1 & _). unfold not_later in *. cbn in F1. cbn. rewrite F1.
  refine (exec_stamped _ _ _ _ _ _ H). exact Hk.
Qed.
Lemma tick_not_later fuel k k' : not_later k -> km_tick W fuel k = Ok k' -> not_later k'.
Proof.
  intros Hk H. apply tick_cases in H as (k1 & k2 & s & k3 & H1 & -> & Hs & H3 & _ & ->). cbv zeta in H1.
  set (t := sc_counter (km_sched k)) in *. set (k0 := set_ctx k _) in H1.
  assert (Hk0 : stamped t k0) by (split; [cbn; reflexivity|exact (proj2 Hk)]).
  assert (Hk1 : stamped t k1 /\ sc_counter (km_sched k1) = t).
  { destruct H1 as [(ie & q & k1' & _ & _ & H1 & ->)|(-> & _)]; [|split; [exact Hk0|reflexivity]].
    pose proof (exec_frame _ _ _ _ _ H1) as (F1 & _). split; [refine (exec_stamped _ _ _ _ _ _ H1); exact Hk0|exact F1]. }
  set (k2 := if 0 <? km_delay k1 then set_delay k1 (km_delay k1 - 1) else k1) in *.
  assert (Hk2 : stamped t k2 /\ sc_counter (km_sched k2) = t) by (unfold k2; destruct (0 <? km_delay k1); exact Hk1).
  clearbody k2. destruct Hk2 as [A1 A2]. pose proof (exec_frame _ _ _ _ _ H3) as (F1 & _). cbn in F1.
  unfold not_later. cbn. rewrite F1. refine (exec_stamped _ _ _ _ _ _ H3).
  apply (stamped_weaken t); [|exact A1]. apply sched_tick_ok in Hs as (-> & _). rewrite A2. unfold u32. lia.
Qed.
Lemma run_not_later fuel ops : ~ In OpInit ops -> forall k k', not_later k -> run_ops W fuel ops k = Ok k' -> not_later k'.
Proof.
  assert (Hn : forall f n k k', not_later k -> tick_n W f n k = Ok k' -> not_later k').
  { intros f. induction n as [|n IH]; intros k k' Hk H; cbn in H; [now inv_ok H|]. inv_bind H. eapply IH; [|exact H].
    eapply tick_not_later; eauto. }
  assert (Hb : forall f d k k', not_later k -> km_tick_by W f d k = Ok k' -> not_later k').
  { unfold km_tick_by. intros f d k k' Hk H. destruct (d =? 0); [eapply tick_not_later; eauto|].
    destruct (_ =? 0); [discriminate|]. eauto. }
  induction ops as [|o ops IH]; intros Hi k k' Hk H; cbn in H; [now inv_ok H|]. inv_bind H.
  refine (IH (fun X => Hi (or_intror X)) _ _ _ H). clear IH H.
  assert (Ho : o <> OpInit) by (intros ->; apply Hi; now left).
  destruct o as [ev| |d ev| | | |ms|c f]; cbn [run_op] in E; try congruence.
  - eapply handle_input_not_later; eauto.
  - eapply tick_not_later; eauto.
  - inv_bind E. destruct a0 as [k2 t]. injection E as <-. unfold km_handle_input_after_time in E0. inv_bind E0. inv_bind E0. inv_bind E0.
    apply Hb in E; [|exact Hk]. apply handle_input_not_later in E1; [|exact E].
    destruct a1 as [t'|]; [destruct (_ && _)|]; try discriminate; injection E0 as <- _; exact E1.
  - inv_bind E. destruct a0 as [k2 t]. injection E as <-. unfold km_tick_to_next in E0. inv_bind E0.
    destruct a as [dd|]; [|injection E0 as <- _; exact Hk]. inv_bind E0. inv_bind E0. injection E0 as <- _. eauto.
  - inv_bind E. destruct a0 as [k2 t]. injection E as <-. unfold km_report_output in E0. inv_bind E0. injection E0 as <- _. exact Hk.
  - injection E as <-. exact Hk.
  - unfold km_set_callback in E. inv_bind E. injection E as <-. exact Hk.
Qed.
End Past.
