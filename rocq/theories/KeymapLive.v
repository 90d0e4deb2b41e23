(** Delayed events are handled: once its time has come an event waits for at
    most one tick per event that was due before it. *)
From Coq Require Import Sorted Permutation.
From Verif Require Import BaseFacts Output Types Scheduler Reporter Keymap SpecScheduler SchedulerFacts
  KeymapFacts SpecKeymap KeymapInv KeymapHist KeymapQueue KeymapCalls KeymapStuck.
Local Open Scope N_scope.

Lemma last_opt_snoc {A} (l : list A) x : last_opt (l ++ [x]) = Some x.
Proof. induction l as [|y l IH]; [reflexivity|]. cbn. destruct (l ++ [x]) eqn:E; [now destruct l|]. exact IH. Qed.

Lemma filter_perm {A} (f : A -> bool) l l' : Permutation l l' -> Permutation (filter f l) (filter f l').
Proof.
  induction 1; cbn; [constructor| | |etransitivity; eassumption].
  - destruct (f x); [now constructor|assumption].
  - destruct (f x), (f y); try reflexivity. constructor.
Qed.

(** ** The scheduler *)
Section Sched.
Context {E : Type}.
Variable bs : position_fn.
Hypothesis Hpos : position_ok bs.
Implicit Types (s : scheduler E) (en : sch_entry E).

(** At most [b] entries are popped before [en]. *)
Definition within en (b : nat) s : Prop :=
  exists pre post, sc_scheduled s = pre ++ en :: post /\ (length post <= b)%nat.
Definition past en b s : Prop :=
  decreasing (map en_time (sc_scheduled s)) /\ en_time en < sc_counter s /\ within en b s.

Lemma within_weaken en b b' s : (b <= b')%nat -> within en b s -> within en b' s.
Proof. intros Hb (pre & post & E0 & Hl). exists pre, post. split; [exact E0|lia]. Qed.
Lemma within_in en b s : within en b s -> In en (sc_scheduled s).
Proof. intros (pre & post & E0 & _). rewrite E0. apply in_or_app. right. now left. Qed.

Lemma after_past en b s d e s' : past en b s -> sched_after bs s d e = Ok s' -> past en b s'.
Proof.
  intros (Hs & Ht & pre & post & Es & Hl) H. pose proof (sched_after_sorted bs s d e s' Hpos Hs H) as Hs'.
  pose proof (sched_after_ok _ _ _ _ _ H) as (_ & Hc & t & Et & _).
  split; [exact Hs'|]. split; [now rewrite Hc|].
  unfold sched_after in H. inv_bind H. apply u32_add_ok in E0 as [-> _].
  destruct (Nat.ltb_spec (length (sc_scheduled s)) MAX_SCHEDULED_EVENTS); [|discriminate].
  destruct (Nat.leb_spec (bs (map en_time (sc_scheduled s)) (sc_counter s + d)) (length (sc_scheduled s))); [|discriminate].
  inv_ok H. destruct (Hpos _ (sc_counter s + d) Hs) as (_ & Hf & _).
  set (p := bs (map en_time (sc_scheduled s)) (sc_counter s + d)) in *.
  assert (Hp : (p <= length pre)%nat).
  { destruct (Nat.le_gt_cases p (length pre)) as [|Hgt]; [assumption|exfalso].
    rewrite Es, map_app in Hf. cbn [map] in Hf. rewrite firstn_app in Hf. apply Forall_app in Hf as [_ Hf].
    rewrite map_length in Hf. destruct (p - length pre)%nat as [|m] eqn:Em; [lia|]. cbn [firstn] in Hf.
    inversion Hf as [|? ? Hx _]; subst. lia. }
  exists (firstn p pre ++ mkEntry (sc_counter s + d) e true :: skipn p pre), post. split; [|exact Hl].
  cbn. unfold insert_at. rewrite Es, firstn_app, skipn_app.
  replace (p - length pre)%nat with 0%nat by lia. cbn [firstn skipn]. rewrite app_nil_r, <- app_assoc. reflexivity.
Qed.
Lemma event_past en b s se s' : past en b s -> sched_event_in bs s se = Ok s' -> past en b s'.
Proof.
  unfold sched_event_in. destruct (se_schedule se) as [|d].
  - intros (A & B & C) H. apply sched_enqueue_ok in H as (H1 & H2 & H3 & H4).
    unfold past, within. rewrite H3, H2. exact (conj A (conj B C)).
  - apply after_past.
Qed.
Lemma after_in en s d e s' : In en (sc_scheduled s) -> sched_after bs s d e = Ok s' -> In en (sc_scheduled s').
Proof.
  intros Hi H. unfold sched_after in H. inv_bind H.
  destruct (_ <? _)%nat; [|discriminate]. destruct (_ <=? _)%nat; [|discriminate]. inv_ok H. cbn.
  apply insert_at_In. now right.
Qed.
Lemma event_in en s se s' : In en (sc_scheduled s) -> sched_event_in bs s se = Ok s' -> In en (sc_scheduled s').
Proof.
  unfold sched_event_in. destruct (se_schedule se) as [|d].
  - intros Hi H. apply sched_enqueue_ok in H as (H1 & H2 & H3 & H4). now rewrite H3.
  - apply after_in.
Qed.

Lemma cancel_keeps en i : is_key_of i (en_event en) = false -> cancel_entry i en = en.
Proof. unfold cancel_entry, is_key_of. destruct (en_event en); try reflexivity. now intros ->. Qed.
Lemma cancel_past en b s i : is_key_of i (en_event en) = false -> past en b s -> past en b (sched_cancel s i).
Proof.
  intros Hk (A & B & pre & post & Es & Hl). split; [cbn; now rewrite cancel_times|]. split; [exact B|].
  exists (map (cancel_entry i) pre), (map (cancel_entry i) post). cbn. rewrite Es, map_app. cbn [map].
  rewrite cancel_keeps by exact Hk. split; [reflexivity|now rewrite map_length].
Qed.
Lemma cancel_in en s i : is_key_of i (en_event en) = false -> In en (sc_scheduled s) -> In en (sc_scheduled (sched_cancel s i)).
Proof. intros Hk Hi. cbn. apply in_map_iff. exists en. split; [now apply cancel_keeps|exact Hi]. Qed.

Lemma tick_in en s ms s' : In en (sc_scheduled s) -> sched_tick s ms = Ok s' ->
  In en (sc_scheduled s')
  \/ sc_pending s' = sc_pending s ++ [if en_live en then Some (en_event en) else None].
Proof.
  intros Hi H. apply sched_tick_ok in H as (_ & [(_ & -> & _)|(en' & Es & _ & Ep)]); [now left|].
  rewrite Es in Hi. apply in_app_or in Hi as [Hi|[->|[]]]; auto.
Qed.
Lemma tick_past en b s ms s' : past en b s -> sched_tick s ms = Ok s' ->
  (exists b', b = S b' /\ past en b' s')
  \/ sc_pending s' = sc_pending s ++ [if en_live en then Some (en_event en) else None].
Proof.
  intros (A & B & pre & post & Es & Hl) H. pose proof (sched_tick_sorted _ _ _ A H) as A'.
  pose proof H as H'. apply sched_tick_ok in H as (Hc & [(_ & _ & Hn)|(en' & Es' & _ & Ep)]).
  - exfalso. destruct (exists_last (l := en :: post) ltac:(discriminate)) as (l & x & El).
    assert (Hx : en_time x <= en_time en).
    { destruct l as [|y l]; [injection El as <- _; reflexivity|]. injection El as <- El.
      rewrite Es, map_app in A. cbn [map] in A. apply SSorted_app in A as (_ & A & _).
      inversion A as [|? ? _ Hall]; subst. rewrite Forall_map, Forall_forall in Hall. apply Hall.
      apply in_or_app. right. now left. }
    assert (El' : last_opt (sc_scheduled s) = Some x).
    { rewrite Es, El, app_assoc. apply last_opt_snoc. }
    specialize (Hn _ El'). lia.
  - destruct (exists_last (l := en :: post) ltac:(discriminate)) as (l & x & El).
    rewrite Es, El, app_assoc in Es'. apply app_inj_tail in Es' as [Es' ->].
    destruct l as [|y l].
    + injection El as <- _. right. exact Ep.
    + injection El as <- El. left. assert (Hb : length post = S (length l)) by (rewrite El, app_length; cbn; lia).
      destruct b as [|b']; [lia|]. exists b'. split; [reflexivity|]. split; [exact A'|]. split; [lia|].
      exists pre, l. split; [now rewrite <- Es'|lia].
Qed.
End Sched.

(** ** The keymap *)
Section Live.
Context {R Ctx Ev PKS KS : Type}.
Variable conf : kconf R Ctx Ev PKS KS.
Local Notation km := (keymap R Ctx Ev PKS KS).
Local Notation sys := (kc_sys conf).
Local Notation pos := (kc_pos conf).
Local Notation job := (job R Ev KS).
Implicit Types (k : km) (s : scheduler Ev).

(** [canc i]: the key at index [i] may be undecided.  [G i r]: the key at
    index [i] may come to be [r].  [E]: what may be emitted.  [M]: the events
    counted; [B]: how many of them the context waits for; [C]: what is known of the
    context. *)
Record law := mkLaw {
  canc : u16 -> Prop;
  G : u16 -> R -> Prop;
  E : sched_event Ev -> Prop;
  E' : event Ev -> Prop;
  M : event Ev -> bool;
  B : Ctx -> nat;
  C : Ctx -> Prop }.
Variable L : law.
Definition counted (kes : key_events Ev) : nat := length (filter (fun se => M L (se_event se)) kes).
Record lawful : Prop := {
  mb_start : forall i r, nth_error (kc_refs conf) (N.to_nat i) = Some r -> G L i r;
  mb_next : forall i c r r' kes, G L i r ->
    sys_new_pressed_key sys i c r = Ok (PkNewPressedKey (NpkKey r'), kes) -> G L i r';
  mb_pending : forall i c r p kes, G L i r ->
    sys_new_pressed_key sys i c r = Ok (PkPending p, kes) -> canc L i;
  mb_decided : forall i c r p p' ev r' kes, canc L i -> G L i r ->
    sys_update_pending_state sys p i c r ev = Ok (p', Some (NpkKey r'), kes) -> G L i r';
  em_press : forall i c r x kes, G L i r -> sys_new_pressed_key sys i c r = Ok (x, kes) ->
    Forall (E L) kes /\ counted kes = 0%nat;
  em_pending : forall i c r p x ev kes, canc L i -> G L i r ->
    sys_update_pending_state sys p i c r ev = Ok (x, kes) -> Forall (E L) kes /\ counted kes = 0%nat;
  em_state : forall i c r ks x ev kes, G L i r -> E' L ev -> sys_update_state sys ks r c i ev = Ok (x, kes) ->
    Forall (E L) kes /\ counted kes = 0%nat;
  em_ctx : forall c ev c' kes, C L c -> E' L ev -> sys_ctx_handle_event sys c ev = Ok (c', kes) ->
    C L c' /\ Forall (E L) kes /\ ((if M L ev then 1 else 0) <= B L c -> B L c' + (if M L ev then 1 else 0) = B L c + counted kes)%nat;
  em_set : forall c t i, B L (sys_ctx_set_keymap_context sys c t i) = B L c
    /\ (C L c -> C L (sys_ctx_set_keymap_context sys c t i));
  em_input : forall x, E' L (EvInput x) /\ M L (EvInput x) = false;
  em_keymap : forall x, E' L (EvKeymap x) /\ M L (EvKeymap x) = false;
  em_event : forall se, E L se -> E' L (se_event se);
  em_kept : forall i e, canc L i -> E' L e -> M L e = true -> is_key_of i e = false }.
Hypothesis HL : lawful.

(** A property of schedulers kept by everything the recursion does. *)
Record sched_kept (S : scheduler Ev -> Prop) : Prop := {
  sk_event : forall s se s', S s -> E L se -> sched_event_in pos s se = Ok s' -> S s';
  sk_pending : forall s t, S s -> S (mkSched t (sc_scheduled s) (sc_counter s));
  sk_cancel : forall s i, canc L i -> S s -> S (sched_cancel s i) }.
Variable S : scheduler Ev -> Prop.
Hypothesis HS : sched_kept S.

(** Counted events on their way. *)
Definition on_way s : nat :=
  (length (filter (fun o => match o with Some e => M L e | None => false end) (sc_pending s))
   + length (filter (fun en => en_live en && M L (en_event en)) (sc_scheduled s)))%nat.
Definition bal (n : nat) k : Prop := (n + on_way (km_sched k) = B L (km_ctx k))%nat.

Definition und k : Prop :=
  (forall p, km_pending k = Some p -> canc L (pd_index p) /\ G L (pd_index p) (pd_ref p)
     /\ Forall (fun ev => exists ie, ev = EvInput ie) (pd_queued p))
  /\ (forall i r ks, In (PiKey i r ks) (km_pressed k) -> G L i r).
Definition good_sched s : Prop := events_ok (E' L) s /\ S s.
Definition base k : Prop := und k /\ good_sched (km_sched k) /\ C L (km_ctx k).
Definition jok (j : job) k : Prop :=
  match j with
  | JPressLoop i r => G L i r
  | JPendingLoop (NpkKey r) => forall p, km_pending k = Some p -> G L (pd_index p) r
  | JHandleEvent ev => E' L ev
  | JUpdatePending ev => E' L ev
  | _ => True
  end.
Definition jw (j : job) : nat := match j with JHandleEvent ev => if M L ev then 1 else 0 | _ => 0 end.

Lemma event_good s se s' : good_sched s -> E L se -> sched_event_in pos s se = Ok s' ->
  good_sched s' /\ on_way s' = (on_way s + if M L (se_event se) then 1 else 0)%nat.
Proof.
  intros [He Hs] Hse H. split.
  - split; [|eapply (sk_event _ HS); eauto]. eapply sched_event_in_events; [exact He| |exact H]. now apply (em_event HL).
  - unfold on_way. pose proof H as H'. apply sched_event_in_ok in H as (_ & [(_ & Es & Ep & _)|(d & _ & Ep & Ha)]).
    + rewrite Es, Ep, filter_app, app_length. cbn. destruct (M L (se_event se)); cbn; lia.
    + apply sched_after_ok in Ha as (_ & _ & Es & _). rewrite Ep, Es.
      rewrite (Permutation_length (filter_perm _ _ _ (insert_at_perm _ _ _))). cbn.
      destruct (M L (se_event se)); cbn; lia.
Qed.
Lemma all_good kes : forall s s', Forall (E L) kes -> good_sched s -> sched_all pos s kes = Ok s' ->
  good_sched s' /\ on_way s' = (on_way s + counted kes)%nat.
Proof.
  induction kes as [|se kes IH]; intros s s' He Hs H; cbn in H.
  - inv_ok H. unfold counted. cbn. split; [exact Hs|lia].
  - inv_bind H. inversion He; subst. destruct (event_good _ _ _ Hs H2 E0) as [A1 A2].
    destruct (IH _ _ H3 A1 H) as [B1 B2]. split; [exact B1|]. rewrite B2, A2. unfold counted. cbn.
    destruct (M L (se_event se)); cbn; lia.
Qed.
Lemma update_pressed_list_good ctx ev pis : E' L ev -> (forall i r ks, In (PiKey i r ks) pis -> G L i r) ->
  forall s pis' s', good_sched s -> update_pressed_list conf ctx ev pis s = Ok (pis', s') ->
  (forall i r ks, In (PiKey i r ks) pis' -> G L i r) /\ good_sched s' /\ on_way s' = on_way s.
Proof.
  intros Hev. induction pis as [|[i0 r0 ks0|ko] pis IH]; intros Hp s pis' s' Hs H; cbn [update_pressed_list] in H.
  - inv_ok H. auto.
  - inv_bind H. destruct a as [ks' kes]. inv_bind H. inv_bind H. destruct a0 as [t' s2]. inv_ok H.
    assert (Hg : G L i0 r0) by (eapply Hp; now left).
    destruct (em_state HL _ _ _ _ _ _ _ Hg Hev E0) as [F1 F2].
    destruct (all_good _ _ _ F1 Hs E1) as [A1 A2].
    apply IH in E2 as (C1 & C2 & C3); [|intros; eapply Hp; right; eassumption|exact A1].
    split; [|split; [exact C2|lia]]. intros i r ks [Hx|Hx]; [injection Hx as <- <- _; exact Hg|eauto].
  - inv_bind H. destruct a as [t' s2]. inv_ok H. apply IH in E0 as (C1 & C2 & C3); [|intros; eapply Hp; right; eassumption|exact Hs].
    split; [|auto]. intros i r ks [Hx|Hx]; [discriminate|eauto].
Qed.

(** What one step of a job does. *)
Definition ok_step (w : nat) (a b : km) : Prop := base b /\ forall n, bal (n + w) a -> bal n b.
Lemma ok_refl a : base a -> ok_step 0 a a.
Proof. intros H. split; [exact H|]. intros n. now rewrite Nat.add_0_r. Qed.
Lemma ok_trans w1 w2 a b c : ok_step w1 a b -> ok_step w2 b c -> ok_step (w1 + w2) a c.
Proof. intros [A1 A2] [B1 B2]. split; [exact B1|]. intros n Hn. apply B2, A2. now rewrite <- Nat.add_assoc, (Nat.add_comm w2). Qed.
Lemma ok_trans0 w a b c : ok_step 0 a b -> ok_step w b c -> ok_step w a c.
Proof. apply (ok_trans 0 w). Qed.
Lemma ok_same w a b c : on_way (km_sched b) = on_way (km_sched a) -> km_ctx b = km_ctx a -> ok_step w b c -> ok_step w a c.
Proof. intros H1 H2 [B1 B2]. split; [exact B1|]. intros n Hn. apply B2. unfold bal in *. now rewrite H1, H2. Qed.
Lemma ok_to w a b c : ok_step w a b -> on_way (km_sched c) = on_way (km_sched b) -> km_ctx c = km_ctx b -> base c -> ok_step w a c.
Proof. intros [B1 B2] H1 H2 Hc. split; [exact Hc|]. intros n Hn. apply B2 in Hn. unfold bal in *. now rewrite H1, H2. Qed.

Lemma update_pressed_good k ev k' : base k -> E' L ev -> update_pressed conf k ev = Ok k' ->
  ok_step 0 k k' /\ km_pending k' = km_pending k.
Proof.
  intros [[U1 U2] [Hs HC]] Hev H. inv_prim. destruct (update_pressed_list_good _ _ _ Hev U2 _ _ _ Hs Hs0) as (A1 & A2 & A3).
  split; [|reflexivity]. split; [split; [split; [exact U1|exact A1]|split; [exact A2|exact HC]]|]. unfold bal. cbn. intros n. lia.
Qed.
Lemma update_context_good k ev k' : base k -> E' L ev -> update_context conf k ev = Ok k' ->
  ok_step (if M L ev then 1 else 0) k k' /\ km_pending k' = km_pending k.
Proof.
  intros [[U1 U2] [Hs HC]] Hev H. inv_prim. destruct (em_ctx HL _ _ _ _ HC Hev Hc) as (F0 & F1 & F2).
  destruct (all_good _ _ _ F1 Hs Hs0) as [A1 A2]. split; [|reflexivity].
  split; [split; [split; [exact U1|exact U2]|split; [exact A1|exact F0]]|].
  unfold bal. cbn. intros n Hn. destruct (M L ev); lia.
Qed.
Lemma remove_first_in {A} (f : A -> bool) l x : In x (remove_first f l) -> In x l.
Proof. induction l as [|y l IH]; cbn; [auto|]. destruct (f y); cbn; intuition. Qed.

Lemma cancel_on_way s i : canc L i -> events_ok (E' L) s -> on_way (sched_cancel s i) = on_way s.
Proof.
  intros Hc [_ He]. unfold on_way. cbn. f_equal. induction (sc_scheduled s) as [|en l IH]; [reflexivity|].
  inversion He; subst. cbn [map filter].
  assert (Hx : en_live (cancel_entry i en) && M L (en_event (cancel_entry i en)) = en_live en && M L (en_event en)).
  { destruct (M L (en_event en)) eqn:Em.
    - rewrite cancel_keeps; [now rewrite Em|]. eapply (em_kept HL); eauto.
    - assert (Hy : en_event (cancel_entry i en) = en_event en)
        by (unfold cancel_entry; destruct (en_event en) eqn:Ee; try congruence; destruct (_ =? _); cbn; congruence).
      rewrite Hy, Em, !andb_false_r. reflexivity. }
  rewrite Hx. destruct (en_live en && M L (en_event en)); cbn; now rewrite IH.
Qed.

Definition contract (j : job) k k' : Prop := base k /\ jok j k -> ok_step (jw j) k k'.
Lemma exec_ok fuel j k k' : base k -> jok j k -> exec conf fuel j k = Ok k' -> ok_step (jw j) k k'.
Proof.
  intros Hb Hj. apply (exec_contract conf (fun j k => base k /\ jok j k) (fun j k k' => ok_step (jw j) k k')); [|auto].
  clear fuel j k k' Hb Hj. intros j k k' [Hb HJ] H.
  assert (Hemit : forall i r ks a b, base a ->
    emit_rel conf (fun (j : job) a b => base a /\ jok j a -> ok_step (jw j) a b) i r ks a b -> ok_step 0 a b).
  { intros i r ks a b Ha (o & _ & Ho). destruct o; [|subst; now apply ok_refl].
    specialize (Ho (conj Ha (proj1 (em_keymap HL _)))). cbn [jw] in Ho.
    now rewrite (proj2 (em_keymap HL _)) in Ho. }
  assert (Hui : forall a x k1 k2, base a -> update_pressed conf a (EvInput x) = Ok k1 -> update_context conf k1 (EvInput x) = Ok k2 ->
     ok_step 0 a k2 /\ km_pending k2 = km_pending a).
  { intros a x k1 k2 Ha H1 H2. apply update_pressed_good in H1 as [A1 A2]; [|exact Ha|apply (em_input HL)].
    apply update_context_good in H2 as [B1 B2]; [|exact (proj1 A1)|apply (em_input HL)].
    rewrite (proj2 (em_input HL x)) in B1. split; [|congruence]. eapply ok_trans0; eauto. }
  assert (Hall : forall a kes b, Forall (E L) kes /\ counted kes = 0%nat -> schedule_all conf a kes = Ok b -> base a ->
     ok_step 0 a b /\ km_pending b = km_pending a /\ km_pressed b = km_pressed a).
  { intros a kes b [F1 F2] H1 [[U1 U1'] [U2 U3]]. inv_prim. destruct (all_good _ _ _ F1 U2 Hs) as [A1 A2].
    split; [|auto]. split; [split; [split; [exact U1|exact U1']|split; [exact A1|exact U3]]|]. unfold bal. cbn. intros n. lia. }
  assert (Hset : forall a p, base a -> canc L (pd_index p) -> G L (pd_index p) (pd_ref p) ->
     Forall (fun ev => exists ie, ev = EvInput ie) (pd_queued p) -> base (set_pending a (Some p))).
  { intros a p [[U1 U2] U3] Hc Hg Hq. split; [split|exact U3]; [|exact U2]. cbn. intros p' E0. injection E0 as <-. auto. }
  assert (Hpush : forall a i r ks, base a -> G L i r -> base (set_pressed a (km_pressed a ++ [PiKey i r ks]))).
  { intros a i r ks [[U1 U2] U3] Hg. split; [split|exact U3]; [exact U1|]. cbn. intros i' r' ks' Hi.
    apply in_app_or in Hi as [Hi|[Hi|[]]]; [eapply U2; eauto|]. injection Hi as -> -> _. exact Hg. }
  assert (Hsub : forall a pr, base a -> (forall x, In x pr -> In x (km_pressed a)) -> base (set_pressed a pr)).
  { intros a pr [[U1 U2] U3] Hp. split; [split|exact U3]; [exact U1|]. cbn. intros i r ks Hi. eapply U2, Hp, Hi. }
  assert (Hvp : forall a ko, base a -> base (set_pressed a (km_pressed a ++ [PiVirtual ko]))).
  { intros a ko [[U1 U2] U3]. split; [split|exact U3]; [exact U1|]. cbn. intros i' r' ks' Hi.
    apply in_app_or in Hi as [Hi|[Hi|[]]]; [eapply U2; eauto|discriminate]. }
  assert (Hdeq : forall a o t, sc_pending (km_sched a) = o :: t -> base a ->
     base (set_sched a (mkSched t (sc_scheduled (km_sched a)) (sc_counter (km_sched a))))
     /\ on_way (km_sched a) = ((if match o with Some e => M L e | None => false end then 1 else 0)
          + on_way (mkSched t (sc_scheduled (km_sched a)) (sc_counter (km_sched a))))%nat).
  { intros a o t Ho [Ua [[Ea Sa] Ca]]. split.
    - split; [exact Ua|]. cbn. split; [|exact Ca]. split; [|now apply (sk_pending _ HS)]. destruct Ea as [Ep Es].
      rewrite Ho in Ep. inversion Ep; subst. split; assumption.
    - unfold on_way. cbn. rewrite Ho. cbn. destruct o as [e|]; [destruct (M L e)|]; cbn; lia. }
  destruct H; cbn [jw].
  - now apply ok_refl.
  - destruct (Hdeq _ _ _ H Hb) as [A1 A2]. cbn in A2. split; [exact A1|]. unfold bal. cbn. intros n. lia.
  - destruct (Hdeq _ _ _ H Hb) as [A1 A2].
    assert (Hev : E' L ev) by (destruct Hb as [_ [[[Ep _] _] _]]; rewrite H in Ep; now inversion Ep; subst).
    specialize (H0 (conj A1 Hev)). specialize (H1 (conj (proj1 H0) I)). pose proof (ok_trans _ _ _ _ _ H0 H1) as [C1 C2].
    split; [exact C1|]. intros n Hn. apply C2. unfold bal in *. cbn [jw set_sched km_sched km_ctx] in *.
    destruct (M L ev); lia.
  - assert (B0 : ok_step 0 k k1).
    { destruct (run_callback_eq k ev) as (new & Er & _). rewrite Er in H.
      apply (ok_same 0 k (set_calls k (km_calls k ++ new)) k1); try reflexivity. apply H. split; [exact Hb|exact HJ]. }
    apply update_pressed_good in H0 as [B1 _]; [|exact (proj1 B0)|exact HJ].
    apply update_context_good in H1 as [B2 _]; [|exact (proj1 B1)|exact HJ].
    pose proof (ok_trans0 _ _ _ _ B0 (ok_trans0 _ _ _ _ B1 B2)) as B3.
    destruct ev; [|subst; exact B3|subst; exact B3].
    rewrite (proj2 (em_input HL _)) in *. eapply ok_trans0; [exact B3|]. apply H2. split; [exact (proj1 B3)|exact I].
  - destruct Hb as [[HU1 HU2] Hs0]. destruct (HU1 _ H) as (Hc & Hg & Hq).
    assert (Hb' : base (set_pending k (Some (with_queued p (pd_queued p ++ [EvInput ie]))))).
    { apply Hset; [split; [split|]; assumption|exact Hc|exact Hg|]. cbn. apply Forall_app. split; [exact Hq|].
      constructor; [eauto|constructor]. }
    specialize (H1 (conj Hb' (proj1 (em_input HL _)))).
    apply (ok_same 0 k (set_pending k (Some (with_queued p (pd_queued p ++ [EvInput ie]))))); try reflexivity.
    eapply ok_trans0; [exact H1|]. apply H2. split; [exact (proj1 H1)|exact I].
  - destruct (Hui _ _ _ _ Hb H0 H1) as (B2 & _). eapply ok_trans0; [exact B2|]. apply H3. split; [exact (proj1 B2)|exact I].
  - destruct (Hui _ _ _ _ Hb H0 H1) as (B2 & _). eapply ok_trans0; [exact B2|].
    specialize (H4 (conj (proj1 B2) (mb_start HL _ _ H3))). eapply ok_trans0; [exact H4|].
    apply H5. split; [exact (proj1 H4)|exact I].
  - destruct (Hui _ _ _ _ Hb H0 H1) as (B2 & _). eapply ok_trans0; [exact B2|].
    apply (ok_same 0 k2 (set_pressed k2 (remove_first (pi_has_index i) (km_pressed k2)))); try reflexivity.
    apply H2. split; [|exact I]. apply Hsub; [exact (proj1 B2)|]. intros x. apply remove_first_in.
  - destruct (Hui _ _ _ _ Hb H0 H1) as (B2 & _). eapply ok_trans0; [exact B2|].
    apply (ok_same 0 k2 (set_pressed k2 (km_pressed k2 ++ [PiVirtual ko]))); try reflexivity.
    apply H3. split; [|exact I]. apply Hvp, B2.
  - destruct (Hui _ _ _ _ Hb H0 H1) as (B2 & _). eapply ok_trans0; [exact B2|].
    match goal with |- ok_step 0 k2 _ => eapply (ok_same 0 k2); [| |apply H2]; try reflexivity end.
    split; [|exact I]. apply Hsub; [exact (proj1 B2)|]. intros x. apply remove_first_in.
  - destruct (Hall _ _ _ (em_press HL _ _ _ _ _ HJ H) H0 Hb) as (B1 & _). eapply ok_trans0; [exact B1|].
    eapply ok_same; [| |eapply Hemit; [|exact H2]]; try reflexivity. apply Hpush; [exact (proj1 B1)|exact HJ].
  - destruct (Hall _ _ _ (em_press HL _ _ _ _ _ HJ H) H0 Hb) as (B1 & _). eapply ok_trans0; [exact B1|].
    apply H1. split; [exact (proj1 B1)|]. exact (mb_next HL _ _ _ _ _ HJ H).
  - destruct (Hall _ _ _ (em_press HL _ _ _ _ _ HJ H) H0 Hb) as (B1 & _).
    eapply ok_to; [exact B1|reflexivity|reflexivity|]. apply Hpush; [exact (proj1 B1)|exact HJ].
  - destruct (Hall _ _ _ (em_press HL _ _ _ _ _ HJ H) H0 Hb) as (B1 & _).
    eapply ok_to; [exact B1|reflexivity|reflexivity|]. apply Hset; [exact (proj1 B1)| |exact HJ|constructor].
    exact (mb_pending HL _ _ _ _ _ HJ H).
  - now apply ok_refl.
  - destruct (proj1 (proj1 Hb) _ H) as (Hc & Hg & Hq).
    destruct (Hall _ _ _ (em_pending HL _ _ _ _ _ _ _ Hc Hg H0) H1) as (B1 & _); [now apply Hset|].
    eapply ok_same; [| |exact B1]; reflexivity.
  - destruct (proj1 (proj1 Hb) _ H) as (Hc & Hg & Hq).
    destruct (Hall _ _ _ (em_pending HL _ _ _ _ _ _ _ Hc Hg H0) H1) as (B1 & E1 & _); [now apply Hset|].
    eapply (ok_same 0 k (set_pending k (Some (mkPending (pd_index p) (pd_ref p) pks (pd_queued p))))); try reflexivity.
    eapply ok_trans0; [exact B1|].
    apply H2. split; [exact (proj1 B1)|]. destruct npk as [r|]; [|exact I]. cbn. intros p' E0. rewrite E1 in E0.
    injection E0 as <-. cbn. exact (mb_decided HL _ _ _ _ _ _ _ _ Hc Hg H0).
  - now apply ok_refl.
  - apply H0. split; [exact Hb|exact I].
  - destruct (proj1 (proj1 Hb) _ H) as (Hc & _ & Hq). pose proof (HJ _ H) as Hg.
    destruct (Hall _ _ _ (em_press HL _ _ _ _ _ Hg H0) H1) as (B1 & E1 & _); [now apply Hset|].
    eapply (ok_same 0 k (set_pending k (Some (mkPending (pd_index p) r (pd_state p) (pd_queued p))))); try reflexivity.
    eapply ok_trans0; [exact B1|]. apply H2. split; [exact (proj1 B1)|exact I].
  - destruct (proj1 (proj1 Hb) _ H) as (Hc & _ & Hq). pose proof (HJ _ H) as Hg.
    destruct (Hall _ _ _ (em_press HL _ _ _ _ _ Hg H0) H1) as (B1 & E1 & _); [now apply Hset|].
    eapply (ok_same 0 k (set_pending k (Some (mkPending (pd_index p) r (pd_state p) (pd_queued p))))); try reflexivity.
    eapply ok_trans0; [exact B1|]. apply H2. split; [exact (proj1 B1)|]. cbn.
    intros p' E0. rewrite E1 in E0. injection E0 as <-. exact (mb_next HL _ _ _ _ _ Hg H0).
  - destruct (proj1 (proj1 Hb) _ H) as (Hc & _ & Hq). pose proof (HJ _ H) as Hg.
    destruct (Hall _ _ _ (em_press HL _ _ _ _ _ Hg H0) H1) as (B1 & E1 & _); [now apply Hset|].
    eapply (ok_same 0 k (set_pending k (Some (mkPending (pd_index p) r (pd_state p) (pd_queued p))))); try reflexivity.
    eapply ok_trans0; [exact B1|]. apply H2. split; [exact (proj1 B1)|exact I].
  - destruct (proj1 (proj1 Hb) _ H) as (Hc & _ & Hq). pose proof (HJ _ H) as Hg.
    destruct (Hall _ _ _ (em_press HL _ _ _ _ _ Hg H0) H1) as (B1 & E1 & _); [now apply Hset|].
    eapply (ok_same 0 k (set_pending k (Some (mkPending (pd_index p) r (pd_state p) (pd_queued p))))); try reflexivity.
    eapply ok_to; [exact B1|reflexivity|reflexivity|].
    pose proof (Hset k1 (mkPending (pd_index p) r pks []) (proj1 B1) Hc Hg (Forall_nil _)) as Hx. exact Hx.
  - now apply ok_refl.
  - destruct (proj1 (proj1 Hb) _ H) as (Hc & Hg & Hq).
    apply requeue_inputs in H1; [|now apply resolve_queue_inputs]. subst s.
    assert (Hb' : base (set_inq (set_sched (set_pressed (set_pending k None)
         (km_pressed k ++ [PiKey (pd_index p) (pd_ref p) ks])) (sched_cancel (km_sched k) (pd_index p))) q')).
    { split; [split; [cbn; discriminate|]|].
      - exact (proj2 (proj1 (Hpush k _ _ ks Hb Hg))).
      - cbn. destruct Hb as [_ [[He Hs0] HC]]. split; [|exact HC]. split; [now apply cancel_events|now apply (sk_cancel _ HS)]. }
    specialize (H3 (conj Hb' I)). eapply ok_same; [| |eapply ok_trans0; [exact H3|]].
    + cbn. apply cancel_on_way; [exact Hc|exact (proj1 (proj1 (proj2 Hb)))].
    + reflexivity.
    + eapply Hemit; [exact (proj1 H3)|exact H4].
Qed.

Lemma handle_input_ok fuel ev k k' : base k -> km_handle_input conf fuel ev k = Ok k' -> ok_step 0 k k'.
Proof.
  intros Hb H. apply handle_input_cases in H as [(_ & _ & ie & q & k2 & _ & H & ->)|[(_ & _ & ->)|(_ & ->)]].
  - apply exec_ok in H; [|exact Hb|exact I]. exact H.
  - exact (ok_refl k Hb).
  - exact (ok_refl k Hb).
Qed.

Definition first_half fuel k k2 : Prop := exists k1,
  let k0 := set_ctx k (sys_ctx_set_keymap_context sys (km_ctx k) (sc_counter (km_sched k)) (km_idle k)) in
  ((exists ie q k1', km_inq k = ie :: q /\ km_delay k = 0
        /\ exec conf fuel (JProcessInput ie) (set_inq k0 q) = Ok k1' /\ k1 = set_delay k1' INPUT_QUEUE_TICK_DELAY)
     \/ (k1 = k0 /\ (km_inq k = [] \/ km_delay k <> 0)))
  /\ k2 = (if 0 <? km_delay k1 then set_delay k1 (km_delay k1 - 1) else k1).
(** A tick: the event popped from the schedule, if any, is all there is to
    handle in its second half. *)
Lemma tick_ok fuel k k' : base k -> drained k -> km_tick conf fuel k = Ok k' ->
  exists k2 s k3, ok_step 0 k k2 /\ drained k2 /\ drained k3
    /\ sc_counter (km_sched k2) = sc_counter (km_sched k)
    /\ sched_tick (km_sched k2) (km_ms_per_tick k) = Ok s
    /\ exec conf fuel JHandlePending (set_sched k2 s) = Ok k3
    /\ k' = set_idle k3 (km_idle k3 + km_ms_per_tick k3)
    /\ (S s -> ok_step 0 k k') /\ first_half fuel k k2.
Proof.
  intros Hb Hd H. apply tick_cases in H as (k1 & k2 & s & k3 & H1 & -> & Hs & H3 & _ & ->). cbv zeta in H1.
  assert (Hfh : first_half fuel k (if 0 <? km_delay k1 then set_delay k1 (km_delay k1 - 1) else k1))
    by (exists k1; split; [exact H1|reflexivity]).
  set (k0 := set_ctx k (sys_ctx_set_keymap_context sys (km_ctx k) (sc_counter (km_sched k)) (km_idle k))) in *.
  assert (O0 : ok_step 0 k k0).
  { split; [destruct Hb as [[U1 U2] [U3 U4]]; refine (conj (conj U1 U2) (conj U3 _)); now apply (em_set HL)|].
    unfold bal. cbn. intros n. rewrite (proj1 (em_set HL _ _ _)). lia. }
  assert (O1 : ok_step 0 k k1 /\ drained k1 /\ sc_counter (km_sched k1) = sc_counter (km_sched k)
               /\ km_ms_per_tick k1 = km_ms_per_tick k).
  { destruct H1 as [(ie & q & k1' & _ & _ & H1 & ->)|(-> & _)].
    2: { split; [exact O0|]. split; [exact Hd|auto]. }
    pose proof (exec_frame _ _ _ _ _ H1) as (F1 & F2 & _).
    split; [|split; [|split; [exact F1|exact F2]]].
    - eapply ok_trans0; [exact O0|]. apply exec_ok in H1; [exact H1|exact (proj1 O0)|exact I].
    - apply exec_drained in H1 as (_ & H1); [exact H1|]. left. unfold no_hole. cbn.
      unfold drained in Hd. rewrite Hd. constructor. }
  assert (Hk : ok_step 0 k (if 0 <? km_delay k1 then set_delay k1 (km_delay k1 - 1) else k1)
     /\ drained (if 0 <? km_delay k1 then set_delay k1 (km_delay k1 - 1) else k1)
     /\ sc_counter (km_sched (if 0 <? km_delay k1 then set_delay k1 (km_delay k1 - 1) else k1)) = sc_counter (km_sched k)
     /\ km_ms_per_tick (if 0 <? km_delay k1 then set_delay k1 (km_delay k1 - 1) else k1) = km_ms_per_tick k).
  { destruct (0 <? km_delay k1); exact O1. }
  remember (if 0 <? km_delay k1 then set_delay k1 (km_delay k1 - 1) else k1) as k2 eqn:E2.
  destruct Hk as (B2 & D2 & C2 & M2). rewrite M2 in Hs.
  exists k2, s, k3. split; [exact B2|]. split; [exact D2|]. split.
  { apply exec_drained in H3 as (_ & H3); [exact H3|].
    apply sched_tick_ok in Hs as (_ & [(Ep & _)|(en & _ & _ & Ep)]); unfold drained in D2; rewrite D2 in Ep.
    - left. unfold no_hole. cbn. rewrite Ep. constructor.
    - destruct (en_live en).
      + left. unfold no_hole. cbn. rewrite Ep. constructor; [discriminate|constructor].
      + right. split; [reflexivity|exact Ep]. }
  split; [exact C2|]. split; [exact Hs|]. split; [exact H3|]. split; [reflexivity|].
  split; [|exact Hfh].
  intros Hs'. eapply ok_trans0; [exact B2|].
  pose proof (proj1 B2) as [U [[Ev2 _] C3]].
  assert (Es : events_ok (E' L) s /\ on_way s = on_way (km_sched k2)).
  { apply sched_tick_ok in Hs as (_ & [(Ep & Es & _)|(en & Es & _ & Ep)]); unfold events_ok, on_way in *.
    - rewrite Ep, Es. auto.
    - rewrite Ep, Es in *. destruct Ev2 as [V1 V2]. apply Forall_app in V2 as [V2 V3]. inversion V3; subst.
      split; [split; [|exact V2]|].
      + apply Forall_app. split; [exact V1|]. constructor; [|constructor]. now destruct (en_live en).
      + rewrite !filter_app, !app_length. cbn. destruct (en_live en); cbn; [|lia]. destruct (M L (en_event en)); cbn; lia. }
  destruct Es as [Es1 Es2].
  eapply (ok_same 0 k2 (set_sched k2 s)); [exact Es2|reflexivity|].
  apply exec_ok in H3; [exact H3| |exact I]. split; [exact U|]. split; [split; [exact Es1|exact Hs']|exact C3].
Qed.
(** Histories without [init]. *)
Definition state_ok k : Prop := base k /\ drained k /\ bal 0 k.
Hypothesis HSt : forall s ms s', S s -> sched_tick s ms = Ok s' -> S s'.
Lemma handle_input_state fuel ev k k' : state_ok k -> km_handle_input conf fuel ev k = Ok k' -> state_ok k'.
Proof.
  intros (Hb & Hd & Hn) H. pose proof (handle_input_drained _ _ _ _ _ Hd H) as Hd'.
  apply handle_input_ok in H as [A1 A2]; [|exact Hb]. split; [exact A1|]. split; [exact Hd'|]. now apply A2.
Qed.
Lemma tick_state fuel k k' : state_ok k -> km_tick conf fuel k = Ok k' -> state_ok k'.
Proof.
  intros (Hb & Hd & Hn) H. pose proof (tick_drained _ _ _ _ Hd H) as Hd'.
  apply tick_ok in H as (k2 & s & k3 & O2 & D2 & D3 & C2 & Hs & H3 & -> & Hok & Hf); [|exact Hb|exact Hd].
  destruct Hok as [A1 A2].
  { eapply HSt; [|exact Hs]. exact (proj2 (proj1 (proj2 (proj1 O2)))). }
  split; [exact A1|]. split; [exact Hd'|]. now apply A2.
Qed.
Lemma run_state fuel ops : Forall (fun o => simple_op o = true) ops -> forall k k',
  state_ok k -> run_ops conf fuel ops k = Ok k' -> state_ok k'.
Proof.
  induction 1 as [|o ops Ho _ IH]; intros k k' Hk H; cbn in H; [now inv_ok H|].
  inv_bind H. refine (IH _ _ _ H). clear IH H.
  destruct o as [ev| |dd ev| | | |ms|c f]; try discriminate; cbn [run_op] in E0.
  - eapply handle_input_state; eauto.
  - eapply tick_state; eauto.
  - inv_bind E0. destruct a0 as [k2 t]. inv_ok E0. unfold km_report_output in E1. inv_bind E1. inv_ok E1. exact Hk.
  - inv_ok E0. exact Hk.
  - unfold km_set_callback in E0. inv_bind E0. inv_ok E0. exact Hk.
Qed.
Lemma new_state c : S sched_new -> B L c = 0%nat -> C L c -> state_ok (km_new c).
Proof.
  intros Hs Hb Hc. split; [|split; [reflexivity|]].
  - split; [split; [cbn; discriminate|cbn; intros i r ks []]|]. split; [|exact Hc]. split; [split; constructor|exact Hs].
  - unfold bal. cbn. now rewrite Hb.
Qed.
End Live.

(** ** A watched keymap handles what was scheduled *)
Section Watched.
Context {R Ctx Ev PKS KS : Type}.
Variable conf : kconf R Ctx Ev PKS KS.
Local Notation W := (watch conf).
Local Notation wkm := (keymap R (Ctx * list (event Ev)) Ev PKS KS).
Implicit Types (k a b : wkm).

Definition watch_law (L : @law R Ctx Ev) : @law R (Ctx * list (event Ev)) Ev :=
  mkLaw (canc L) (G L) (E L) (E' L) (M L) (fun c => B L (fst c)) (fun c => C L (fst c)).
Lemma watch_lawful L : lawful conf L -> lawful W (watch_law L).
Proof.
  intros H. split; cbn.
  - exact (mb_start _ _ H).
  - intros i c. exact (mb_next _ _ H i (fst c)).
  - intros i c. exact (mb_pending _ _ H i (fst c)).
  - intros i c. exact (mb_decided _ _ H i (fst c)).
  - intros i c. exact (em_press _ _ H i (fst c)).
  - intros i c. exact (em_pending _ _ H i (fst c)).
  - intros i c. exact (em_state _ _ H i (fst c)).
  - intros c ev c' kes HC Hev Hx. inv_bind Hx. destruct a as [c2 kes2]. inv_ok Hx. cbn.
    exact (em_ctx _ _ H (fst c) ev c2 kes HC Hev E0).
  - intros c. exact (em_set _ _ H (fst c)).
  - exact (em_input _ _ H).
  - exact (em_keymap _ _ H).
  - exact (em_event _ _ H).
  - exact (em_kept _ _ H).
Qed.

Definition extends a b (P : list (event Ev) -> Prop) : Prop := exists l, seen b = seen a ++ l /\ P l.
Lemma exec_extends fuel j k k' : exec W fuel j k = Ok k' -> extends k k' (fun _ => True).
Proof.
  intros H. assert (HH : q18j false j k k').
  { apply (exec_calls conf false (fun _ => True) ltac:(discriminate) fuel j k k'); [discriminate|discriminate|exact H]. }
  destruct HH as ((l & new & A & _) & _). exists l. auto.
Qed.
Lemma exec_handles fuel k k' ev t : sc_pending (km_sched k) = Some ev :: t ->
  exec W fuel JHandlePending k = Ok k' -> extends k k' (In ev).
Proof.
  intros Hp H. destruct fuel as [|f]; [discriminate|]. cbn [exec] in H. apply step_inv in H. inversion H; subst; try congruence.
  rewrite H0 in Hp. injection Hp as -> ->. apply exec_extends in H2 as (l2 & E2 & _).
  assert (Hh : extends (set_sched k (mkSched t (sc_scheduled (km_sched k)) (sc_counter (km_sched k)))) k1 (In ev)).
  { destruct f as [|f]; [discriminate|]. cbn [exec] in H1. apply step_inv in H1. inversion H1; subst.
    apply exec_extends in H3 as (l3 & E3 & _). destruct (upd_ctx _ _ _ _ _ H4 H5) as (E4 & _).
    assert (E5 : seen (run_callback (set_sched k (mkSched t (sc_scheduled (km_sched k)) (sc_counter (km_sched k)))) ev) = seen k)
      by (rewrite run_callback_called; reflexivity).
    rewrite E5 in E3.
    assert (E6 : exists l4, seen k1 = seen k4 ++ l4).
    { destruct ev; [|exists []; subst; now rewrite app_nil_r..]. apply exec_extends in H6 as (l4 & E6 & _). eauto. }
    destruct E6 as (l4 & E6). exists ((l3 ++ [ev]) ++ l4). split.
    - rewrite E6, E4, E3, <- !app_assoc. reflexivity.
    - apply in_or_app. left. apply in_or_app. right. now left. }
  destruct Hh as (l1 & E1 & Hi). exists (l1 ++ l2). split; [rewrite E2, E1, app_assoc; reflexivity|].
  apply in_or_app. now left.
Qed.

Lemma extends_refl a b : seen b = seen a -> extends a b (fun _ => True).
Proof. intros H. exists []. rewrite app_nil_r. auto. Qed.
Lemma extends_trans a b c (P Q : list (event Ev) -> Prop) :
  extends a b P -> extends b c Q -> extends a c (fun l => exists l1 l2, l = l1 ++ l2 /\ P l1 /\ Q l2).
Proof. intros (l1 & E1 & H1) (l2 & E2 & H2). exists (l1 ++ l2). rewrite E2, E1, app_assoc. eauto 6. Qed.
Lemma extends_impl a b (P Q : list (event Ev) -> Prop) : (forall l, P l -> Q l) -> extends a b P -> extends a b Q.
Proof. intros H (l & E0 & Hl). exists l. auto. Qed.
Lemma extends_left a b c ev : extends a b (In ev) -> extends b c (fun _ => True) -> extends a c (In ev).
Proof.
  intros H1 H2. eapply extends_impl; [|exact (extends_trans _ _ _ _ _ H1 H2)].
  intros l (l1 & l2 & -> & Hi & _). apply in_or_app. now left.
Qed.
Lemma extends_right a b c ev : extends a b (fun _ => True) -> extends b c (In ev) -> extends a c (In ev).
Proof.
  intros H1 H2. eapply extends_impl; [|exact (extends_trans _ _ _ _ _ H1 H2)].
  intros l (l1 & l2 & -> & _ & Hi). apply in_or_app. now right.
Qed.

Lemma handle_input_extends fuel ev k k' : km_handle_input W fuel ev k = Ok k' -> extends k k' (fun _ => True).
Proof.
  intros H. apply handle_input_cases in H as [(_ & _ & ie & q & k2 & _ & H & ->)|[(_ & _ & ->)|(_ & ->)]].
  - exact (exec_extends _ _ _ _ H).
  - now apply extends_refl.
  - now apply extends_refl.
Qed.
Lemma first_extends fuel k k2 : first_half W fuel k k2 -> extends k k2 (fun _ => True).
Proof.
  intros (k1 & H1 & ->). cbv zeta in H1.
  assert (H : extends k k1 (fun _ => True)).
  { destruct H1 as [(ie & q & k1' & _ & _ & H1 & ->)|(-> & _)]; [|now apply extends_refl].
    exact (exec_extends _ _ _ _ H1). }
  destruct (0 <? km_delay k1); exact H.
Qed.
Lemma tick_extends fuel k k' : km_tick W fuel k = Ok k' -> extends k k' (fun _ => True).
Proof.
  intros H. apply tick_cases in H as (k1 & k2 & s & k3 & H1 & E2 & Hs & H3 & _ & ->).
  assert (H2 : extends k k2 (fun _ => True)) by (apply (first_extends fuel); exists k1; split; [exact H1|exact E2]).
  apply exec_extends in H3. eapply extends_impl; [|exact (extends_trans _ _ _ _ _ H2 H3)]. auto.
Qed.
Lemma op_extends fuel o k k' : simple_op o = true -> run_op W fuel k o = Ok k' -> extends k k' (fun _ => True).
Proof.
  intros Ho H. destruct o as [ev| |dd ev| | | |ms|c f]; try discriminate; cbn [run_op] in H.
  - eapply handle_input_extends; eauto.
  - eapply tick_extends; eauto.
  - inv_bind H. destruct a as [k2 t]. inv_ok H. unfold km_report_output in E0. inv_bind E0. inv_ok E0. now apply extends_refl.
  - inv_ok H. now apply extends_refl.
  - unfold km_set_callback in H. inv_bind H. inv_ok H. now apply extends_refl.
Qed.
Lemma run_extends fuel ops : Forall (fun o => simple_op o = true) ops ->
  forall k k', run_ops W fuel ops k = Ok k' -> extends k k' (fun _ => True).
Proof.
  induction 1 as [|o ops Ho _ IH]; intros k k' H; cbn in H; [inv_ok H; now apply extends_refl|].
  inv_bind H. apply op_extends in E0; [|exact Ho]. apply IH in H.
  eapply extends_impl; [|exact (extends_trans _ _ _ _ _ E0 H)]. auto.
Qed.

Section Entry.
Variable L : @law R Ctx Ev.
Hypothesis HL : lawful conf L.
Local Notation LW := (watch_law L).
Variable en : sch_entry Ev.
Hypothesis Hlive : en_live en = true.
Hypothesis Hkeep : forall i, canc L i -> is_key_of i (en_event en) = false.
Hypothesis Hpos : position_ok (kc_pos conf).

Definition inside s : Prop := In en (sc_scheduled s) /\ (length (sc_scheduled s) <= MAX_SCHEDULED_EVENTS)%nat.
Lemma inside_kept : sched_kept W LW inside.
Proof.
  split.
  - intros s se s' [H1 H2] _ H. split; [eapply event_in; eauto|].
    apply sched_event_in_ok in H as (_ & [(_ & -> & _)|(d & _ & _ & H)]); [exact H2|].
    apply sched_after_ok in H as (_ & _ & -> & Hl & _). rewrite (Permutation_length (insert_at_perm _ _ _)). cbn.
    unfold lt in Hl. exact Hl.
  - intros s t H. exact H.
  - intros s i Hc [H1 H2]. split; [now apply cancel_in; auto|]. cbn. now rewrite map_length.
Qed.
Lemma past_kept (b : nat) : sched_kept W LW (past en b).
Proof.
  split.
  - intros s se s' H _ He. eapply event_past; eauto.
  - intros s t H. exact H.
  - intros s i Hc H. apply cancel_past; auto.
Qed.

Lemma tick_pops fuel k2 s k3 k : seen k2 = seen k -> 
  sc_pending s = [if en_live en then Some (en_event en) else None] ->
  exec W fuel JHandlePending (set_sched k2 s) = Ok k3 -> extends k k3 (In (en_event en)).
Proof.
  intros E0 Hp H. rewrite Hlive in Hp. apply (exec_handles _ _ _ (en_event en) []) in H; [|exact Hp].
  destruct H as (l & E1 & Hi). exists l. split; [rewrite E1, <- E0; reflexivity|exact Hi].
Qed.

Definition no_time (o : op) : bool := match o with OpTick => false | _ => true end.
Lemma op_other (S : scheduler Ev -> Prop) fuel o k k' : sched_kept W LW S -> simple_op o = true -> no_time o = true ->
  base LW S k -> drained k -> run_op W fuel k o = Ok k' -> base LW S k' /\ drained k'.
Proof.
  intros HS Ho Hn Hb Hd H. destruct o as [ev| |dd ev| | | |ms|c f]; try discriminate; cbn [run_op] in H.
  - split; [|eapply handle_input_drained; eauto].
    apply (handle_input_ok W LW (watch_lawful _ HL) S HS) in H; [exact (proj1 H)|exact Hb].
  - inv_bind H. destruct a as [k2 t]. inv_ok H. unfold km_report_output in E0. inv_bind E0. inv_ok E0.
    split; [exact Hb|exact Hd].
  - inv_ok H. split; [exact Hb|exact Hd].
  - unfold km_set_callback in H. inv_bind H. inv_ok H. split; [exact Hb|exact Hd].
Qed.

Lemma op_inside fuel o k k' : simple_op o = true -> base LW inside k -> drained k -> run_op W fuel k o = Ok k' ->
  extends k k' (In (en_event en)) \/ (base LW inside k' /\ drained k').
Proof.
  intros Ho Hb Hd H. destruct (no_time o) eqn:En.
  - right. eapply op_other; eauto. apply inside_kept.
  - destruct o; try discriminate. cbn [run_op] in H. pose proof (tick_drained _ _ _ _ Hd H) as Hd'.
    destruct (tick_ok W LW (watch_lawful _ HL) inside inside_kept fuel k k' Hb Hd H)
      as (k2 & s & k3 & O2 & D2 & D3 & C2 & Hs & H3 & -> & Hok & Hf).
    pose proof (proj2 (proj1 (proj2 (proj1 O2)))) as [Hi Hl]. destruct (tick_in en _ _ _ Hi Hs) as [Hi'|Hp].
    + right. split; [|exact Hd']. apply Hok. split; [exact Hi'|].
      apply sched_tick_ok in Hs as (_ & [(_ & -> & _)|(e2 & Es & _)]); [exact Hl|].
      rewrite Es, app_length in Hl. cbn in Hl. lia.
    + left. unfold drained in D2. rewrite D2 in Hp. eapply extends_right; [exact (first_extends _ _ _ Hf)|].
      apply (tick_pops fuel k2 s k3 k2 eq_refl) in H3; [exact H3|exact Hp].
Qed.
Lemma op_past fuel o k k' (b : nat) : simple_op o = true -> base LW (past en b) k -> drained k -> run_op W fuel k o = Ok k' ->
  extends k k' (In (en_event en))
  \/ (exists b' : nat, (b' + (if no_time o then 0 else 1) <= b)%nat /\ base LW (past en b') k' /\ drained k').
Proof.
  intros Ho Hb Hd H. destruct (no_time o) eqn:En.
  - right. exists b. split; [lia|]. eapply op_other; eauto. apply past_kept.
  - destruct o; try discriminate. cbn [run_op] in H. pose proof (tick_drained _ _ _ _ Hd H) as Hd'.
    destruct (tick_ok W LW (watch_lawful _ HL) _ (past_kept b) fuel k k' Hb Hd H)
      as (k2 & s & k3 & O2 & D2 & D3 & C2 & Hs & H3 & -> & _ & Hf).
    pose proof (proj2 (proj1 (proj2 (proj1 O2)))) as Hi. destruct (tick_past en _ _ _ _ Hi Hs) as [(b' & Eb & Hi')|Hp].
    + right. exists b'. split; [lia|]. split; [|exact Hd'].
      assert (Hb2 : base LW (past en b') (set_sched k2 s)).
      { destruct (proj1 O2) as [U [[Ev2 _] C3]]. split; [exact U|]. split; [|exact C3]. split; [|exact Hi']. eapply sched_tick_events; eauto. }
      apply (exec_ok W LW (watch_lawful _ HL) _ (past_kept b')) in H3; [exact (proj1 H3)|exact Hb2|exact I].
    + left. unfold drained in D2. rewrite D2 in Hp. eapply extends_right; [exact (first_extends _ _ _ Hf)|].
      apply (tick_pops fuel k2 s k3 k2 eq_refl) in H3; [exact H3|exact Hp].
Qed.
Lemma run_inside fuel ops : Forall (fun o => simple_op o = true) ops -> forall k k',
  base LW inside k -> drained k -> run_ops W fuel ops k = Ok k' ->
  extends k k' (In (en_event en)) \/ (base LW inside k' /\ drained k').
Proof.
  induction 1 as [|o ops Ho Hos IH]; intros k k' Hb Hd H; cbn in H; [inv_ok H; auto|].
  inv_bind H. pose proof (op_extends _ _ _ _ Ho E0) as Hx. apply op_inside in E0 as [E0|[Hb' Hd']]; auto.
  - left. eapply extends_left; [exact E0|]. eapply run_extends; eauto.
  - destruct (IH _ _ Hb' Hd' H) as [H1|H1]; [left|now right]. eapply extends_right; eauto.
Qed.
Definition ticks_in (ops : list op) : nat := length (filter (fun o => negb (no_time o)) ops).
Lemma run_past fuel ops : Forall (fun o => simple_op o = true) ops -> forall k k' (b : nat),
  base LW (past en b) k -> drained k -> run_ops W fuel ops k = Ok k' ->
  extends k k' (In (en_event en)) \/ (ticks_in ops <= b)%nat.
Proof.
  induction 1 as [|o ops Ho Hos IH]; intros k k' b Hb Hd H; cbn in H; [right; cbn; lia|].
  inv_bind H. pose proof (op_extends _ _ _ _ Ho E0) as Hx. eapply op_past in E0 as [E0|(b' & Hle & Hb' & Hd')]; eauto.
  - left. eapply extends_left; [exact E0|]. eapply run_extends; eauto.
  - destruct (IH _ _ _ Hb' Hd' H) as [H1|H1].
    + left. eapply extends_right; eauto.
    + right. unfold ticks_in in *. cbn. destruct (no_time o); cbn in *; lia.
Qed.
Lemma handled fuel ops1 ops2 k k1 k2 :
  Forall (fun o => simple_op o = true) ops1 -> Forall (fun o => simple_op o = true) ops2 ->
  base LW inside k -> drained k -> sorted_sched (km_sched k) ->
  run_ops W fuel ops1 k = Ok k1 -> en_time en < sc_counter (km_sched k1) ->
  run_ops W fuel ops2 k1 = Ok k2 -> (MAX_SCHEDULED_EVENTS <= ticks_in ops2)%nat ->
  extends k k2 (In (en_event en)).
Proof.
  intros F1 F2 Hb Hd Hs H1 Ht H2 Hn. pose proof (run_extends _ _ F1 _ _ H1) as X1. pose proof (run_extends _ _ F2 _ _ H2) as X2.
  pose proof (run_ops_sorted W _ _ _ _ Hpos Hs H1) as Hs1.
  destruct (run_inside _ _ F1 _ _ Hb Hd H1) as [X|[Hb1 Hd1]]; [eapply extends_left; eauto|].
  destruct Hb1 as [U [[Ev1 [Hi Hl]] C1]]. apply in_split in Hi as (pre & post & Es).
  assert (Hp : base LW (past en (length post)) k1).
  { split; [exact U|]. split; [|exact C1]. split; [exact Ev1|]. split; [exact Hs1|]. split; [exact Ht|]. exists pre, post. auto. }
  destruct (run_past _ _ F2 _ _ _ Hp Hd1 H2) as [X|X]; [eapply extends_right; eauto|].
  exfalso. rewrite Es, app_length in Hl. cbn in Hl, Hn. unfold MAX_SCHEDULED_EVENTS in *. lia.
Qed.
End Entry.
End Watched.
