(** A ledger of one virtual key: how many times it is pressed, how many of its
    releases still wait in a queue, and what the context and the pending events
    say about it.  Given local conditions on a key system, the books balance in
    every state between two calls. *)
From Verif Require Import BaseFacts Output Types Scheduler Keymap SpecScheduler SchedulerFacts SpecKeymap KeymapFacts KeymapInv KeymapHist KeymapQueue KeymapStuck KeymapHeld KeymapSafe KeymapSwitch KeymapSafeCalls ReporterFacts.
Local Open Scope N_scope.

Section Ledger.
Context {R Ctx Ev PKS KS : Type}.
Variable conf : kconf R Ctx Ev PKS KS.
Local Notation km := (keymap R Ctx Ev PKS KS).
Local Notation sys := (kc_sys conf).
Local Notation pos := (kc_pos conf).
Local Notation job := (job R Ev KS).
Implicit Types (k : km) (p : pending_state R Ev PKS).
Variable F : @parts R Ctx Ev PKS KS.
Hypothesis HF : safe_parts conf F.
Hypothesis Hemits : emits_only sys not_physical.
Variable ko : key_output.

(** [mark e]: the key's event [e] matters; [bal b c v w h q]: the books balance when
    the context is [c], the virtual key is pressed [v] times, [w] of its releases
    wait in queues, [h] are being handled and the events that matter among those
    about to be handled are [q]; [b]: also while a key is undecided.  [room]: what is
    assumed of the context when a key is released. *)
Record ledger := mkLedger {
  mark : Ev -> bool;
  bal : bool -> Ctx -> nat -> nat -> nat -> list (event Ev) -> Prop;
  room : Ctx -> Prop }.
Variable L : ledger.

Definition matters (ev : event Ev) : bool :=
  match ev with
  | EvInput (VirtualKeyPress x) | EvInput (VirtualKeyRelease x) => ko_eqb x ko
  | EvInput _ => false
  | EvKeymap (KmResolvedKeyOutput _ _) => true
  | EvKeymap _ => false
  | EvKey _ e => mark L e
  end.
Definition matter (kes : key_events Ev) : list (event Ev) := filter matters (map se_event kes).
Definition prompt (kes : key_events Ev) : Prop :=
  Forall (fun se => matters (se_event se) = true -> se_schedule se = Immediate) kes.
Definition is_input (ev : event Ev) : bool := match ev with EvInput _ => true | _ => false end.

Record ledgers : Prop := {
  lg_weak : forall c v w h q, bal L true c v w h q -> bal L false c v w h q;
  lg_calm : forall c v w, bal L false c v w 0 [] -> bal L true c v w 0 [];
  lg_true : forall c v w h q, bal L true c v w h q -> Forall (fun e => e = EvInput (VirtualKeyRelease ko)) q;
  lg_press : forall i c r x kes, sf_ctx F c -> may_be F i r -> sys_new_pressed_key sys i c r = Ok (x, kes) ->
    prompt kes /\ match x with
    | PkResolved ks => forall v w h q, bal L true c v w h q ->
        bal L false c v w h (q ++ matter kes)
        /\ forall o, sys_key_output sys r ks = Ok (Some o) ->
            bal L false c v w h (EvKeymap (KmResolvedKeyOutput i o) :: q ++ matter kes)
    | PkNewPressedKey NpkNoOp => forall v w h q, bal L true c v w h q -> bal L false c v w h (q ++ matter kes)
    | _ => matter kes = []
    end;
  lg_pending : forall i c r ps ev x kes, sf_ctx F c -> sf_ev F ev -> may_be F i r -> waits_as F i r ps ->
    sys_update_pending_state sys ps i c r ev = Ok (x, kes) -> prompt kes /\ matter kes = [];
  lg_state : forall i c r ks ev ks' kes, sf_ctx F c -> sf_ev F ev -> may_be F i r -> down_as F i r ks ->
    sys_update_state sys ks r c i ev = Ok (ks', kes) ->
    prompt kes /\ (matter kes = [] \/ ev = EvInput (Release i)
                   /\ forall v w h q, room L c -> bal L true c v w h q -> bal L false c v w h (q ++ matter kes));
  lg_ctx : forall c ev c' kes, sf_ctx F c -> sf_ev F ev -> sys_ctx_handle_event sys c ev = Ok (c', kes) ->
    prompt kes /\ forall b v w h q,
      (matters ev = false \/ is_input ev = true -> bal L b c v w h q -> bal L b c' v w h (q ++ matter kes))
      /\ (matters ev = true -> is_input ev = false -> bal L false c v w h (ev :: q) -> bal L false c' v w h (q ++ matter kes));
  lg_resolved : forall c v w h i x, bal L false c v w h [] -> bal L false c v w h [EvKeymap (KmResolvedKeyOutput i x)];
  lg_vkp : forall c v w h q, bal L false c v w h (EvInput (VirtualKeyPress ko) :: q) -> bal L false c (S v) w h q;
  lg_hand : forall b c v w h q, bal L b c v w h (EvInput (VirtualKeyRelease ko) :: q) -> bal L b c v w (S h) q;
  lg_vkr : forall b c v w h q, bal L b c v w (S h) q -> bal L b c (pred v) w h q;
  lg_wait : forall c v w h q, bal L true c v w (S h) q -> bal L true c v (S w) h q;
  lg_take : forall c v w h q, bal L true c v (S w) h q -> bal L true c v w (S h) q;
  lg_set : forall b c t i v w h q, bal L b c v w h q -> bal L b (sys_ctx_set_keymap_context sys c t i) v w h q;
  lg_room : forall c t i, room L c -> room L (sys_ctx_set_keymap_context sys c t i) }.
Hypothesis HL : ledgers.

(** ** The pending events *)
Definition some_of (o : option (event Ev)) : list (event Ev) := match o with Some e => [e] | None => [] end.
Definition pq (s : scheduler Ev) : list (event Ev) := filter matters (flat_map some_of (sc_pending s)).
Definition quiet (s : scheduler Ev) : Prop := Forall (fun en => matters (en_event en) = false) (sc_scheduled s) /\ full s.

Lemma event_matter s se s' : (matters (se_event se) = true -> se_schedule se = Immediate) -> quiet s ->
  sched_event_in pos s se = Ok s' -> pq s' = pq s ++ matter [se] /\ quiet s'.
Proof.
  intros Hse [Hs Hf] H. unfold pq, quiet in *. pose proof (sched_event_in_full conf _ _ _ Hf H) as Hf'.
  apply sched_event_in_ok in H as (_ & [(_ & -> & -> & _)|(t & Et & -> & Ha)]).
  - rewrite flat_map_app, filter_app. auto.
  - assert (Hn : matters (se_event se) = false).
    { destruct (matters (se_event se)) eqn:Ea; [|reflexivity]. specialize (Hse eq_refl). congruence. }
    apply sched_after_ok in Ha as (_ & _ & Es & _). rewrite Es. unfold matter. cbn. rewrite Hn, app_nil_r.
    split; [reflexivity|]. split; [|exact Hf']. apply insert_at_Forall; [exact Hs|exact Hn].
Qed.
Lemma all_matter kes : forall s s', prompt kes -> quiet s -> sched_all pos s kes = Ok s' ->
  pq s' = pq s ++ matter kes /\ quiet s'.
Proof.
  induction kes as [|se kes IH]; intros s s' Ha Hs H; cbn in H.
  - inv_ok H. unfold matter. cbn. now rewrite app_nil_r.
  - inv_bind H. inversion Ha; subst. destruct (event_matter _ _ _ H2 Hs E) as [A1 A2].
    destruct (IH _ _ H3 A2 H) as [B1 B2]. split; [|exact B2]. rewrite B1, A1, <- app_assoc. f_equal.
    unfold matter. cbn [map]. now rewrite <- filter_app.
Qed.

(** ** What is pressed and what waits *)
Definition virt_pi (pi : pressed_input R KS) : bool := match pi with PiVirtual x => ko_eqb ko x | PiKey _ _ _ => false end.
Definition virt (pis : list (pressed_input R KS)) : nat := length (filter virt_pi pis).
Definition rel_ie (x : input_event) : bool := match x with VirtualKeyRelease y => ko_eqb y ko | _ => false end.
Definition vpress_ie (x : input_event) : bool := match x with VirtualKeyPress y => ko_eqb y ko | _ => false end.
Definition rels (q : list input_event) : nat := length (filter rel_ie q).
Definition queued k : list input_event :=
  match km_pending k with Some p => filter_map input_of_event (pd_queued p) | None => [] end.
Definition waiting k : nat := rels (km_inq k) + rels (queued k).

Arguments virt : simpl never. Arguments rels : simpl never. Arguments waiting : simpl never.
Lemma rels_app a b : rels (a ++ b) = (rels a + rels b)%nat.
Proof. unfold rels. now rewrite filter_app, app_length. Qed.
Lemma rels_rev a : rels (rev a) = rels a.
Proof.
  induction a as [|x a IH]; [reflexivity|]. cbn [rev]. rewrite rels_app, IH. unfold rels. cbn. destruct (rel_ie x); cbn; lia.
Qed.
Lemma virt_app a b : virt (a ++ b) = (virt a + virt b)%nat.
Proof. unfold virt. now rewrite filter_app, app_length. Qed.
Lemma virt_remove i pis : virt (remove_first (pi_has_index i) pis) = virt pis.
Proof.
  unfold virt. induction pis as [|[a r ks|x] pis IH]; cbn; [reflexivity| |].
  - destruct (_ =? _); cbn; [reflexivity|exact IH].
  - destruct (ko_eqb ko x); cbn; now rewrite IH.
Qed.
Lemma virt_remove_virtual x pis :
  virt (remove_first (fun pi => match pi with PiVirtual y => ko_eqb x y | PiKey _ _ _ => false end) pis)
  = if ko_eqb x ko then pred (virt pis) else virt pis.
Proof.
  unfold virt. induction pis as [|[a r ks|y] pis IH]; cbn.
  - now destruct (ko_eqb x ko).
  - exact IH.
  - destruct (ko_eqb x y) eqn:E1.
    + apply ko_eqb_eq in E1. subst y. destruct (ko_eqb x ko) eqn:E2.
      * apply ko_eqb_eq in E2. subst x. rewrite (proj2 (ko_eqb_eq ko ko) eq_refl). reflexivity.
      * destruct (ko_eqb ko x) eqn:E3; [|reflexivity]. apply ko_eqb_eq in E3. subst x.
        rewrite (proj2 (ko_eqb_eq ko ko) eq_refl) in E2. discriminate.
    + cbn. destruct (ko_eqb ko y) eqn:E3; [|exact IH]. cbn. rewrite IH.
      destruct (ko_eqb x ko) eqn:E2; [|reflexivity]. apply ko_eqb_eq in E2, E3. subst.
      rewrite (proj2 (ko_eqb_eq _ _) eq_refl) in E1. discriminate.
Qed.

Lemma update_list_other c ev pis : sf_ctx F c -> sf_ev F ev -> (forall i, is_release (Ev:=Ev) i ev = false) -> forall s pis' s',
  Forall (entry_ok F) pis -> quiet s -> update_pressed_list conf c ev pis s = Ok (pis', s') ->
  virt pis' = virt pis /\ quiet s' /\ pq s' = pq s.
Proof.
  intros Hc He Hr. induction pis as [|[i r ks|x] pis IH]; intros s pis' s' Hf Hs H; cbn [update_pressed_list] in H.
  - inv_ok H. auto.
  - inv_bind H. destruct a as [ks' kes]. inv_bind H. inv_bind H. destruct a0 as [l s2]. inv_ok H.
    inversion Hf as [|? ? HA C]; subst. destruct HA as [A B].
    destruct (lg_state HL _ _ _ _ _ _ _ Hc He A B E) as [K1 [K2|[K2 _]]].
    2: { subst ev. specialize (Hr i). cbn in Hr. rewrite N.eqb_refl in Hr. discriminate. }
    destruct (all_matter _ _ _ K1 Hs E0) as [M1 M2]. rewrite K2, app_nil_r in M1.
    apply IH in E1 as (I1 & I2 & I3); [|exact C|exact M2]. split; [|split; [exact I2|congruence]].
    unfold virt in *. cbn. exact I1.
  - inv_bind H. destruct a as [l s2]. inv_ok H. inversion Hf; subst.
    apply IH in E as (I1 & I2 & I3); [|assumption|exact Hs]. split; [|split; assumption].
    unfold virt in *. cbn. destruct (ko_eqb ko x); cbn; congruence.
Qed.
(** A release: at most one key emits anything that matters. *)
Lemma update_list_release c j pis : sf_ctx F c -> sf_ev F (EvInput (Release j)) -> room L c -> forall s pis' s',
  NoDup (pressed_indices pis) -> Forall (entry_ok F) pis -> quiet s ->
  update_pressed_list conf c (EvInput (Release j)) pis s = Ok (pis', s') ->
  virt pis' = virt pis /\ quiet s'
  /\ exists l, pq s' = pq s ++ l /\ (~ In j (pressed_indices pis) -> l = [])
     /\ forall v w h q, bal L true c v w h q -> bal L false c v w h (q ++ l).
Proof.
  intros Hc He Hr. induction pis as [|[i r ks|x] pis IH]; intros s pis' s' Hd Hf Hs H; cbn [update_pressed_list] in H.
  - inv_ok H. split; [reflexivity|]. split; [exact Hs|]. exists []. rewrite app_nil_r. split; [reflexivity|].
    split; [reflexivity|]. intros v w h q. rewrite app_nil_r. apply (lg_weak HL).
  - inv_bind H. destruct a as [ks' kes]. inv_bind H. inv_bind H. destruct a0 as [l s2]. inv_ok H.
    inversion Hf as [|? ? HA C]; subst. destruct HA as [A B]. cbn [pressed_indices filter_map] in Hd.
    change (NoDup (i :: pressed_indices pis)) in Hd. inversion Hd as [|? ? Hni Hd']; subst.
    destruct (lg_state HL _ _ _ _ _ _ _ Hc He A B E) as [K1 K2].
    destruct (all_matter _ _ _ K1 Hs E0) as [M1 M2].
    apply IH in E1 as (I1 & I2 & l0 & I3 & I4 & I5); [|exact Hd'|exact C|exact M2].
    split; [unfold virt in *; cbn; exact I1|]. split; [exact I2|].
    change (pressed_indices (PiKey i r ks :: pis)) with (i :: pressed_indices pis).
    destruct K2 as [K2|[K2 K3]].
    + exists l0. rewrite K2, app_nil_r in M1. split; [congruence|]. split; [|exact I5].
      intros Hn. apply I4. intros Hin. apply Hn. now right.
    + injection K2 as ->. rewrite (I4 Hni) in *. exists (matter kes). rewrite I3, M1, app_nil_r. split; [reflexivity|].
      split; [intros Hn; destruct Hn; now left|]. intros v w h q. now apply K3.
  - inv_bind H. destruct a as [l s2]. inv_ok H. inversion Hf; subst.
    apply IH in E as (I1 & I2 & I3); [|exact Hd|assumption|exact Hs]. split; [|split; assumption].
    unfold virt in *. cbn. destruct (ko_eqb ko x); cbn; congruence.
Qed.

(** ** The invariant *)
Definition lbase k : Prop :=
  quiet (km_sched k) /\ Forall (fun x => vpress_ie x = false) (km_inq k) /\ Forall (fun x => vpress_ie x = false) (queued k).
Definition phase k : bool := match km_pending k with Some _ => true | None => false end.
Definition books (b : bool) (v h : nat) k (q : list (event Ev)) : Prop :=
  bal L b (km_ctx k) (virt (km_pressed k) + v) (waiting k) h (q ++ pq (km_sched k)).
Definition good (h : nat) k : Prop := lbase k /\ books (phase k) 0 h k [].
Definition pre (h : nat) (j : job) k : Prop :=
  match j with
  | JHandleEvent ev =>
      lbase k
      /\ if matters ev
         then match ev with
              | EvInput (VirtualKeyPress _) => km_pending k = None /\ books false 1 h k []
              | EvInput _ => books (phase k) 0 (S h) k []
              | _ => km_pending k = None /\ books false 0 h k [ev]
              end
         else books (phase k) 0 h k []
  | JResolve _ => lbase k /\ books false 0 h k []
  | JPressLoop _ _ => lbase k /\ km_pending k = None /\ books true 0 h k []
  | JProcessInput x =>
      lbase k
      /\ match x with
         | Press _ => books true 0 h k []
         | Release _ => books true 0 h k [] /\ room L (km_ctx k)
         | VirtualKeyPress y => if ko_eqb y ko then km_pending k = None /\ books false 1 h k [] else books (phase k) 0 h k []
         | VirtualKeyRelease y => books (phase k) 0 (if ko_eqb y ko then S h else h) k []
         end
  | JUpdatePending _ => km_pending k <> None -> good h k
  | JPendingLoop _ | JHandlePending => good h k
  end.
Definition post (h : nat) (j : job) k k' : Prop :=
  match j with
  | JUpdatePending _ => (km_pending k = None -> k' = k) /\ (km_pending k <> None -> good h k')
  | JHandlePending => good h k' /\ (km_pending k = None -> km_pending k' = None) /\ sc_pending (km_sched k') = []
  | JHandleEvent _ => good h k' /\ (km_pending k = None -> km_pending k' = None)
  | JProcessInput x => good h k' /\ (physical x = false -> km_pending k = None -> km_pending k' = None)
  | _ => good h k'
  end.
Definition allpost (j : job) k k' : Prop := forall h, pre h j k -> post h j k k'.

Lemma same_waiting a b : km_inq b = km_inq a -> km_pending b = km_pending a -> waiting b = waiting a.
Proof. unfold waiting, queued. now intros -> ->. Qed.
Lemma same_lbase a b : km_inq b = km_inq a -> km_pending b = km_pending a -> quiet (km_sched b) -> lbase a -> lbase b.
Proof. unfold lbase, queued. intros -> -> H (_ & A & B). auto. Qed.
Lemma same_good h a b : good h a -> km_ctx b = km_ctx a -> km_sched b = km_sched a -> km_pressed b = km_pressed a ->
  km_pending b = km_pending a -> km_inq b = km_inq a -> good h b.
Proof.
  intros [A B] E1 E2 E3 E4 E5. split.
  - eapply same_lbase; eauto. rewrite E2. apply A.
  - unfold books, phase in *. rewrite E1, E2, E3, E4. now rewrite (same_waiting a b).
Qed.

(** The two notifications that precede the handling of an event, other than the
    release of a key. *)
Lemma notify_other a ev b c : lbase a -> base_ok F a -> sf_ev F ev -> (forall i, is_release (Ev:=Ev) i ev = false) ->
  update_pressed conf a ev = Ok b -> update_context conf b ev = Ok c ->
  lbase c /\ km_pending c = km_pending a
  /\ (forall bb v h, matters ev = false \/ is_input ev = true -> books bb v h a [] -> books bb v h c [])
  /\ (forall v h, matters ev = true -> is_input ev = false -> books false v h a [ev] -> books false v h c []).
Proof.
  intros HA HO He Hr H1 H2. destruct (update_pressed_safe conf F HF _ _ _ HO He H1) as [HO' _].
  apply update_pressed_ok in H1 as (pis & s & -> & H1).
  apply update_list_other in H1 as (B1 & B2 & B3); [|apply HO|exact He|exact Hr|apply HO|apply HA].
  apply update_context_ok in H2 as (x & kes & s2 & -> & Hc & Hs). cbn in Hc, Hs.
  destruct (lg_ctx HL _ _ _ _ (proj1 HO) He Hc) as [K1 K2].
  destruct (all_matter _ _ _ K1 B2 Hs) as [M1 M2].
  split; [apply (same_lbase a); [reflexivity|reflexivity|exact M2|exact HA]|]. split; [reflexivity|].
  unfold books. cbn [set_sched set_pressed set_ctx km_ctx km_pressed km_sched]. rewrite M1, B3, B1.
  match goal with |- context [waiting (set_sched ?z ?y)] => change (waiting (set_sched z y)) with (waiting a) end. cbn [app]. split.
  - intros bb v h Hm Hb. exact (proj1 (K2 bb _ _ _ _) Hm Hb).
  - intros v h Hm Hi Hb. exact (proj2 (K2 true _ _ _ _) Hm Hi Hb).
Qed.
Lemma notify_release a i b c : lbase a -> base_ok F a -> sf_ev F (EvInput (Release i)) -> room L (km_ctx a) ->
  NoDup (pressed_indices (km_pressed a)) ->
  update_pressed conf a (EvInput (Release i)) = Ok b -> update_context conf b (EvInput (Release i)) = Ok c ->
  lbase c /\ km_pending c = km_pending a /\ (forall v h, books true v h a [] -> books false v h c []).
Proof.
  intros HA HO He Hr Hd H1 H2.
  apply update_pressed_ok in H1 as (pis & s & -> & H1).
  apply update_list_release in H1 as (B1 & B2 & l & B3 & _ & B4); [|apply HO|exact He|exact Hr|exact Hd|apply HO|apply HA].
  apply update_context_ok in H2 as (x & kes & s2 & -> & Hc & Hs). cbn in Hc, Hs.
  destruct (lg_ctx HL _ _ _ _ (proj1 HO) He Hc) as [K1 K2].
  destruct (all_matter _ _ _ K1 B2 Hs) as [M1 M2].
  split; [apply (same_lbase a); [reflexivity|reflexivity|exact M2|exact HA]|]. split; [reflexivity|].
  unfold books. cbn [set_sched set_pressed set_ctx km_ctx km_pressed km_sched]. rewrite M1, B3, B1.
  match goal with |- context [waiting (set_sched ?z ?y)] => change (waiting (set_sched z y)) with (waiting a) end. cbn [app].
  intros v h Hb. apply (proj1 (K2 false _ _ _ _)); [left; reflexivity|]. now apply B4.
Qed.
Lemma schedule_books a kes b : lbase a -> prompt kes -> schedule_all conf a kes = Ok b ->
  lbase b /\ km_ctx b = km_ctx a /\ km_pressed b = km_pressed a /\ km_pending b = km_pending a /\ km_inq b = km_inq a
  /\ pq (km_sched b) = pq (km_sched a) ++ matter kes.
Proof.
  intros HA Hp H. apply schedule_all_ok in H as (s & Hs & ->).
  destruct (all_matter _ _ _ Hp (proj1 HA) Hs) as [M1 M2]. cbn.
  split; [apply (same_lbase a); [reflexivity|reflexivity|exact M2|exact HA]|auto].
Qed.

Lemma filter_split {A} (f : A -> bool) (g : A -> bool) (l : list A) :
  length (filter f l) = (length (filter f (filter g l)) + length (filter f (filter (fun x => negb (g x)) l)))%nat.
Proof.
  induction l as [|x l IH]; cbn; [reflexivity|]. destruct (g x); cbn; destruct (f x); cbn; lia.
Qed.
Lemma filter_map_rev {A B} (f : A -> option B) l : filter_map f (rev l) = rev (filter_map f l).
Proof. induction l as [|x l IH]; cbn; [reflexivity|]. rewrite filter_map_app, IH. cbn. destruct (f x); cbn; [reflexivity|now rewrite app_nil_r]. Qed.

Lemma rels_own i (l : list (event Ev)) : rels (filter_map input_of_event (filter (is_own_event i) l)) = 0%nat.
Proof.
  unfold rels. induction l as [|e l IH]; cbn; [reflexivity|]. destruct e as [[j|j|x|x]|j e|m]; cbn; try exact IH;
    destruct (_ =? _); cbn; exact IH.
Qed.
Lemma rels_queue i (l : list (event Ev)) :
  rels (filter_map input_of_event (filter (fun ev => negb (is_own_event i ev)) l)) = rels (filter_map input_of_event l).
Proof.
  unfold rels. induction l as [|e l IH]; cbn; [reflexivity|]. destruct e as [[j|j|x|x]|j e|m]; cbn; try exact IH.
  - destruct (_ =? _); cbn; exact IH.
  - destruct (_ =? _); cbn; exact IH.
  - destruct (ko_eqb x ko); cbn; congruence.
  - destruct (_ =? _); cbn; exact IH.
Qed.
Lemma rels_last i (l : list (event Ev)) : rels (filter_map input_of_event (last_list (filter (is_own_event i) l))) = 0%nat.
Proof.
  unfold last_list. destruct (last_opt _) as [y|] eqn:El; [|reflexivity]. apply last_opt_spec in El.
  pose proof (rels_own i l) as H. rewrite El, filter_map_app, rels_app in H. lia.
Qed.

Lemma exec_ledger fuel j k k' : pie not_physical j k -> p15 j k -> pre_ok conf F j k -> exec conf fuel j k = Ok k' ->
  allpost j k k'.
Proof.
  intros HE H15 HO H. revert HE H15 HO H. intros HE H15 HO.
  apply (exec_contract_safe conf F HF not_physical (fun _ _ => True) allpost Hemits (fun _ _ => I)); auto.
  clear fuel j k k' HE H15 HO. intros j k k' [[He Hq] Hj] [H15 HP15] [HB HP] _ H h HJ.
  set (rec := fun (j : job) (a b : km) => (all_ok F b /\ ie not_physical b) /\ (True -> allpost j a b)) in H.
  assert (Hemit : forall i r ks a b, good h a -> km_pending a = None ->
    (forall x, sys_key_output sys r ks = Ok (Some x) -> books false 0 h a [EvKeymap (KmResolvedKeyOutput i x)]) ->
    emit_rel conf rec i r ks a b -> good h b).
  { intros i r ks a b Ha Hn Hx (o & Eo & Ho). destruct o as [x|]; [|subst; exact Ha]. destruct Ho as [_ Ho].
    specialize (Ho I h). cbn in Ho. apply Ho. destruct Ha as [A1 A2]. split; [exact A1|]. split; [exact Hn|].
    now apply Hx. }
  assert (Hpushk : forall a i r ks, good h a -> good h (set_pressed a (km_pressed a ++ [PiKey i r ks]))).
  { intros a i r ks [A1 A2]. split; [exact A1|]. unfold books in *. cbn [set_pressed km_ctx km_pressed km_sched].
    rewrite virt_app. change (virt [PiKey i r ks]) with 0%nat. rewrite (Nat.add_0_r (virt (km_pressed a))). exact A2. }
  assert (Hset : forall (a : km) p ps r kes b, km_pending a = Some p -> lbase a -> books (phase a) 0 h a [] -> prompt kes -> matter kes = [] ->
    schedule_all conf (set_pending a (Some (mkPending (pd_index p) r ps (pd_queued p)))) kes = Ok b ->
    good h b /\ km_pending b = Some (mkPending (pd_index p) r ps (pd_queued p))).
  { intros a p ps r kes b Hp A1 A2 K1 K2 Hs.
    assert (A1' : lbase (set_pending a (Some (mkPending (pd_index p) r ps (pd_queued p))))).
    { destruct A1 as (D1 & D2 & D3). split; [exact D1|]. split; [exact D2|]. unfold queued in *. cbn. rewrite Hp in D3. exact D3. }
    destruct (schedule_books _ _ _ A1' K1 Hs) as (C1 & C2 & C3 & C4 & C5 & C6). rewrite K2, app_nil_r in C6. cbn in C2, C3, C4, C5, C6.
    split; [|exact C4]. split; [exact C1|]. unfold books, phase in *. rewrite C2, C3, C4, C6. rewrite Hp in A2.
    replace (waiting b) with (waiting a); [exact A2|]. unfold waiting, queued. now rewrite C4, C5, Hp. }
  assert (Hres : forall (a : km) p ps r kes b, km_pending a = Some p -> lbase a -> books (phase a) 0 h a [] -> prompt kes ->
    (forall v w h q, bal L true (km_ctx a) v w h q -> bal L false (km_ctx a) v w h (q ++ matter kes)) ->
    schedule_all conf (set_pending a (Some (mkPending (pd_index p) r ps (pd_queued p)))) kes = Ok b ->
    lbase b /\ books false 0 h b []).
  { intros a p ps r kes b Hp A1 A2 K1 K2 Hs.
    assert (A1' : lbase (set_pending a (Some (mkPending (pd_index p) r ps (pd_queued p))))).
    { destruct A1 as (D1 & D2 & D3). split; [exact D1|]. split; [exact D2|]. unfold queued in *. cbn. rewrite Hp in D3. exact D3. }
    destruct (schedule_books _ _ _ A1' K1 Hs) as (C1 & C2 & C3 & C4 & C5 & C6). cbn in C2, C3, C4, C5, C6.
    split; [exact C1|]. unfold books, phase in *. rewrite C2, C3, C6. rewrite Hp in A2.
    replace (waiting b) with (waiting a); [now apply K2|]. unfold waiting, queued. now rewrite C4, C5, Hp. }
  destruct H.
  - (* SrHpEmpty *) cbn in HJ |- *. auto.
  - (* SrHpNone *) destruct HJ as [((_ & A1) & _) _]. unfold full in A1. rewrite H in A1. inversion A1. congruence.
  - (* SrHpSome *) destruct H0 as [_ H0]. destruct H1 as [_ H1]. specialize (H0 I h). specialize (H1 I h).
    cbn [post pre] in *.
    match type of H0 with ?p -> _ => assert (X : p) end.
    { destruct HJ as [((A0 & A1) & A1') A2]. split.
      { split; [|exact A1']. split; [exact A0|]. unfold full in *. rewrite H in A1. now inversion A1. }
      unfold books, pq in *. cbn in *. rewrite H in A2. cbn in A2.
      destruct (matters ev) eqn:Em; [|exact A2].
      assert (Hn : ev <> EvInput (VirtualKeyRelease ko) -> km_pending k = None).
      { intros Hne. unfold phase in A2. destruct (km_pending k); [|reflexivity].
        apply (lg_true HL) in A2. inversion A2; contradiction. }
      assert (HA : km_pending k = None -> bal L false (km_ctx k) (virt (km_pressed k) + 0) (waiting k) h
                     (ev :: filter matters (flat_map some_of t))) by (intros Hn'; unfold phase in A2; rewrite Hn' in A2; exact A2).
      destruct ev as [[i|i|x|x]|i e|m].
      - discriminate.
      - discriminate.
      - apply ko_eqb_eq in Em. subst x. specialize (Hn ltac:(discriminate)). split; [exact Hn|].
        rewrite Nat.add_1_r. apply (lg_vkp HL). rewrite <- (Nat.add_0_r (virt (km_pressed k))). exact (HA Hn).
      - apply ko_eqb_eq in Em. subst x. apply (lg_hand HL). exact A2.
      - specialize (Hn ltac:(discriminate)). split; [exact Hn|]. exact (HA Hn).
      - specialize (Hn ltac:(discriminate)). split; [exact Hn|]. exact (HA Hn). }
    destruct (H0 X) as [G1 G2]. destruct (H1 G1) as (G3 & G4 & G5). split; [exact G3|]. split; [|exact G5]. intros Hn. apply G4, G2, Hn.
  - (* SrEvent *) destruct HP as [HP Hev].
    destruct (run_callback_eq k ev) as (new & Er & _). rewrite Er in H. destruct H as [[[HO1 _] _] H].
    assert (Hrel : forall i, is_release i ev = false) by (intros i; now apply not_physical_release).
    destruct HJ as [A1 A2]. assert (A1' : lbase (set_calls k (km_calls k ++ new))) by exact A1.
    assert (Hgo : forall h', books (phase k) 0 h' k [] -> good h' k1 /\ (km_pending k = None -> km_pending k1 = None)).
    { intros h' Hb. specialize (H I h'). cbn [post pre] in H.
      assert (G : good h' (set_calls k (km_calls k ++ new))) by (split; [exact A1|exact Hb]).
      destruct (H (fun _ => G)) as [K1 K2]. cbn in K1, K2. destruct (km_pending k) eqn:Hp.
      - split; [apply K2; discriminate|discriminate].
      - rewrite (K1 eq_refl). split; [exact G|]. intros _. exact Hp. }
    assert (Hsame : km_pending k = None -> k1 = set_calls k (km_calls k ++ new)).
    { intros Hn. specialize (H I h). cbn [post pre] in H. apply H; cbn; [congruence|exact Hn]. }
    destruct (matters ev) eqn:Em.
    + destruct ev as [[i|i|x|x]|i e|m]; try discriminate.
      * (* the virtual key is pressed *) destruct A2 as [Hn A2]. pose proof (Hsame Hn) as ->.
        destruct (notify_other _ _ _ _ A1' HO1 Hev Hrel H0 H1) as (C1 & C2 & C3 & _).
        destruct H2 as [_ H2]. specialize (H2 I h). cbn [post pre] in H2. cbn [matters] in Em. rewrite Em in H2.
        cbn in C2. destruct H2 as [G1 G2].
        { split; [exact C1|]. split; [congruence|]. apply C3; [now right|exact A2]. }
        split; [exact G1|]. intros _. apply G2; [reflexivity|congruence].
      * (* the virtual key is released *) destruct (Hgo _ A2) as [[B1 B2] B3].
        destruct (notify_other _ _ _ _ B1 HO1 Hev Hrel H0 H1) as (C1 & C2 & C3 & _).
        destruct H2 as [_ H2]. specialize (H2 I h). cbn [post pre] in H2. cbn [matters] in Em. rewrite Em in H2.
        destruct H2 as [G1 G2].
        { split; [exact C1|]. unfold phase. rewrite C2. apply C3; [now right|exact B2]. }
        split; [exact G1|]. intros Hn. apply G2; [reflexivity|]. rewrite C2. auto.
      * destruct A2 as [Hn A2]. pose proof (Hsame Hn) as ->. subst k'.
        destruct (notify_other _ _ _ _ A1' HO1 Hev Hrel H0 H1) as (C1 & C2 & _ & C4). cbn in C2.
        split; [|intros _; congruence]. split; [exact C1|]. unfold phase. rewrite C2, Hn. apply C4; auto.
      * destruct A2 as [Hn A2]. pose proof (Hsame Hn) as ->. subst k'.
        destruct (notify_other _ _ _ _ A1' HO1 Hev Hrel H0 H1) as (C1 & C2 & _ & C4). cbn in C2.
        split; [|intros _; congruence]. split; [exact C1|]. unfold phase. rewrite C2, Hn. apply C4; auto.
    + destruct (Hgo _ A2) as [[B1 B2] B3].
      destruct (notify_other _ _ _ _ B1 HO1 Hev Hrel H0 H1) as (C1 & C2 & C3 & _).
      assert (G : good h k3).
      { split; [exact C1|]. unfold phase. rewrite C2. apply C3; [now left|exact B2]. }
      destruct ev as [x|i e|m].
      * destruct H2 as [_ H2]. specialize (H2 I h). cbn [post pre] in H2.
        destruct x as [i|i|x|x]; try (cbn in Hj; discriminate); cbn [matters] in Em; rewrite Em in H2;
          destruct (H2 G) as [G1 G2]; (split; [exact G1|]); intros Hn; apply G2; try reflexivity; rewrite C2; auto.
      * subst k'. split; [exact G|]. intros Hn. rewrite C2. auto.
      * subst k'. split; [exact G|]. intros Hn. rewrite C2. auto.
  - (* SrInPending *) destruct H1 as [_ H1]. destruct H2 as [_ H2]. specialize (H1 I h). specialize (H2 I h). cbn [post pre] in *.
    set (ks := set_pending k (Some (with_queued p (pd_queued p ++ [EvInput ie])))) in *.
    assert (Eq : queued ks = queued k ++ [ie]) by (unfold queued; cbn; rewrite H, filter_map_app; reflexivity).
    assert (Ew : waiting ks = (waiting k + if rel_ie ie then 1 else 0)%nat).
    { unfold waiting. rewrite Eq, rels_app. cbn [ks set_pending km_inq].
      assert (rels [ie] = if rel_ie ie then 1%nat else 0%nat) by (unfold rels; cbn; now destruct (rel_ie ie)). lia. }
    assert (Hph : phase k = true) by (unfold phase; now rewrite H). rewrite Hph in HJ.
    assert (G : good h ks).
    { assert (X : vpress_ie ie = false /\ books true 0 (if rel_ie ie then S h else h) k []).
      { destruct HJ as [_ HJ]. destruct ie as [i|i|x|x]; cbn [vpress_ie rel_ie].
        - auto.
        - destruct HJ as [HJ _]. auto.
        - destruct (ko_eqb x ko); [destruct HJ; congruence|auto].
        - destruct (ko_eqb x ko); auto. }
      destruct X as [X1 X2]. destruct HJ as [(A1 & A2 & A3) _]. split.
      - split; [exact A1|]. split; [exact A2|]. rewrite Eq. apply Forall_app. split; [exact A3|]. now constructor.
      - unfold books in *. rewrite Ew. cbn [ks phase set_pending km_pending km_ctx km_pressed km_sched].
        destruct (rel_ie ie); [|rewrite (Nat.add_0_r (waiting k)); exact X2].
        rewrite (Nat.add_1_r (waiting k)). apply (lg_wait HL). exact X2. }
    destruct (H1 (fun _ => G)) as [_ H1']. destruct H2 as (G1 & _ & _); [apply H1'; discriminate|].
    split; [exact G1|]. congruence.
  - (* SrInPressHeld *) destruct H3 as [_ H3]. specialize (H3 I h). cbn [post pre] in *. destruct HJ as [A1 A2]. destruct HP as [HP Hev].
    destruct (notify_other _ _ _ _ A1 HB Hev (fun _ => eq_refl) H0 H1) as (C1 & C2 & C3 & _).
    destruct H3 as (G1 & G2 & _).
    { split; [exact C1|]. unfold phase. rewrite C2, H. apply (lg_weak HL). apply C3; [now left|exact A2]. }
    split; [exact G1|]. discriminate.
  - (* SrInPress *) destruct H4 as [_ H4]. destruct H5 as [_ H5]. specialize (H4 I h). specialize (H5 I h). cbn [post pre] in *.
    destruct HJ as [A1 A2]. destruct HP as [HP Hev].
    destruct (notify_other _ _ _ _ A1 HB Hev (fun _ => eq_refl) H0 H1) as (C1 & C2 & C3 & _).
    destruct H5 as (G1 & G2 & _).
    { apply H4. split; [exact C1|]. split; [congruence|]. apply C3; [now left|exact A2]. }
    split; [exact G1|]. discriminate.
  - (* SrInRelease *) destruct H2 as [_ H2]. specialize (H2 I h). cbn [post pre] in *. destruct HJ as (A1 & A2 & A3). destruct HP as [HP Hev].
    destruct (notify_release _ _ _ _ A1 HB Hev A3 (proj1 H15) H0 H1) as (C1 & C2 & C3).
    destruct H2 as (G1 & G2 & _).
    { split; [exact C1|]. unfold phase. cbn [set_pressed km_pending]. rewrite C2, H. specialize (C3 _ _ A2).
      unfold books in *. cbn [set_pressed km_ctx km_pressed km_sched]. rewrite virt_remove. exact C3. }
    split; [exact G1|]. discriminate.
  - (* SrInVPress *) destruct H3 as [_ H3]. specialize (H3 I h). cbn [post pre] in *. destruct HJ as (A1 & A2). destruct HP as [HP Hev].
    destruct (notify_other _ _ _ _ A1 HB Hev (fun _ => eq_refl) H0 H1) as (C1 & C2 & C3 & _).
    assert (Hph : phase k = false) by (unfold phase; now rewrite H).
    destruct H3 as (G1 & G2 & _).
    { split; [exact C1|]. unfold phase. cbn [set_pressed km_pending]. rewrite C2, H.
      assert (X : books false (if ko_eqb ko0 ko then 1 else 0) h k2 []).
      { apply C3; [now right|]. destruct (ko_eqb ko0 ko); [apply A2|]. rewrite Hph in A2. exact A2. }
      unfold books in *. cbn [set_pressed km_ctx km_pressed km_sched]. rewrite virt_app, Nat.add_0_r.
      replace (virt [PiVirtual ko0]) with (if ko_eqb ko0 ko then 1%nat else 0%nat); [exact X|].
      unfold virt. cbn. destruct (ko_eqb ko0 ko) eqn:E1, (ko_eqb ko ko0) eqn:E2; try reflexivity.
      - apply ko_eqb_eq in E1. subst ko0. rewrite (proj2 (ko_eqb_eq _ _) eq_refl) in E2. discriminate.
      - apply ko_eqb_eq in E2. subst ko0. rewrite (proj2 (ko_eqb_eq _ _) eq_refl) in E1. discriminate. }
    split; [exact G1|]. intros _ _. apply G2. cbn. congruence.
  - (* SrInVRelease *) destruct H2 as [_ H2]. specialize (H2 I h). cbn [post pre] in *. destruct HJ as (A1 & A2). destruct HP as [HP Hev].
    destruct (notify_other _ _ _ _ A1 HB Hev (fun _ => eq_refl) H0 H1) as (C1 & C2 & C3 & _).
    assert (Hph : phase k = false) by (unfold phase; now rewrite H). rewrite Hph in A2.
    destruct H2 as (G1 & G2 & _).
    { split; [exact C1|]. unfold phase. cbn [set_pressed km_pending]. rewrite C2, H.
      apply C3 in A2; [|now right].
      unfold books in *. cbn [set_pressed km_ctx km_pressed km_sched]. rewrite virt_remove_virtual. rewrite Nat.add_0_r in *.
      destruct (ko_eqb ko0 ko); [|exact A2]. apply (lg_vkr HL) in A2. exact A2. }
    split; [exact G1|]. intros _ _. apply G2. cbn. congruence.
  - (* SrPlResolved *) cbn [post pre] in *. destruct HJ as (A1 & A2 & A3). destruct HP as [HP Hm].
    destruct (lg_press HL _ _ _ _ _ (proj1 HB) Hm H) as [K1 K2].
    destruct (schedule_books _ _ _ A1 K1 H0) as (C1 & C2 & C3 & C4 & C5 & C6).
    refine (Hemit _ _ _ _ _ _ _ _ H2); [|cbn; congruence|].
    + apply Hpushk. split; [exact C1|].
      unfold books, phase in *. rewrite C2, C3, C4, C6, A2, (same_waiting k k1 C5 C4). now apply K2.
    + intros x Hx. unfold books in *. cbn [set_pressed km_ctx km_pressed km_sched]. rewrite virt_app.
      change (virt [PiKey i r ks]) with 0%nat. rewrite (Nat.add_0_r (virt (km_pressed k1))).
      change (waiting (set_pressed k1 (km_pressed k1 ++ [PiKey i r ks]))) with (waiting k1).
      rewrite C2, C3, C6, (same_waiting k k1 C5 C4). destruct (K2 _ _ _ _ A3) as [_ K3]. apply K3. exact Hx.
  - (* SrPlKey *) destruct H1 as [_ H1]. specialize (H1 I h). cbn [post pre] in *. destruct HJ as (A1 & A2 & A3). destruct HP as [HP Hm].
    destruct (lg_press HL _ _ _ _ _ (proj1 HB) Hm H) as [K1 K2].
    destruct (schedule_books _ _ _ A1 K1 H0) as (C1 & C2 & C3 & C4 & C5 & C6). rewrite K2, app_nil_r in C6.
    apply H1. split; [exact C1|]. split; [congruence|]. unfold books in *. now rewrite C2, C3, C6, (same_waiting k k1 C5 C4).
  - (* SrPlNoOp *) cbn [post pre] in *. destruct HJ as (A1 & A2 & A3). destruct HP as [HP Hm].
    destruct (lg_press HL _ _ _ _ _ (proj1 HB) Hm H) as [K1 K2].
    destruct (schedule_books _ _ _ A1 K1 H0) as (C1 & C2 & C3 & C4 & C5 & C6).
    apply Hpushk. split; [exact C1|].
    unfold books, phase in *. rewrite C2, C3, C4, C6, A2, (same_waiting k k1 C5 C4). now apply K2.
  - (* SrPlPending *) cbn [post pre] in *. destruct HJ as (A1 & A2 & A3). destruct HP as [HP Hm].
    destruct (lg_press HL _ _ _ _ _ (proj1 HB) Hm H) as [K1 K2].
    destruct (schedule_books _ _ _ A1 K1 H0) as (C1 & C2 & C3 & C4 & C5 & C6). rewrite K2, app_nil_r in C6.
    split.
    + destruct C1 as (D1 & D2 & D3). split; [exact D1|]. split; [exact D2|constructor].
    + unfold books in *. cbn [phase set_pending km_pending km_ctx km_pressed km_sched]. rewrite C2, C3, C6.
      replace (waiting (set_pending k1 (Some (mkPending i r pks [])))) with (waiting k); [exact A3|].
      unfold waiting, queued. cbn. now rewrite A2, C5.
  - (* SrUpNone *) cbn [post]. split; [reflexivity|congruence].
  - (* SrUpStay *) cbn [post pre] in *. split; [congruence|]. intros _. destruct HP as [HP Hev]. destruct (HP _ H) as [M1 M2].
    destruct (lg_pending HL _ _ _ _ _ _ _ (proj1 HB) Hev M1 M2 H0) as [K1 K2]. destruct (HJ ltac:(congruence)) as [A1 A2].
    exact (proj1 (Hset k p _ _ _ _ H A1 A2 K1 K2 H1)).
  - (* SrUpGo *) destruct H2 as [_ H2]. specialize (H2 I h). cbn [post pre] in *.
    split; [congruence|]. intros _. destruct HP as [HP Hev]. destruct (HP _ H) as [M1 M2].
    destruct (lg_pending HL _ _ _ _ _ _ _ (proj1 HB) Hev M1 M2 H0) as [K1 K2]. destruct (HJ ltac:(congruence)) as [A1 A2].
    apply H2. exact (proj1 (Hset k p _ _ _ _ H A1 A2 K1 K2 H1)).
  - (* SrLoopNone *) exact HJ.
  - (* SrLoopNoOp *) destruct H0 as [_ H0]. specialize (H0 I h). cbn [post pre] in *. destruct HJ as [A1 A2].
    apply H0. split; [exact A1|]. unfold phase in A2. rewrite H in A2. apply (lg_weak HL). exact A2.
  - (* SrLoopResolved *) destruct H2 as [_ H2]. specialize (H2 I h). cbn [post pre] in *. destruct HJ as [A1 A2].
    destruct (lg_press HL _ _ _ _ _ (proj1 HB) (HP _ H) H0) as [K1 K2].
    apply H2. exact (Hres k p _ _ _ _ H A1 A2 K1 (fun v w h q Hb => proj1 (K2 v w h q Hb)) H1).
  - (* SrLoopKey *) destruct H2 as [_ H2]. specialize (H2 I h). cbn [post pre] in *. destruct HJ as [A1 A2].
    destruct (lg_press HL _ _ _ _ _ (proj1 HB) (HP _ H) H0) as [K1 K2].
    apply H2. exact (proj1 (Hset k p _ _ _ _ H A1 A2 K1 K2 H1)).
  - (* SrLoopKeyNoOp *) destruct H2 as [_ H2]. specialize (H2 I h). cbn [post pre] in *. destruct HJ as [A1 A2].
    destruct (lg_press HL _ _ _ _ _ (proj1 HB) (HP _ H) H0) as [K1 K2].
    apply H2. exact (Hres k p _ _ _ _ H A1 A2 K1 K2 H1).
  - (* SrLoopPending *) cbn [post pre] in *. destruct HJ as [A1 A2].
    destruct (lg_press HL _ _ _ _ _ (proj1 HB) (HP _ H) H0) as [K1 K2].
    destruct (Hset k p _ _ _ _ H A1 A2 K1 K2 H1) as [[B1 B2] B3].
    unfold requeue_reversed in H2. inv_bind H2. apply push_all_cap_ok in E as [-> _], H2 as [-> _]. cbn [app].
    assert (Eq : queued k1 = filter_map input_of_event (pd_queued p)) by (unfold queued; now rewrite B3).
    rewrite filter_map_rev, <- Eq.
    destruct B1 as (D1 & D2 & D3). split.
    + split; [exact D1|]. split; [|constructor]. cbn. apply Forall_app. split; [|exact D2]. now apply Forall_rev.
    + unfold books in *. unfold phase in B2. rewrite B3 in B2. cbn [phase set_inq set_pending km_pending km_ctx km_pressed km_sched].
      replace (waiting (set_inq (set_pending k1 (Some (mkPending (pd_index p) r pks []))) (rev (queued k1) ++ km_inq k1))) with (waiting k1); [exact B2|].
      unfold waiting at 2. cbn [set_inq km_inq]. rewrite rels_app, rels_rev. unfold waiting, queued at 3. cbn. change (rels []) with 0%nat. lia.
  - (* SrResNone *) cbn [post pre] in *. destruct HJ as [A1 A2]. split; [exact A1|]. unfold phase. now rewrite H.
  - (* SrResolve *) destruct H3 as [_ H3]. specialize (H3 I h). cbn [post pre] in *. destruct HJ as [A1 A2].
    pose proof H1 as H1'. apply requeue_inputs in H1; [|now apply resolve_queue_inputs, Hq]. subst s.
    apply requeue_ok in H1' as (-> & _). apply push_all_cap_ok in H2 as [-> _]. cbn [app] in *.
    assert (Eq : queued k = filter_map input_of_event (pd_queued p)) by (unfold queued; now rewrite H).
    destruct A1 as (D1 & D2 & D3).
    match type of H3 with good h ?st -> _ => assert (G : good h st) end.
    { apply (Hpushk (set_inq (set_sched (set_pending k None) (sched_cancel (km_sched k) (pd_index p)))
               (filter_map input_of_event (filter (fun ev => negb (is_own_event (pd_index p) ev)) (pd_queued p)
                  ++ last_list (filter (is_own_event (pd_index p)) (pd_queued p))) ++ km_inq k))).
      split.
      - split; [|split; [|constructor]].
        + destruct D1 as [D1 Df]. split; [|exact Df]. cbn. apply Forall_map. eapply Forall_impl; [|exact D1]. intros en Hen.
          assert (Hy : en_event (cancel_entry (pd_index p) en) = en_event en)
            by (unfold cancel_entry; destruct (en_event en) eqn:Ee; try congruence; destruct (_ =? _); cbn; congruence).
          now rewrite Hy.
        + cbn. apply Forall_app. split; [|exact D2]. rewrite Eq in D3. rewrite Forall_forall in *. intros x Hx.
          apply D3. apply in_filter_map_input. apply in_filter_map_input in Hx.
          apply in_app_or in Hx as [Hx|Hx]; [now apply filter_In in Hx|].
          unfold last_list in Hx. destruct (last_opt _) as [y|] eqn:El; [|contradiction].
          destruct Hx as [->|[]]. apply last_opt_spec in El.
          assert (In (EvInput x) (filter (is_own_event (pd_index p)) (pd_queued p))) by (rewrite El; apply in_or_app; right; now left).
          now apply filter_In in H1.
      - unfold books in *. cbn [phase set_inq set_sched set_pending km_pending km_ctx km_pressed km_sched pq sched_cancel sc_pending].
        match goal with |- bal L _ _ _ (waiting ?a) h _ => replace (waiting a) with (waiting k); [exact A2|] end.
        unfold waiting. rewrite Eq. unfold queued at 1. cbn [set_inq set_sched set_pending km_pending km_inq].
        rewrite rels_app, filter_map_app, rels_app. change (rels []) with 0%nat.
        rewrite <- (rels_queue (pd_index p) (pd_queued p)), rels_last. lia. }
    destruct (H3 G) as (G1 & G2 & G3). specialize (G2 eq_refl).
    refine (Hemit _ _ _ _ _ G1 G2 _ H4). intros x _. destruct G1 as [_ G1]. unfold books, phase, pq in *. rewrite G2, G3 in *.
    apply (lg_resolved HL). exact G1.
Qed.

(** ** Between API calls *)
Definition rest k : Prop :=
  lbase k /\ bal L true (km_ctx k) (virt (km_pressed k)) (waiting k) 0 [] /\ drained k /\ inv15 k /\ ie not_physical k /\ all_ok F k.
Lemma drained_pq k : drained k -> pq (km_sched k) = [].
Proof. unfold drained, pq. intros ->. reflexivity. Qed.
Lemma phase_bal k c v n : bal L (phase k) c v n 0 [] -> bal L true c v n 0 [].
Proof. destruct (phase k); [auto|]. apply (lg_calm HL). Qed.
Lemma bal_phase k c v n h q : bal L true c v n h q -> bal L (phase k) c v n h q.
Proof. destruct (phase k); [auto|]. apply (lg_weak HL). Qed.
Definition other_input (x : input_event) : Prop := vpress_ie x = false /\ rel_ie x = false.

Lemma process_rest fuel x q k k' : km_inq k = x :: q -> rest k -> room L (km_ctx k) ->
  exec conf fuel (JProcessInput x) (set_inq k q) = Ok k' ->
  rest k'.
Proof.
  intros Eq (A1 & A2 & A3 & A4 & A5 & A6) Hr H.
  assert (P1 : pie not_physical (JProcessInput x) (set_inq k q)) by (split; [exact A5|exact I]).
  assert (P2 : p15 (JProcessInput x) (set_inq k q)) by (split; [exact A4|exact I]).
  assert (P3 : pre_ok conf F (JProcessInput x) (set_inq k q)).
  { destruct A6 as [(B1 & B2 & B3 & B4 & B5) B6]. rewrite Eq in B3. inversion B3; subst.
    split; [|split; assumption]. repeat split; try assumption; apply B2. }
  pose proof (exec_ledger _ _ _ _ P1 P2 P3 H 0%nat) as G.
  assert (Ew : waiting k = (waiting (set_inq k q) + if rel_ie x then 1 else 0)%nat).
  { unfold waiting, queued. cbn [set_inq km_inq km_pending]. rewrite Eq. unfold rels. cbn. destruct (rel_ie x); cbn; lia. }
  assert (G' : good 0 k').
  { apply G. clear G. destruct A1 as (B1 & B2 & B3). rewrite Eq in B2. inversion B2 as [|? ? Hx Hq]; subst.
    split; [split; [exact B1|split; assumption]|]. unfold books.
    change (pq (km_sched (set_inq k q))) with (pq (km_sched k)). change (phase (set_inq k q)) with (phase k).
    cbn [set_inq km_ctx km_pressed]. rewrite (drained_pq k A3). cbn [app]. rewrite !Nat.add_0_r. rewrite Ew in A2.
    destruct x as [i|i|x|x]; cbn [rel_ie] in A2; try rewrite Nat.add_0_r in A2.
    - exact A2.
    - split; [exact A2|exact Hr].
    - cbn in Hx. rewrite Hx. now apply bal_phase.
    - apply bal_phase. destruct (ko_eqb x ko); [|rewrite Nat.add_0_r in *; exact A2]. rewrite Nat.add_1_r in A2. now apply (lg_take HL). }
  assert (D : drained k').
  { apply exec_drained in H as (_ & H); [exact H|]. left. unfold no_hole. cbn. unfold drained in A3. rewrite A3. constructor. }
  destruct G' as [G1 G2]. split; [exact G1|]. unfold books in G2. rewrite (drained_pq k' D) in G2. rewrite !Nat.add_0_r in G2. cbn in G2.
  split; [exact (phase_bal _ _ _ _ G2)|]. split; [exact D|]. split; [eapply exec_inv15; eauto|].
  split; [eapply exec_ie; [exact Hemits|intros; exact I|exact P1|exact H]|]. eapply (exec_safe conf F HF); eauto.
Qed.
Lemma rest_same a b : rest a -> km_ctx b = km_ctx a -> km_sched b = km_sched a -> km_pressed b = km_pressed a ->
  km_pending b = km_pending a -> km_inq b = km_inq a -> rest b.
Proof.
  intros (A1 & A2 & A3 & A4 & A5 & A6) E1 E2 E3 E4 E5.
  split; [apply (same_lbase a); auto; rewrite E2; apply A1|].
  split; [rewrite E1, E3, (same_waiting a b) by assumption; exact A2|].
  unfold drained, inv15, ie, queued_ok, all_ok, base_ok, pend_ok, queue_ok in *. rewrite E1, E2, E3, E4, E5. auto 10.
Qed.
Lemma handle_input_rest fuel ev k k' : rest k -> room L (km_ctx k) -> other_input ev -> sf_ev F (EvInput ev) ->
  km_handle_input conf fuel ev k = Ok k' -> rest k'.
Proof.
  intros HR Hr [Ho1 Ho2] He H.
  assert (HR' : rest (set_inq (set_idle k 0) (km_inq k ++ [ev]))).
  { destruct HR as ((B1 & B2 & B3) & A2 & A3 & A4 & A5 & ((C1 & C2 & C3 & C4 & C5) & C6)).
    split; [split; [exact B1|split; [|exact B3]]; cbn; apply Forall_app; split; [exact B2|]; repeat constructor; exact Ho1|].
    split.
    - replace (waiting (set_inq (set_idle k 0) (km_inq k ++ [ev]))) with (waiting k); [exact A2|].
      unfold waiting, queued. cbn [set_inq set_idle km_inq km_pending]. rewrite rels_app.
      assert (X : rels [ev] = 0%nat) by (unfold rels; cbn; now rewrite Ho2). lia.
    - split; [exact A3|]. split; [exact A4|]. split; [exact A5|]. split; [|exact C6].
      split; [exact C1|]. split; [exact C2|]. split; [|split; assumption]. cbn. apply Forall_app. split; [exact C3|]. now constructor. }
  apply handle_input_cases in H as [(_ & _ & x & q & k2 & Eq & H & ->)|[(_ & _ & ->)|(_ & ->)]].
  - apply (rest_same k2); try reflexivity. eapply (process_rest fuel x q (set_inq (set_idle k 0) (km_inq k ++ [ev]))); [exact Eq|exact HR'|exact Hr|exact H].
  - exact HR'.
  - eapply rest_same; [exact HR|reflexivity..].
Qed.
Lemma tick_rest fuel k k' : rest k -> room L (km_ctx k) -> km_tick conf fuel k = Ok k' -> rest k'.
Proof.
  intros HR Hr H. pose proof (tick_drained _ _ _ _ (proj1 (proj2 (proj2 HR))) H) as Hd'.
  apply tick_cases in H as (k1 & k2 & s & k3 & H1 & E2 & Hs & H3 & _ & ->). cbv zeta in H1.
  set (k0 := set_ctx k (sys_ctx_set_keymap_context sys (km_ctx k) (sc_counter (km_sched k)) (km_idle k))) in *.
  assert (HR0 : rest k0).
  { destruct HR as (A1 & A2 & A3 & A4 & A5 & ((C1 & C2 & C3 & C4 & C5) & C6)).
    split; [exact A1|]. split; [apply (lg_set HL); exact A2|]. split; [exact A3|]. split; [exact A4|]. split; [exact A5|].
    split; [|exact C6]. split; [now apply (sf_clock conf F HF)|]. repeat split; try assumption; apply C2. }
  assert (Hr0 : room L (km_ctx k0)) by now apply (lg_room HL).
  assert (HR1 : rest k1).
  { destruct H1 as [(x & q & k1' & Eq & _ & H1 & ->)|(-> & _)]; [|exact HR0].
    apply (rest_same k1'); try reflexivity. eapply (process_rest fuel x q k0); [exact Eq|exact HR0|exact Hr0|exact H1]. }
  assert (HR2 : rest k2) by (subst k2; destruct (0 <? km_delay k1); [eapply rest_same; [exact HR1|reflexivity..]|exact HR1]).
  clear - HF HL Hemits HR2 Hs H3 Hd'.
  destruct HR2 as (A1 & A2 & A3 & A4 & A5 & ((C1 & C2 & C3 & C4 & C5) & C6)).
  assert (Hev : events_ok (sf_ev F) s) by (eapply sched_tick_events; eauto).
  assert (Y : Forall (fun en => matters (en_event en) = false) (sc_scheduled s) /\ pq s = [] /\ events_ok not_physical s /\
              (full s \/ sc_pending s = [None])).
  { destruct A5 as [[D1 D2] D3]. destruct A1 as ((A1 & A0) & _).
    apply sched_tick_ok in Hs as (_ & [(Ep & Es & _)|(en & Es & _ & Ep)]).
    - unfold pq, events_ok, full. rewrite Ep, Es. split; [exact A1|]. split; [exact (drained_pq k2 A3)|auto].
    - unfold drained in A3. rewrite Es in A1, D2. apply Forall_app in A1 as [A1 A1']. apply Forall_app in D2 as [D2 D2'].
      inversion A1' as [|? ? F1 _]. inversion D2' as [|? ? F2 _]. subst.
      split; [exact A1|]. split.
      + unfold pq. rewrite Ep, A3. cbn. destruct (en_live en); [|reflexivity]. cbn. now rewrite F1.
      + split.
        * split; [|exact D2]. rewrite Ep. apply Forall_app. split; [exact D1|].
          constructor; [destruct (en_live en); [exact F2|exact I]|constructor].
        * unfold full. rewrite Ep, A3. cbn. destruct (en_live en); [left|right; reflexivity]. constructor; [discriminate|constructor]. }
  destruct Y as (Y1 & Y2 & Y3 & [Yf|Yn]).
  2:{ destruct fuel as [|fuel]; [discriminate|]. cbn [exec step] in H3. unfold step_handle_pending, sched_dequeue in H3.
    cbn [set_sched km_sched] in H3. rewrite Yn in H3. inv_ok H3.
    split; [split; [split; [exact Y1|constructor]|exact (proj2 A1)]|]. split; [exact A2|]. split; [reflexivity|]. split; [exact A4|].
    split; [split; [split; [constructor|exact (proj2 Y3)]|exact (proj2 A5)]|].
    split; [|exact C6]. split; [exact C1|]. split; [split; [constructor|exact (proj2 Hev)]|]. split; [assumption|]. split; assumption. }
  assert (P1 : pie not_physical JHandlePending (set_sched k2 s)) by (split; [split; [exact Y3|exact (proj2 A5)]|exact I]).
  assert (P2 : p15 JHandlePending (set_sched k2 s)) by (split; [exact A4|exact I]).
  assert (P3 : pre_ok conf F JHandlePending (set_sched k2 s)).
  { split; [|exact C6]. split; [exact C1|]. split; [exact Hev|]. split; [assumption|]. split; assumption. }
  pose proof (exec_ledger _ _ _ _ P1 P2 P3 H3 0%nat) as G.
  destruct G as ((G1 & G2) & _).
  { split; [split; [split; [exact Y1|exact Yf]|exact (proj2 A1)]|]. unfold books. change (pq (km_sched (set_sched k2 s))) with (pq s). rewrite Y2.
    cbn [set_sched km_ctx km_pressed app]. rewrite !Nat.add_0_r. apply bal_phase. exact A2. }
  assert (D : drained k3) by exact Hd'.
  apply (rest_same k3); try reflexivity.
  split; [exact G1|]. unfold books in G2. rewrite (drained_pq k3 D) in G2. rewrite !Nat.add_0_r in G2. cbn in G2.
  split; [exact (phase_bal _ _ _ _ G2)|]. split; [exact D|]. split; [eapply exec_inv15; eauto|].
  split; [eapply exec_ie; [exact Hemits|intros; exact I|exact P1|exact H3]|]. eapply (exec_safe conf F HF); eauto.
Qed.
Lemma new_rest c : sf_ctx F c -> bal L true c 0 0 0 [] -> rest (km_new c).
Proof.
  intros Hc Hb. split; [repeat split; constructor|]. split; [exact Hb|]. split; [reflexivity|].
  split; [split; [constructor|discriminate]|]. split; [split; [split; constructor|]; intros p Hp; discriminate|]. now apply new_safe.
Qed.
Definition inputs_other (ops : list op) : Prop := forall o x, In o ops -> op_input o = Some x -> other_input x.
Lemma run_rest fuel ops k k' : (forall c, room L c) -> ~ In OpInit ops -> inputs_ok F ops -> inputs_other ops ->
  rest k -> run_ops conf fuel ops k = Ok k' -> rest k'.
Proof.
  intros Hr Hn Hi Ho. apply run_ops_inv_in.
  - intros a ev a' Ha (o & Hin & Ei) H. eapply handle_input_rest; eauto.
  - intros; eapply tick_rest; eauto.
  - intros k0 r HR. eapply rest_same; [exact HR|reflexivity..].
  - intros; contradiction.
  - intros k0 r HR. eapply rest_same; [exact HR|reflexivity..].
  - intros k0 r HR. eapply rest_same; [exact HR|reflexivity..].
Qed.
(** With [room] known before each call. *)
Lemma run_rest_room fuel ops k k' : forallb simple_op ops = true -> ~ In OpInit ops -> inputs_ok F ops -> inputs_other ops ->
  (forall before after k1, ops = before ++ after -> run_ops conf fuel before k = Ok k1 -> room L (km_ctx k1)) ->
  rest k -> run_ops conf fuel ops k = Ok k' -> rest k'.
Proof.
  revert k. induction ops as [|o ops IH]; intros k Hs Hn Hi Ho Hr HR H.
  - unfold run_ops in H. cbn in H. inv_ok H. exact HR.
  - unfold run_ops in H. cbn [fold_res] in H. inv_bind H. cbn in Hs. apply andb_true_iff in Hs as [Hs1 Hs2].
    assert (Hrk : room L (km_ctx k)) by (apply (Hr [] (o :: ops) k); reflexivity).
    assert (HR1 : rest a).
    { destruct o as [ev| |d ev| | | |ms|cb f]; try discriminate Hs1; cbn [run_op] in E.
      - eapply handle_input_rest; [exact HR|exact Hrk|apply (Ho (OpInput ev)); [now left|reflexivity]|apply (Hi (OpInput ev)); [now left|reflexivity]|exact E].
      - eapply tick_rest; eauto.
      - inv_bind E. destruct a0 as [k2 t]. inv_ok E. unfold km_report_output in E0. inv_bind E0. inv_ok E0.
        eapply rest_same; [exact HR|reflexivity..].
      - inv_ok E. eapply rest_same; [exact HR|reflexivity..].
      - unfold km_set_callback in E. inv_bind E. inv_ok E. eapply rest_same; [exact HR|reflexivity..]. }
    eapply (IH a); eauto.
    + intros Hin. apply Hn. now right.
    + intros o' x Hin. apply Hi. now right.
    + intros o' x Hin. apply Ho. now right.
    + intros before after k1 -> Hb. apply (Hr (o :: before) after k1); [reflexivity|]. unfold run_ops. cbn [fold_res]. rewrite E. exact Hb.
Qed.
End Ledger.
