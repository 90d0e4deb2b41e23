(** A released key does not stay pressed (C16). *)
From Verif Require Import BaseFacts Output Types Scheduler Reporter Keymap SpecScheduler SchedulerFacts
  SpecReporter ReporterFacts KeymapFacts SpecKeymap KeymapInv KeymapHist KeymapQueue.
Local Open Scope N_scope.

Lemma last_opt_cons {A} (x : A) l : l <> [] -> last_opt (x :: l) = last_opt l.
Proof. destruct l; [congruence|reflexivity]. Qed.
Lemma last_opt_app_r {A} (a b : list A) : b <> [] -> last_opt (a ++ b) = last_opt b.
Proof.
  intros Hb. induction a as [|x a IH]; [reflexivity|]. cbn [app]. rewrite last_opt_cons; [exact IH|].
  destruct a; [exact Hb|discriminate].
Qed.
Lemma last_opt_last_list {A} (l : list A) : last_opt (last_list l) = last_opt l.
Proof. unfold last_list. destruct (last_opt l); reflexivity. Qed.
Lemma last_list_nil {A} (l : list A) : last_list l = [] <-> l = [].
Proof.
  unfold last_list. split.
  - destruct (last_opt l) eqn:E; [discriminate|]. intros _. now apply last_opt_none.
  - now intros ->.
Qed.
Lemma last_opt_same_suffix {A} (a a' b : list A) :
  last_opt a = last_opt a' -> last_opt (a ++ b) = last_opt (a' ++ b).
Proof.
  intros H. destruct b as [|x b]; [now rewrite !app_nil_r|]. rewrite !last_opt_app_r by discriminate. reflexivity.
Qed.

Lemma drain_Forall {A} (P : option (event A) -> Prop) l : Forall P l -> Forall P (drain_pending l).
Proof. induction 1 as [|[x|] l Hx Hl IH]; cbn; auto. Qed.

Section Stuck.
Context {R Ctx Ev PKS KS : Type}.
Variable conf : kconf R Ctx Ev PKS KS.
Local Notation km := (keymap R Ctx Ev PKS KS).
Local Notation sys := (kc_sys conf).
Local Notation pos := (kc_pos conf).
Local Notation job := (job R Ev KS).
Implicit Types (k : km) (p : pending_state R Ev PKS).

(** Inputs about key [i]. *)
Variable i : u16.
Definition own (x : input_event) : bool :=
  match x with Press j | Release j => j =? i | _ => false end.
Definition ins (q : list (event Ev)) : list input_event := filter_map input_of_event q.
Definition held k : list input_event :=
  match km_pending k with Some p => ins (pd_queued p) | None => [] end.
Definition kq (q : list input_event) k : Prop :=
  last_opt (filter own q) = Some (Release i)
  \/ (filter own q = [] /\ ~ In i (pressed_indices (km_pressed k))
      /\ forall p, km_pending k = Some p -> pd_index p <> i).
Definition ks k : Prop := kq (held k ++ km_inq k) k.

Definition inputs_only (q : list (event Ev)) := Forall (fun ev : event Ev => exists x, ev = EvInput x) q.

Lemma ins_others q j : inputs_only q -> j <> i ->
  filter own (ins (filter (fun ev => negb (is_own_event j ev)) q)) = filter own (ins q).
Proof.
  intros H Hj. induction H as [|ev q [x ->] _ IH]; [reflexivity|]. cbn [filter].
  destruct (is_own_event j (EvInput x)) eqn:Eo; cbn [negb].
  - rewrite IH. cbn. destruct x; cbn in *; try discriminate; apply N.eqb_eq in Eo; subst;
      (destruct (N.eqb_spec j i); [congruence|reflexivity]).
  - cbn. destruct (own x); [f_equal|]; exact IH.
Qed.
Lemma ins_others_own q : inputs_only q ->
  filter own (ins (filter (fun ev => negb (is_own_event i ev)) q)) = [].
Proof.
  intros H. induction H as [|ev q [x ->] _ IH]; [reflexivity|]. cbn [filter].
  destruct (is_own_event i (EvInput x)) eqn:Eo; cbn [negb]; [exact IH|]. cbn.
  assert (own x = false) as -> by (destruct x; cbn in *; auto). exact IH.
Qed.
Lemma ins_own q : inputs_only q -> ins (filter (is_own_event i) q) = filter own (ins q).
Proof.
  intros H. induction H as [|ev q [x ->] _ IH]; [reflexivity|]. cbn [filter].
  destruct (is_own_event i (EvInput x)) eqn:Eo; cbn.
  - assert (own x = true) as -> by (destruct x; cbn in *; auto). now f_equal.
  - assert (own x = false) as -> by (destruct x; cbn in *; auto). exact IH.
Qed.
Lemma ins_last q : inputs_only q -> ins (last_list q) = last_list (ins q).
Proof.
  intros H. destruct (last_opt q) as [ev|] eqn:El.
  - pose proof (last_opt_spec _ _ El) as Eq. unfold last_list at 1. rewrite El.
    assert (exists x, ev = EvInput x) as [x ->].
    { unfold inputs_only in H. rewrite Forall_forall in H. apply H. rewrite Eq. apply in_or_app. right. now left. }
    rewrite Eq. unfold ins. rewrite filter_map_app. cbn. unfold last_list. rewrite last_opt_app. reflexivity.
  - apply last_opt_none in El. subst. reflexivity.
Qed.
Lemma filter_last_own l : (forall x, In x l -> own x = true) -> filter own (last_list l) = last_list l.
Proof.
  intros H. unfold last_list. destruct (last_opt l) eqn:E; [|reflexivity]. cbn.
  rewrite H; [reflexivity|]. rewrite (last_opt_spec _ _ E). apply in_or_app. right. now left.
Qed.
Lemma filter_own_other j l : j <> i -> (forall x, In x l -> match x with Press a | Release a => a = j | _ => False end) ->
  filter own l = [].
Proof.
  intros Hj. induction l as [|x l IH]; intros H; [reflexivity|]. cbn.
  assert (Hx := H x (or_introl eq_refl)). destruct x; try contradiction; subst;
    cbn; destruct (N.eqb_spec j i); try congruence; apply IH; intros; apply H; now right.
Qed.

(** The queue after a pending key is resolved. *)
Lemma resolve_own q j : inputs_only q ->
  let q' := ins (filter (fun ev => negb (is_own_event j ev)) q ++ last_list (filter (is_own_event j) q)) in
  (filter own q' = [] <-> filter own (ins q) = []) /\ last_opt (filter own q') = last_opt (filter own (ins q)).
Proof.
  intros H q'. unfold q', ins. rewrite filter_map_app, filter_app. fold (ins (filter (fun ev => negb (is_own_event j ev)) q)).
  fold (ins (last_list (filter (is_own_event j) q))).
  assert (Hf : inputs_only (filter (is_own_event j) q)).
  { apply Forall_forall. intros ev Hin. apply filter_In in Hin as [Hin _]. unfold inputs_only in H.
    rewrite Forall_forall in H. auto. }
  destruct (N.eq_dec j i) as [->|Hj].
  - rewrite ins_others_own, ins_last, ins_own by assumption. cbn [app].
    rewrite filter_last_own by (intros x Hx; now apply filter_In in Hx). fold (ins q).
    split; [apply last_list_nil|apply last_opt_last_list].
  - rewrite ins_others by assumption. rewrite (filter_own_other j) with (l := ins (last_list _)).
    + rewrite app_nil_r. split; reflexivity.
    + exact Hj.
    + intros x Hx. rewrite ins_last in Hx by assumption. unfold last_list in Hx.
      destruct (last_opt (ins _)) as [y|] eqn:El; [|destruct Hx]. destruct Hx as [->|[]].
      apply last_opt_spec in El. assert (Hin : In x (ins (filter (is_own_event j) q))).
      { rewrite El. apply in_or_app. right. now left. }
      clear - Hin. induction q as [|ev q IH]; [destruct Hin|]. cbn [filter] in Hin.
      destruct (is_own_event j ev) eqn:Eo; [|exact (IH Hin)]. cbn in Hin. destruct ev as [y| |]; cbn in *; try (apply IH; exact Hin).
      destruct Hin as [->|Hin]; [|apply IH; exact Hin]. destruct x; cbn in Eo; try discriminate; now apply N.eqb_eq.
Qed.

Lemma kq_ext q k q' k' :
  kq q k -> (filter own q = [] -> filter own q' = []) -> (last_opt (filter own q) = Some (Release i) -> last_opt (filter own q') = Some (Release i)) ->
  (In i (pressed_indices (km_pressed k')) -> In i (pressed_indices (km_pressed k)) \/ filter own q <> []) ->
  (forall p', km_pending k' = Some p' -> pd_index p' = i -> filter own q <> [] \/ exists p, km_pending k = Some p /\ pd_index p = i) ->
  kq q' k'.
Proof.
  intros [H|(H1 & H2 & H3)] Ha Hb Hc Hd; [left; auto|]. right. split; [auto|]. split.
  - intros Hi. destruct (Hc Hi); congruence.
  - intros p' Hp' Ei. destruct (Hd _ Hp' Ei) as [Hne|(p & Hp & Ep)]; [congruence|]. apply (H3 p); assumption.
Qed.

Hypothesis He : emits_only sys not_physical.
Variable safe : R -> Prop.
Hypothesis Hs1 : forall pk i c r ev pk' r' kes,
  sys_update_pending_state sys pk i c r ev = Ok (pk', Some (NpkKey r'), kes) -> safe r'.
Hypothesis Hs2 : forall i c r pk kes, safe r -> sys_new_pressed_key sys i c r <> Ok (PkPending pk, kes).
Hypothesis Hs3 : forall i c r r' kes, safe r ->
  sys_new_pressed_key sys i c r = Ok (PkNewPressedKey (NpkKey r'), kes) -> safe r'.

Definition p16 (j : job) k : Prop :=
  p15 j k /\ pie not_physical j k
  /\ match j with
     | JProcessInput x => kq (held k ++ x :: km_inq k) k
     | JPressLoop j' _ => ks k /\ (j' = i -> filter own (km_inq k) <> [])
     | JPendingLoop (NpkKey r) => ks k /\ safe r
     | _ => ks k
     end.
Definition good k : Prop := inv15 k /\ ie not_physical k /\ ks k.

(** [update_pressed] then [update_context]: pressed indices, pending and queue stay. *)
Lemma pre_step k k1 k2 ev :
  update_pressed conf k ev = Ok k1 -> update_context conf k1 ev = Ok k2 -> inv15 k -> ie not_physical k ->
  inv15 k2 /\ ie not_physical k2 /\ pressed_indices (km_pressed k2) = pressed_indices (km_pressed k)
  /\ km_pending k2 = km_pending k /\ km_inq k2 = km_inq k.
Proof.
  intros H1 H2 HI [HA HB]. inv_prim. cbn.
  pose proof (pressed_indices_map _ _ (update_pressed_list_ok _ _ _ _ _ _ _ Hs)) as Ep.
  split; [destruct HI as [A B]; split; cbn; rewrite Ep; assumption|].
  split; [|auto]. split; [|exact HB]. cbn. eapply sched_all_events; [exact Hs0| |].
  - destruct He as (_ & _ & _ & He4). eapply He4; exact Hc.
  - eapply update_pressed_list_events; [exact He|exact Hs|exact HA].
Qed.
Lemma sched_step k k1 kes : schedule_all conf k kes = Ok k1 ->
  Forall (fun se => not_physical (se_event se)) kes -> inv15 k -> ie not_physical k ->
  inv15 k1 /\ ie not_physical k1 /\ km_pressed k1 = km_pressed k /\ km_pending k1 = km_pending k /\ km_inq k1 = km_inq k.
Proof.
  intros H Hk HI [HA HB]. inv_prim. cbn. split; [exact HI|]. split; [|auto]. split; [|exact HB].
  cbn. eapply sched_all_events; eauto.
Qed.

Lemma good_ks k k' : ks k -> pressed_indices (km_pressed k') = pressed_indices (km_pressed k) ->
  km_pending k' = km_pending k -> km_inq k' = km_inq k -> ks k'.
Proof.
  intros H E1 E2 E3. unfold ks, kq, held in *. rewrite E1, E2, E3. exact H.
Qed.

Lemma ie_same k k' : ie not_physical k -> km_sched k' = km_sched k -> km_pending k' = km_pending k -> ie not_physical k'.
Proof. intros [A B] E1 E2. unfold ie, queued_ok. rewrite E1, E2. split; assumption. Qed.

Lemma exec_stuck fuel j k k' : p16 j k -> exec conf fuel j k = Ok k' -> ks k'.
Proof.
  apply (exec_contract' conf p16 (fun _ _ k' => ks k')).
  clear - He Hs1 Hs2 Hs3. intros j k k' (H15 & HIE & HK) H.
  set (rec := fun (j : job) a b => (exists f, exec conf f j a = Ok b) /\ (p16 j a -> ks b)) in *.
  assert (Hrec : forall j a b, rec j a b -> p16 j a -> good b).
  { intros j0 a b [(f & Hx) Hq] Hp. pose proof Hp as (A & B & C). split; [|split].
    - eapply exec_inv15; eauto.
    - eapply exec_ie; [exact He|intros; exact I|exact B|exact Hx].
    - apply Hq, Hp. }
  clearbody rec.
  assert (Hhp : forall a b, rec JHandlePending a b -> good a -> good b).
  { intros a b Hr (A & B & C). apply (Hrec _ _ _ Hr). repeat split; try apply A; try apply B; exact C. }
  assert (Hemit : forall i0 r ks0 a b, good a -> emit_rel conf rec i0 r ks0 a b -> ks b).
  { intros i0 r ks0 a b Hg (o & _ & Ho). destruct o; [|subst; apply Hg]. apply (Hrec _ _ _ Ho).
    destruct Hg as (A & B & C). repeat split; try apply A; try apply B; exact C. }
  pose proof He as (He1 & He2 & _ & He4).
  destruct HIE as [HIE HJ]. destruct H15 as [H15 HJ15].
  destruct H.
  - exact HK.
  - eapply good_ks; [exact HK|reflexivity..].
  - assert (Hg1 : good k1).
    { apply (Hrec _ _ _ H0). destruct HIE as [[A B] C]. rewrite H in A. inversion A; subst.
      split; [split; [exact H15|exact I]|]. split; [split; [split; [split; assumption|exact C]|assumption]|exact HK]. }
    apply (Hhp _ _ H1 Hg1).
  - destruct (run_callback_eq k ev) as (new & Er & _). rewrite Er in H.
    assert (Hg1 : good k1).
    { apply (Hrec _ _ _ H). split; [split; [exact H15|exact I]|]. split; [split; [exact HIE|exact I]|exact HK]. }
    destruct Hg1 as (A1 & B1 & C1).
    destruct (pre_step _ _ _ _ H0 H1 A1 B1) as (A2 & B2 & E1 & E2 & E3).
    assert (C2 : ks k3) by (eapply good_ks; eauto).
    destruct ev as [x| |]; [|subst; exact C2|subst; exact C2].
    apply (Hrec _ _ _ H2). split; [split; [exact A2|exact I]|]. split; [split; [exact B2|exact I]|].
    cbn in HJ. eapply kq_ext; [exact C2|..]; try (intros; eauto; fail).
    + rewrite !filter_app. cbn. assert (own x = false) as -> by (destruct x; cbn in *; auto; discriminate). auto.
    + rewrite !filter_app. cbn. assert (own x = false) as -> by (destruct x; cbn in *; auto; discriminate). auto.
  - (* pending: the input is appended to the pending key's queue *)
    assert (Hg1 : good k1).
    { apply (Hrec _ _ _ H1). split; [split; [|exact I]|split; [split; [|exact I]|]].
      - destruct H15 as [A B]. split; [exact A|]. cbn. intros q [= <-]. cbn. auto.
      - destruct HIE as [A B]. split; [exact A|]. cbn. intros q [= <-]. cbn. apply Forall_app. split; [auto|].
        repeat constructor. eauto.
      - unfold ks, held in *. cbn. unfold ins in *. rewrite filter_map_app. cbn. rewrite <- app_assoc. cbn.
        rewrite H in HK. eapply kq_ext; [exact HK|..]; auto.
        cbn. intros p' [= <-] Ep. cbn in Ep. right. eauto. }
    apply (Hhp _ _ H2 Hg1).
  - (* press of a held key *)
    destruct (pre_step _ _ _ _ H0 H1 H15 HIE) as (A2 & B2 & E1 & E2 & E3).
    apply (Hhp _ _ H3). split; [exact A2|]. split; [exact B2|].
    unfold ks, held in *. rewrite E2, E3, H in *. cbn [app] in *. cbn [filter] in *.
    apply has_pressed_In in H2. rewrite E1 in H2. unfold kq in *. cbn [filter own] in HK. rewrite E1, ?E2, ?H.
    destruct (N.eqb_spec i0 i) as [Hii|Hn]; [subst i0|].
    + destruct HK as [HK|(HK & _)]; [|discriminate]. left.
      destruct (filter own (km_inq k)) eqn:Ef; [discriminate|]. exact HK.
    + destruct HK as [HK|(HK1 & HK2 & _)]; [now left|]. right. repeat split; auto. discriminate.
  - (* press *)
    destruct (pre_step _ _ _ _ H0 H1 H15 HIE) as (A2 & B2 & E1 & E2 & E3).
    assert (Hni : ~ In i0 (pressed_indices (km_pressed k2))).
    { rewrite <- has_pressed_In. rewrite H2. discriminate. }
    assert (HK2 : ks k2 /\ (i0 = i -> filter own (km_inq k2) <> [])).
    { unfold ks, held in *. rewrite E2, E3, H in *. cbn [app] in *. unfold kq in *. cbn [filter own] in HK. rewrite E1, ?E2, ?H.
      destruct (N.eqb_spec i0 i) as [Hii|Hn]; [subst i0|].
      - destruct HK as [HK|(HK & _)]; [|discriminate].
        destruct (filter own (km_inq k)) eqn:Ef; [discriminate|]. split; [left; exact HK|discriminate].
      - split; [|tauto]. destruct HK as [HK|(HK1 & HK2 & _)]; [now left|]. right. repeat split; auto. discriminate. }
    assert (Hg3 : good k3).
    { apply (Hrec _ _ _ H4). split; [split; [exact A2|split; [exact Hni|congruence]]|].
      split; [split; [exact B2|exact I]|exact HK2]. }
    apply (Hhp _ _ H5 Hg3).
  - (* release *)
    destruct (pre_step _ _ _ _ H0 H1 H15 HIE) as (A2 & B2 & E1 & E2 & E3).
    apply (Hhp _ _ H2). split; [|split; [eapply ie_same; [exact B2|reflexivity..]|]].
    + destruct A2 as [X Y]. split; [cbn; now apply remove_first_NoDup|]. cbn. intros p Hp. congruence.
    + unfold ks, held in *. cbn. rewrite E2, E3, H in *. cbn [app] in *. unfold kq in *. cbn [filter own] in HK. cbn. rewrite ?E2, ?H.
      destruct (N.eqb_spec i0 i) as [Hii|Hn]; [subst i0|].
      * destruct HK as [HK|(HK & _)]; [|discriminate].
        destruct (filter own (km_inq k)) as [|x l] eqn:Ef.
        -- right. split; [reflexivity|]. split; [|discriminate]. destruct A2 as [X _].
           clear - X. induction (km_pressed k2) as [|[j r ks0|ko] l IH]; cbn; [auto| |].
           ++ cbn in X. inversion X; subst. destruct (N.eqb_spec i j) as [->|Hn]; cbn; [assumption|].
              intros [Hx|Hx]; [congruence|]. now apply IH.
           ++ cbn in X. auto.
        -- left. exact HK.
      * destruct HK as [HK|(HK1 & HK2 & _)]; [now left|]. right. split; [exact HK1|]. split; [|discriminate].
        intros Hx. apply HK2. rewrite <- E1. eapply remove_first_indices_any; exact Hx.
  - (* virtual press *)
    destruct (pre_step _ _ _ _ H0 H1 H15 HIE) as (A2 & B2 & E1 & E2 & E3).
    apply (Hhp _ _ H3). split; [|split; [eapply ie_same; [exact B2|reflexivity..]|]].
    + destruct A2 as [X Y]. split; cbn; rewrite pressed_indices_app; cbn; rewrite app_nil_r; assumption.
    + eapply good_ks with (k := k).
      * unfold ks, held in *. rewrite H in *. cbn in HK. exact HK.
      * cbn. rewrite pressed_indices_app. cbn. now rewrite app_nil_r.
      * exact E2.
      * exact E3.
  - destruct (pre_step _ _ _ _ H0 H1 H15 HIE) as (A2 & B2 & E1 & E2 & E3).
    apply (Hhp _ _ H2). split; [|split; [eapply ie_same; [exact B2|reflexivity..]|]].
    + destruct A2 as [X Y]. split; [cbn; now apply remove_first_NoDup|]. cbn. intros p Hp. congruence.
    + eapply good_ks with (k := k).
      * unfold ks, held in *. rewrite H in *. cbn in HK. exact HK.
      * cbn. rewrite <- E1. clear. induction (km_pressed k2) as [|[j r ks0|ko'] l IH]; cbn; [reflexivity| |].
        -- now f_equal.
        -- destruct (ko_eqb ko ko'); cbn; auto.
      * exact E2.
      * exact E3.
  - (* resolved at press *)
    destruct (sched_step _ _ _ H0 (He1 _ _ _ _ _ H) H15 HIE) as (A1 & B1 & E1 & E2 & E3).
    destruct HK as [HK HKi]. destruct HJ15 as [Hni Hpn].
    eapply Hemit; [|exact H2]. split; [|split; [eapply ie_same; [exact B1|reflexivity..]|]].
    + eapply inv15_push; [exact A1|rewrite E1; exact Hni|reflexivity|cbn; congruence].
    + unfold ks, held in *. cbn. rewrite E2, E3, Hpn in *. cbn [app] in *.
      eapply kq_ext; [exact HK|auto|auto| |].
      * cbn. rewrite E1, pressed_indices_app. intros Hin. apply in_app_or in Hin as [Hin|[<-|[]]]; auto.
      * cbn. intros p' Hp'. congruence.
  - destruct (sched_step _ _ _ H0 (He1 _ _ _ _ _ H) H15 HIE) as (A1 & B1 & E1 & E2 & E3).
    apply (Hrec _ _ _ H1). split; [split; [exact A1|rewrite E1, E2; exact HJ15]|].
    split; [split; [exact B1|exact I]|]. destruct HK as [HK HKi]. split; [|rewrite E3; exact HKi].
    eapply good_ks; [exact HK|now rewrite E1|exact E2|exact E3].
  - destruct (sched_step _ _ _ H0 (He1 _ _ _ _ _ H) H15 HIE) as (A1 & B1 & E1 & E2 & E3).
    destruct HK as [HK HKi]. destruct HJ15 as [Hni Hpn].
    unfold ks, held in *. cbn. rewrite E2, E3, Hpn in *. cbn [app] in *.
    eapply kq_ext; [exact HK|auto|auto| |].
    + cbn. rewrite E1, pressed_indices_app. intros Hin. apply in_app_or in Hin as [Hin|[<-|[]]]; auto.
    + cbn. intros p' Hp'. congruence.
  - destruct (sched_step _ _ _ H0 (He1 _ _ _ _ _ H) H15 HIE) as (A1 & B1 & E1 & E2 & E3).
    destruct HK as [HK HKi]. destruct HJ15 as [Hni Hpn].
    unfold ks, held in *. cbn. rewrite E3, Hpn in *. cbn [app] in *.
    eapply kq_ext; [exact HK|auto|auto| |].
    + cbn. rewrite E1. auto.
    + cbn. intros p' [= <-] Ei. cbn in Ei. left. auto.
  - exact HK.
  - assert (X : inv15 k1 /\ ie not_physical k1 /\ km_pressed k1 = km_pressed k
       /\ km_pending k1 = Some (mkPending (pd_index p) (pd_ref p) pks (pd_queued p)) /\ km_inq k1 = km_inq k).
    { apply (sched_step _ _ _ H1 (He2 _ _ _ _ _ _ _ H0)).
      - destruct H15 as [A B]. split; [exact A|]. cbn. intros q [= <-]. cbn. auto.
      - destruct HIE as [A B]. split; [exact A|]. cbn. intros q [= <-]. cbn. auto. }
    destruct X as (A1 & B1 & E1 & E2 & E3). unfold ks, held in *. rewrite E2, E3. rewrite H in HK. cbn.
    eapply kq_ext; [exact HK|auto|auto|rewrite E1; auto|].
    intros p' Hp' Ei. rewrite E2 in Hp'. injection Hp' as <-. right. eauto.
  - assert (X : inv15 k1 /\ ie not_physical k1 /\ km_pressed k1 = km_pressed k
       /\ km_pending k1 = Some (mkPending (pd_index p) (pd_ref p) pks (pd_queued p)) /\ km_inq k1 = km_inq k).
    { apply (sched_step _ _ _ H1 (He2 _ _ _ _ _ _ _ H0)).
      - destruct H15 as [A B]. split; [exact A|]. cbn. intros q [= <-]. cbn. auto.
      - destruct HIE as [A B]. split; [exact A|]. cbn. intros q [= <-]. cbn. auto. }
    destruct X as (A1 & B1 & E1 & E2 & E3). apply (Hrec _ _ _ H2).
    assert (HK1 : ks k1).
    { unfold ks, held in *. rewrite E2, E3. rewrite H in HK. cbn.
      eapply kq_ext; [exact HK|auto|auto|rewrite E1; auto|].
      intros p' Hp' Ei. rewrite E2 in Hp'. injection Hp' as <-. right. eauto. }
    split; [split; [exact A1|exact I]|]. split; [split; [exact B1|exact I]|].
    destruct npk; [|exact HK1]. split; [exact HK1|]. eapply Hs1; exact H0.
  - destruct npk; [apply HK|exact HK].
  - apply (Hrec _ _ _ H0). split; [split; [exact H15|exact I]|]. split; [split; [exact HIE|exact I]|exact HK].
  - destruct HK as [HK Hsafe].
    assert (X : inv15 k1 /\ ie not_physical k1 /\ km_pressed k1 = km_pressed k
       /\ km_pending k1 = Some (mkPending (pd_index p) r (pd_state p) (pd_queued p)) /\ km_inq k1 = km_inq k).
    { apply (sched_step _ _ _ H1 (He1 _ _ _ _ _ H0)).
      - destruct H15 as [A B]. split; [exact A|]. cbn. intros q [= <-]. cbn. auto.
      - destruct HIE as [A B]. split; [exact A|]. cbn. intros q [= <-]. cbn. auto. }
    destruct X as (A1 & B1 & E1 & E2 & E3). apply (Hrec _ _ _ H2).
    split; [split; [exact A1|exact I]|]. split; [split; [exact B1|exact I]|].
    unfold ks, held in *. rewrite E2, E3. rewrite H in HK. cbn.
    eapply kq_ext; [exact HK|auto|auto|rewrite E1; auto|].
    intros p' Hp' Ei. rewrite E2 in Hp'. injection Hp' as <-. right. eauto.
  - destruct HK as [HK Hsafe].
    assert (X : inv15 k1 /\ ie not_physical k1 /\ km_pressed k1 = km_pressed k
       /\ km_pending k1 = Some (mkPending (pd_index p) r (pd_state p) (pd_queued p)) /\ km_inq k1 = km_inq k).
    { apply (sched_step _ _ _ H1 (He1 _ _ _ _ _ H0)).
      - destruct H15 as [A B]. split; [exact A|]. cbn. intros q [= <-]. cbn. auto.
      - destruct HIE as [A B]. split; [exact A|]. cbn. intros q [= <-]. cbn. auto. }
    destruct X as (A1 & B1 & E1 & E2 & E3). apply (Hrec _ _ _ H2).
    split; [split; [exact A1|exact I]|]. split; [split; [exact B1|exact I]|].
    split; [|eapply Hs3; [exact Hsafe|exact H0]].
    unfold ks, held in *. rewrite E2, E3. rewrite H in HK. cbn.
    eapply kq_ext; [exact HK|auto|auto|rewrite E1; auto|].
    intros p' Hp' Ei. rewrite E2 in Hp'. injection Hp' as <-. right. eauto.
  - destruct HK as [HK Hsafe].
    assert (X : inv15 k1 /\ ie not_physical k1 /\ km_pressed k1 = km_pressed k
       /\ km_pending k1 = Some (mkPending (pd_index p) r (pd_state p) (pd_queued p)) /\ km_inq k1 = km_inq k).
    { apply (sched_step _ _ _ H1 (He1 _ _ _ _ _ H0)).
      - destruct H15 as [A B]. split; [exact A|]. cbn. intros q [= <-]. cbn. auto.
      - destruct HIE as [A B]. split; [exact A|]. cbn. intros q [= <-]. cbn. auto. }
    destruct X as (A1 & B1 & E1 & E2 & E3). apply (Hrec _ _ _ H2).
    split; [split; [exact A1|exact I]|]. split; [split; [exact B1|exact I]|].
    unfold ks, held in *. rewrite E2, E3. rewrite H in HK. cbn.
    eapply kq_ext; [exact HK|auto|auto|rewrite E1; auto|].
    intros p' Hp' Ei. rewrite E2 in Hp'. injection Hp' as <-. right. eauto.
  - destruct HK as [_ Hsafe]. exfalso. eapply Hs2; [exact Hsafe|exact H0].
  - exact HK.
  - (* resolve *)
    destruct HIE as [HE HQ]. pose proof (HQ _ H) as Hin.
    pose proof (requeue_inputs conf _ (resolve_queue_inputs p (pd_index p) Hin) _ _ _ _ _ H1) as Es.
    apply requeue_ok in H1 as (-> & _). apply push_all_cap_ok in H2 as [-> _]. cbn [app] in *.
    destruct (resolve_own (pd_queued p) (pd_index p) Hin) as [Hn Hl].
    unfold ins in Hn, Hl. cbv zeta in Hn, Hl.
    assert (Hg3 : good k3).
    { apply (Hhp _ _ H3). split; [|split].
      - destruct H15 as [A B]. eapply inv15_push with (k := set_pending k None); [|apply (B _ H)|reflexivity|reflexivity].
        split; [exact A|]. cbn. discriminate.
      - split; [|cbn; intros q; discriminate]. cbn. rewrite Es. now apply cancel_events.
      - unfold ks, held in *. cbn. rewrite H in HK. eapply kq_ext; [exact HK|..].
        + rewrite !filter_app. intros Hx. apply app_eq_nil in Hx as [X Y]. apply Hn in X. rewrite X, Y. reflexivity.
        + rewrite !filter_app. intros Hx. rewrite <- Hx. apply last_opt_same_suffix. exact Hl.
        + cbn. rewrite pressed_indices_app. intros Hx. apply in_app_or in Hx as [Hx|[Hx|[]]]; [auto|]. right.
          intros Hnil. destruct HK as [HK|(_ & _ & HK)]; [rewrite Hnil in HK; discriminate|].
          now apply (HK _ H).
        + cbn. discriminate. }
    eapply Hemit; eauto.
Qed.

Lemma good_handle_input fuel ev k k' :
  inv15 k -> ie not_physical k -> (ks k /\ ev <> Press i \/ ev = Release i /\ (length (km_inq k) < 31)%nat) ->
  km_handle_input conf fuel ev k = Ok k' -> good k'.
Proof.
  intros A B C H.
  assert (A' : inv15 k') by (eapply handle_input_inv15; eauto).
  assert (HC : (length (km_inq k) < 31)%nat -> kq (held k ++ km_inq k ++ [ev]) k).
  { intros Hlt. destruct C as [[C Hne]|[-> _]].
    - rewrite app_assoc. destruct (own ev) eqn:Eo.
      + left. rewrite filter_app. cbn. rewrite Eo. destruct ev as [j|j| |]; cbn in Eo; try discriminate;
          apply N.eqb_eq in Eo; subst; [congruence|]. apply last_opt_app.
      + assert (Ef : filter own ((held k ++ km_inq k) ++ [ev]) = filter own (held k ++ km_inq k)).
        { rewrite filter_app with (l' := [ev]). cbn. rewrite Eo, app_nil_r. reflexivity. }
        eapply kq_ext; [exact C|rewrite Ef; auto|rewrite Ef; auto|auto|].
        intros p' Hp' Ei. right. eauto.
    - left. rewrite !filter_app. cbn. rewrite N.eqb_refl, app_assoc. apply last_opt_app. }
  apply handle_input_cases in H as [(Hl & Hz & x & q' & k2 & Eq & H & ->)|[(Hl & Hz & ->)|(Hl & ->)]].
  - specialize (HC Hl). rewrite Eq in HC.
    assert (Hp : p16 (JProcessInput x) (set_inq (set_idle k 0) q')).
    { split; [split; [exact A|exact I]|]. split; [split; [exact B|exact I]|]. exact HC. }
    split; [exact A'|]. split.
    + eapply ie_same with (k := k2); [|reflexivity..]. eapply exec_ie; [exact He|intros; exact I| |exact H]. apply Hp.
    + eapply exec_stuck in H; [|exact Hp]. eapply good_ks; [exact H|reflexivity..].
  - split; [exact A'|]. split; [eapply ie_same; [exact B|reflexivity..]|]. exact (HC Hl).
  - split; [exact A'|]. split; [eapply ie_same; [exact B|reflexivity..]|].
    destruct C as [[C _]|[_ C]]; [eapply good_ks; [exact C|reflexivity..]|]. unfold INPUT_QUEUE_CAPACITY in Hl. lia.
Qed.

Lemma good_tick fuel k k' : good k -> km_tick conf fuel k = Ok k' -> good k'.
Proof.
  intros (A & B & C) H. assert (A' : inv15 k') by (eapply tick_inv15; eauto).
  apply tick_cases in H as (k1 & k2 & s & k3 & H1 & E2 & Hs & H3 & _ & ->).
  assert (G1 : good k1).
  { destruct H1 as [(x & q & k1' & Eq & _ & H1 & ->)|(-> & _)].
    - match type of H1 with exec _ _ _ ?a = _ => assert (Hp : p16 (JProcessInput x) a) end.
      { split; [split; [exact A|exact I]|]. split; [split; [exact B|exact I]|].
        unfold ks, held in C. rewrite Eq in C. exact C. }
      split; [|split].
      + eapply inv15_ext with (k := k1'); [|reflexivity..]. eapply exec_inv15; [apply Hp|exact H1].
      + eapply ie_same with (k := k1'); [|reflexivity..]. eapply exec_ie; [exact He|intros; exact I| |exact H1]. apply Hp.
      + eapply exec_stuck in H1; [|exact Hp]. eapply good_ks; [exact H1|reflexivity..].
    - split; [exact A|]. split; [eapply ie_same; [exact B|reflexivity..]|]. eapply good_ks; [exact C|reflexivity..]. }
  assert (G2 : good (set_sched k2 s)).
  { destruct G1 as (A1 & B1 & C1).
    assert (E : km_pressed k2 = km_pressed k1 /\ km_pending k2 = km_pending k1 /\ km_inq k2 = km_inq k1 /\ km_sched k2 = km_sched k1)
      by (subst k2; destruct (0 <? km_delay k1); auto).
    destruct E as (X1 & X2 & X3 & X4). split; [|split].
    - eapply inv15_ext; [exact A1|cbn; assumption..].
    - destruct B1 as [[P1 P2] P3]. split; [|unfold queued_ok; cbn; rewrite X2; exact P3]. cbn. rewrite X4 in Hs.
      apply sched_tick_ok in Hs as (_ & [(X & Y & _)|(en & X & _ & Y)]).
      + split; congruence.
      + rewrite X in P2. apply Forall_app in P2 as [P21 P22]. inversion P22; subst. split; [|exact P21].
        rewrite Y. apply Forall_app. split; [exact P1|]. constructor; [|constructor]. destruct (en_live en); auto.
    - eapply good_ks; [exact C1|cbn; congruence..]. }
  destruct G2 as (A2 & B2 & C2).
  assert (Hp : p16 JHandlePending (set_sched k2 s)).
  { split; [split; [exact A2|exact I]|]. split; [split; [exact B2|exact I]|exact C2]. }
  split; [exact A'|]. split.
  - eapply ie_same with (k := k3); [|reflexivity..]. eapply exec_ie; [exact He|intros; exact I| |exact H3]. apply Hp.
  - eapply exec_stuck in H3; [|exact Hp]. eapply good_ks; [exact H3|reflexivity..].
Qed.

Lemma good_init k : ie not_physical k -> good (km_init k).
Proof.
  intros HI. split; [apply inv15_init|].
  split; [split; [split; cbn; [apply drain_Forall, HI|constructor]|intros p; discriminate]|].
  right. repeat split; cbn; auto. discriminate.
Qed.

Lemma good_run fuel ops k k' :
  Forall (fun o => op_input o <> Some (Press i)) ops -> good k -> run_ops conf fuel ops k = Ok k' -> good k'.
Proof.
  intros Hops. apply run_ops_inv_in.
  - intros a ev a' (A & B & C) (o & Ho & Hev) H. eapply good_handle_input; [exact A|exact B| |exact H]. left.
    split; [exact C|]. intros ->. rewrite Forall_forall in Hops. now apply (Hops o).
  - intros a a' Ha H. eapply good_tick; eauto.
  - intros a r Ha. exact Ha.
  - intros a (_ & Ha & _) _. apply good_init, Ha.
  - intros a ms Ha. exact Ha.
  - intros a c Ha. exact Ha.
Qed.

End Stuck.

Section IeRun.
Context {R Ctx Ev PKS KS : Type}.
Variable conf : kconf R Ctx Ev PKS KS.
Local Notation km := (keymap R Ctx Ev PKS KS).
Local Notation sys := (kc_sys conf).
Variable E : event Ev -> Prop.
Hypothesis He : emits_only sys E.
Hypothesis HE : forall i ko, E (EvKeymap (KmResolvedKeyOutput i ko)).
Implicit Types (k : km).

Lemma handle_input_ie fuel ev k k' : ie E k -> km_handle_input conf fuel ev k = Ok k' -> ie E k'.
Proof.
  intros B H.
  apply handle_input_cases in H as [(Hl & Hz & x & q' & k2 & Eq & H & ->)|[(Hl & Hz & ->)|(Hl & ->)]]; try exact B.
  eapply exec_ie in H; [exact H|exact He|exact HE|]. split; [exact B|exact I].
Qed.
Lemma sched_tick_events (s : scheduler Ev) ms s' : events_ok E s -> sched_tick s ms = Ok s' -> events_ok E s'.
Proof.
  intros [P1 P2] Hs. apply sched_tick_ok in Hs as (_ & [(X & Y & _)|(en & X & _ & Y)]).
  - split; congruence.
  - rewrite X in P2. apply Forall_app in P2 as [P21 P22]. inversion P22; subst. split; [|exact P21].
    rewrite Y. apply Forall_app. split; [exact P1|]. constructor; [|constructor]. destruct (en_live en); auto.
Qed.
Lemma tick_ie fuel k k' : ie E k -> km_tick conf fuel k = Ok k' -> ie E k'.
Proof.
  intros B H. apply tick_cases in H as (k1 & k2 & s & k3 & H1 & E2 & Hs & H3 & _ & ->).
  assert (G1 : ie E k1).
  { destruct H1 as [(x & q & k1' & Eq & _ & H1 & ->)|(-> & _)]; [|exact B].
    eapply exec_ie in H1; [exact H1|exact He|exact HE|]. split; [exact B|exact I]. }
  assert (G2 : ie E k2) by (subst k2; destruct (0 <? km_delay k1); exact G1).
  eapply exec_ie in H3; [exact H3|exact He|exact HE|]. split; [|exact I].
  destruct G2 as [P1 P3]. split; [|exact P3]. eapply sched_tick_events; eauto.
Qed.
Lemma ie_init k : ie E k -> ie E (km_init k).
Proof. intros HI. split; [split; cbn; [apply drain_Forall, HI|constructor]|intros p; discriminate]. Qed.
Lemma run_ops_ie fuel ops k k' : ie E k -> run_ops conf fuel ops k = Ok k' -> ie E k'.
Proof.
  apply run_ops_inv; auto.
  - intros; eapply handle_input_ie; eauto.
  - intros; eapply tick_ie; eauto.
  - intros. now apply ie_init.
Qed.
End IeRun.
