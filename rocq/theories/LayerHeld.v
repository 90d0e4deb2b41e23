(** C44: a layer switched by hold keys is active exactly while one is pressed. *)
From Verif Require Import BaseFacts Output Types Scheduler Reporter Keymap SimpleKeys TapHold TapDance Sticky CapsWord
  Layered Automation Chorded Composite SpecScheduler SchedulerFacts SpecKeymap KeymapFacts KeymapInv KeymapHist
  KeymapHeld KeymapSwitch SpecComposite CompositeFacts CtxFacts SpecLayer LayerFacts SpecMacroLive MacroLive SpecLayerHeld.
Local Open Scope N_scope.

Lemma sticky_on_set (c c' : layered_ctx) l x a : layer_set (lyx_active c) x a = Ok (lyx_active c') ->
  (x = l -> is_sticky_active a = false) -> sticky_on c l = false -> sticky_on c' l = false.
Proof.
  intros H Ha Hs. apply layer_set_spec in H as (_ & _ & H). unfold sticky_on in *.
  destruct (N.leb_spec 1 l); [|reflexivity]. rewrite H by assumption. destruct (N.eqb_spec l x); [cbn; auto|exact Hs].
Qed.
Lemma layer_event_sticky c e c' l : handle_layer_event c e = Ok c' ->
  match e with LeStickyActivated x => x <> l | _ => True end ->
  sticky_on c l = false -> sticky_on c' l = false.
Proof.
  intros H He Hs. destruct e as [x|x|x|x|bits|x]; cbn in H.
  - inv_bind H. inv_ok H. eapply (sticky_on_set c); [exact E|reflexivity|exact Hs].
  - inv_bind H. inv_ok H. eapply (sticky_on_set c); [exact E|reflexivity|exact Hs].
  - inv_bind H. inv_bind H. inv_ok H. destruct (is_active a); (eapply (sticky_on_set c); [exact E0|reflexivity|exact Hs]).
  - inv_bind H. inv_ok H. eapply (sticky_on_set c); [exact E|congruence|exact Hs].
  - inv_bind H. inv_ok H. unfold set_layers in E.
    destruct (set_layers_spec bits (Nat.min (length (lyx_active c)) MAX_BITSET_LAYER) 1 (lyx_active c)) as (ls & E1 & _ & H1); [lia|lia|].
    rewrite E in E1. injection E1 as <-. unfold sticky_on in *. cbn. destruct (N.leb_spec 1 l); [|reflexivity]. rewrite H1 by assumption.
    destruct ((N.of_nat 1 <=? l) && _); [destruct (N.testbit bits l); reflexivity|exact Hs].
  - inv_ok H. exact Hs.
Qed.
Lemma layer_input_keeps c x c' l : ly_handle_event c (EvInput x) = Ok c' -> sticky_on c l = false ->
  is_on c' l = is_on c l /\ sticky_on c' l = false /\ length (lyx_active c') = length (lyx_active c).
Proof.
  intros H Hs.
  assert (Hd : forall l' ls p, sticky_layer c = Some l' -> deactivate (lyx_active c) l' = Ok ls ->
    let c2 := mkLyCtx (lyx_default c) ls p in
    is_on c2 l = is_on c l /\ sticky_on c2 l = false /\ length (lyx_active c2) = length (lyx_active c)).
  { intros l' ls p Hf Hd. cbv zeta. apply find_sticky_spec in Hf as (A & B & _). rewrite N.sub_0_r in B.
    apply layer_set_spec in Hd as (D1 & D2 & D3). unfold sticky_on, is_on in *. cbn. destruct (N.leb_spec 1 l); [|auto].
    rewrite D3 by assumption. destruct (N.eqb_spec l l') as [->|]; [|auto]. rewrite B in Hs. discriminate. }
  destruct x as [i|i|ko|ko]; cbn in H; try (inv_ok H; auto).
  - destruct (sticky_layer c) as [l'|] eqn:Ef; [|inv_ok H; auto]. destruct (lyx_pressed c).
    + inv_bind H. inv_ok H. eapply Hd; eauto.
    + inv_ok H. unfold sticky_on, is_on in *. cbn. auto.
  - destruct (sticky_layer c) as [l'|] eqn:Ef; [|inv_ok H; auto]. destruct (opt_eqb _ _ _); [|inv_ok H; auto].
    inv_bind H. inv_ok H. eapply Hd; eauto.
Qed.

Section Held.
Variables (refs : list ref) (d : key_data) (pos : position_fn) (debug : bool) (n : nat) (l : N) (rl : bool -> bool -> Prop).
Local Notation conf := (cconf refs d pos debug).
Hypothesis Htt : rl true true.
Hypothesis Hff : rl false false.
Definition keeps (b : bool) : Prop := forall f h, rl f h -> rl b h.
Hypothesis Hmods : forall m, In m (kd_layer_mods d) ->
  match m with
  | LmHold _ | LmDefault _ => True
  | LmToggle l' | LmSticky l' => l' <> l
  | LmSetActiveLayers bits => 31 < l \/ keeps (N.testbit bits l)
  end.
Definition at_index (i : u16) (r : ref) : Prop := exists r0, nth_error refs (N.to_nat i) = Some r0 /\ reaches d r0 r.
Definition holdb (r : ref) : bool :=
  match r with
  | RLayered (LyModifier m) =>
      match nth_error (kd_layer_mods d) (N.to_nat m) with Some (LmHold x) => x =? l | _ => false end
  | _ => false
  end.
Lemma holdb_spec r : holdb r = true <-> hold_key d l r.
Proof.
  unfold hold_key. split.
  - destruct r as [ | | | | | | |[m|m]| | | | ]; cbn; try discriminate.
    destruct (nth_error (kd_layer_mods d) (N.to_nat m)) as [[x|x|x|x|x]|] eqn:E; try discriminate.
    intros H. apply N.eqb_eq in H. subst. eauto.
  - intros (m & -> & H). cbn. rewrite H. apply N.eqb_refl.
Qed.
Hypothesis Hal : rl false true
  \/ forall i j r r', at_index i r -> holdb r = true -> at_index j r' -> holdb r' = true -> i = j.

Definition layer_act (e : layer_event) : option bool :=
  match e with
  | LeActivated x | LeStickyActivated x => if x =? l then Some true else None
  | LeDeactivated x => if x =? l then Some false else None
  | LeToggled _ | LeSetDefault _ => None
  | LeSet bits => if (1 <=? l) && (l <=? N.of_nat n) && (l <=? 31) then Some (N.testbit bits l) else None
  end.
Definition lact (ev : event cev) : option bool := match ev with EvKey _ (CeLayered e) => layer_act e | _ => None end.
Definition lev (ev : event cev) : Prop :=
  match ev with EvKey _ (CeLayered (LeToggled x)) | EvKey _ (CeLayered (LeStickyActivated x)) => x <> l | _ => True end.
Definition lctx (c : cctx) : Prop := length (lyx_active (cx_layered c)) = n /\ sticky_on (cx_layered c) l = false.
Definition layer_switch : @switch ref cctx cev cks :=
  mkSwitch (fun c => is_on (cx_layered c) l) lact holdb (fun ks => exists b, ks = KsLayerModifier b) at_index lctx lev rl.

Definition fine (kes : key_events cev) : Prop := Forall (fun se => lev (se_event se)) kes.
Definition no_acts (kes : key_events cev) : Prop := acts layer_switch kes = [] /\ at_once layer_switch kes.
Lemma fine_map {A} (f : A -> cev) (kes : key_events A) : (forall e, as_layered (f e) = None) -> fine (ke_map f kes).
Proof.
  intros Hf. unfold fine, ke_map. apply Forall_map, Forall_forall. intros [s [ie|j e|kk]] _; unfold map_sched; cbn; try exact I.
  specialize (Hf e). destruct (f e); try exact I. discriminate.
Qed.
Lemma fine_nil : fine [].
Proof. constructor. Qed.
Lemma fine_layer i e : lev (EvKey i (CeLayered e)) -> fine (ke_map CeLayered [immediate (EvKey i e)]).
Proof. intros H. constructor; [exact H|constructor]. Qed.
Lemma no_acts_nil : no_acts [].
Proof. split; [reflexivity|constructor]. Qed.
Lemma no_acts_map {A} (f : A -> cev) (kes : key_events A) : (forall e, as_layered (f e) = None) -> no_acts (ke_map f kes).
Proof.
  intros Hf. assert (H1 : forall se, lact (se_event (map_sched f se)) = None).
  { intros [s [ie|j e|kk]]; unfold map_sched; cbn; try reflexivity. specialize (Hf e). destruct (f e); try reflexivity. discriminate. }
  induction kes as [|se kes [IH1 IH2]]; [exact no_acts_nil|]. unfold ke_map in *. cbn [map]. split.
  - unfold acts in *. cbn [map collect flat_map act layer_switch]. rewrite H1. exact IH1.
  - constructor; [|exact IH2]. cbn [act layer_switch]. rewrite H1. congruence.
Qed.
Lemma no_acts_app a b : no_acts a -> no_acts b -> no_acts (a ++ b).
Proof.
  intros [A1 A2] [B1 B2]. split; [|unfold at_once in *; apply Forall_app; auto].
  unfold acts in *. rewrite map_app, collect_app, A1, B1. reflexivity.
Qed.
Lemma one_layer i e : acts layer_switch (ke_map CeLayered [immediate (EvKey i e)])
    = match layer_act e with Some b => [b] | None => [] end
  /\ at_once layer_switch (ke_map CeLayered [immediate (EvKey i e)]).
Proof. split; [unfold acts; cbn; now rewrite app_nil_r|]. constructor; [reflexivity|constructor]. Qed.

Lemma press_other i c r x kes : (forall m, r <> RLayered (LyModifier m)) ->
  c_new_pressed_key d i c r = Ok (x, kes) -> no_acts kes.
Proof.
  intros Hr. destruct r as [m|m| |cr|m|m|m|[m|m]|m|m|m|m]; cbn; intros H.
  - inv_bind H. destruct a as [p y]. inv_ok H. now apply no_acts_map.
  - unfold callback_new_pressed_key in H. inv_bind H. inv_ok H. split; [reflexivity|]. constructor; [cbn; congruence|constructor].
  - inv_ok H. split; [reflexivity|]. constructor; [cbn; congruence|constructor].
  - inv_bind H. destruct a as [p y]. inv_ok H. now apply no_acts_map.
  - inv_ok H. exact no_acts_nil.
  - inv_ok H. exact no_acts_nil.
  - inv_ok H. exact no_acts_nil.
  - now destruct (Hr m).
  - inv_bind H. destruct a as [p y]. inv_ok H. inv_bind E. inv_bind E. inv_ok E. exact no_acts_nil.
  - inv_ok H. exact no_acts_nil.
  - inv_ok H. exact no_acts_nil.
  - inv_ok H. split; [reflexivity|]. constructor; [cbn; congruence|constructor].
  - inv_bind H. destruct a as [p y]. inv_ok H. now apply no_acts_map.
Qed.
Lemma press_modifier i c m x kes : c_new_pressed_key d i c (RLayered (LyModifier m)) = Ok (x, kes) ->
  exists lm b e, nth_error (kd_layer_mods d) (N.to_nat m) = Some lm /\ lm_new_pressed_key lm = (b, e)
    /\ x = PkResolved (KsLayerModifier b) /\ kes = ke_map CeLayered [immediate (EvKey i e)].
Proof.
  cbn. intros H. inv_bind H. destruct a as [p y]. inv_ok H. inv_bind E. apply index_ok in E0.
  destruct (lm_new_pressed_key a) as [b e] eqn:Em. inv_ok E. exists a, b, e. auto.
Qed.

Lemma press_fine i c r x kes : c_new_pressed_key d i c r = Ok (x, kes) -> fine kes.
Proof.
  destruct r as [m|m| |cr|m|m|m|[m|m]|m|m|m|m]; cbn; intros H.
  - inv_bind H. destruct a as [p y]. inv_ok H. now apply fine_map.
  - unfold callback_new_pressed_key in H. inv_bind H. inv_ok H. repeat constructor.
  - inv_ok H. repeat constructor.
  - inv_bind H. destruct a as [p y]. inv_ok H. now apply fine_map.
  - inv_ok H. exact fine_nil.
  - inv_ok H. exact fine_nil.
  - inv_ok H. exact fine_nil.
  - apply (press_modifier i c) in H as (lm & b & e & Hm & Hl & -> & ->). apply fine_layer.
    apply nth_error_In in Hm. specialize (Hmods _ Hm). destruct lm; cbn in Hl; injection Hl as <- <-; first [exact I|exact Hmods].
  - inv_bind H. destruct a as [p y]. inv_ok H. inv_bind E. inv_bind E. inv_ok E. exact fine_nil.
  - inv_ok H. exact fine_nil.
  - inv_ok H. exact fine_nil.
  - inv_ok H. repeat constructor.
  - inv_bind H. destruct a as [p y]. inv_ok H. now apply fine_map.
Qed.
Lemma pending_fine p i c r ev x kes : c_update_pending d p i c r ev = Ok (x, kes) -> fine kes.
Proof.
  unfold c_update_pending. intros H. destruct r; try discriminate; destruct p; try discriminate;
    match type of H with match ?o with _ => _ end = _ => destruct o end; try (inv_ok H; exact fine_nil);
    inv_bind H; destruct a as [[p2 n2] k2]; inv_ok H; now apply fine_map.
Qed.
Lemma state_fine s r c i ev x kes : c_update_state d s r c i ev = Ok (x, kes) -> fine kes.
Proof.
  unfold c_update_state. intros H. destruct r as [m|m| |cr|m|m|m|lr|m|m|m|m]; try (inv_ok H; exact fine_nil);
    destruct s; try (inv_ok H; exact fine_nil).
  - destruct (try_event as_automation ev) as [e|]; [|inv_ok H; exact fine_nil]. inv_bind H. inv_ok H. now apply fine_map.
  - destruct (try_event as_layered ev) as [e|]; [|inv_ok H; exact fine_nil]. inv_bind H. destruct a as [b' k']. inv_ok H.
    destruct lr as [m|m]; cbn in E; [|inv_ok E; exact fine_nil]. inv_bind E. apply index_ok, nth_error_In in E0.
    destruct (lm_handle_event _ _ _ _) as [b2 o] eqn:El. inv_ok E. specialize (Hmods _ E0).
    destruct o as [e'|]; [|exact fine_nil]. apply fine_layer.
    destruct a; cbn in El; try discriminate; destruct e as [[j|j|ko|ko]|j ke|kk]; try discriminate;
      try (destruct (i =? j)); try discriminate; try (injection El as _ <-; exact I);
      (match type of El with (match ?x with _ => _ end) = _ => destruct x end); try discriminate; injection El as _ <-; exact I.
  - destruct (try_event as_sticky ev) as [e|]; [|inv_ok H; exact fine_nil]. inv_bind H.
    destruct (st_update_state _ _ _ _). inv_ok H. now apply fine_map.
Qed.
Lemma ctx_fine c ev c' kes : cctx_handle_event c ev = Ok (c', kes) -> fine kes.
Proof.
  intros H. apply cctx_inv in H as (k1 & k2 & k5 & S1 & S2 & _ & S4 & S5 & _ & _ & -> & _).
  unfold fine. rewrite !Forall_app. repeat split.
  - unfold step_automation in S1. destruct (try_event as_automation ev) as [e|]; [|injection S1 as _ <-; exact fine_nil].
    inv_bind S1. destruct a as [c2 k']. injection S1 as _ <-. now apply fine_map.
  - unfold step_caps_word in S2. destruct (try_event as_caps_word ev) as [e|]; [|injection S2 as _ <-; exact fine_nil].
    destruct (cw_handle_event (cx_caps_word c) e). injection S2 as _ <-. now apply fine_map.
  - unfold step_sticky in S5. destruct (try_event as_sticky ev) as [e|]; [|injection S5 as _ <-; exact fine_nil].
    inv_bind S5. destruct a as [c2 k']. injection S5 as _ <-. now apply fine_map.
Qed.

Lemma layer_switches : switches conf layer_switch.
Proof.
  split; cbn.
  - exact Htt.
  - exact Hff.
  - exact Hal.
  - intros i r H. exists r. split; [exact H|]. constructor.
  - intros i c r r' kes (r0 & H0 & Hr) H. exists r0. split; [exact H0|]. econstructor; [exact Hr|]. eapply press_leads; eassumption.
  - intros i c r p p' ev r' kes (r0 & H0 & Hr) H. exists r0. split; [exact H0|]. econstructor; [exact Hr|]. eapply decided_leads; eassumption.
  - intros i c r x kes Hh H. apply holdb_spec in Hh as (m & -> & Hm).
    apply press_modifier in H as (lm & b & e & Hm' & Hl & -> & ->). rewrite Hm in Hm'. injection Hm' as <-. cbn in Hl. injection Hl as <- <-.
    destruct (one_layer i (LeActivated l)) as [A1 A2]. cbn [layer_act] in A1. rewrite N.eqb_refl in A1.
    split; [eauto|]. split; [exact A1|exact A2].
  - intros i c r x kes Hh H.
    assert (Hdec : (exists m, r = RLayered (LyModifier m)) \/ forall m, r <> RLayered (LyModifier m)).
    { destruct r as [ | | | | | | |[m|m]| | | | ]; try (right; discriminate). left. eauto. }
    destruct Hdec as [(m & ->)|Hr]; [|apply press_other in H as [A1 A2]; [auto|exact Hr]].
    apply press_modifier in H as (lm & b & e & Hm & Hl & -> & ->). destruct (one_layer i e) as [A1 A2].
    split; [|exact A2]. left. split; [eauto|]. rewrite A1. cbn in Hh. rewrite Hm in Hh.
    apply nth_error_In in Hm. specialize (Hmods _ Hm).
    destruct lm as [x|x|x|bits|x]; cbn in Hl; injection Hl as <- <-; cbn.
    + rewrite Hh. constructor.
    + constructor.
    + destruct (N.eqb_spec x l); [contradiction|constructor].
    + destruct Hmods as [Hx|Hx]; [destruct (N.leb_spec l 31); [lia|]; rewrite andb_false_r; constructor|].
      destruct (_ && _); constructor; [exact Hx|constructor].
    + constructor.
  - intros i c r p x ev kes H. unfold c_update_pending in H. destruct r; try discriminate; destruct p; try discriminate;
      match type of H with match ?o with _ => _ end = _ => destruct o end; try (inv_ok H; exact no_acts_nil);
      inv_bind H; destruct a as [[p2 n2] k2]; inv_ok H; now apply no_acts_map.
  - intros i c r ks ks' ev kes Hg H.
    assert (Hno : holdb r = false -> no_acts kes -> (holdb r = true -> exists b, ks' = KsLayerModifier b)
      /\ at_once layer_switch kes /\ acts layer_switch kes = (if holdb r && is_release i ev then [false] else [])).
    { intros Hf [A1 A2]. rewrite Hf. split; [discriminate|]. split; [exact A2|exact A1]. }
    unfold c_update_state in H. destruct r as [m|m| |cr|m|m|m|lr|m|m|m|m]; try (apply Hno; [reflexivity|]; inv_ok H; exact no_acts_nil).
    + destruct ks; try (apply Hno; [reflexivity|]; inv_ok H; exact no_acts_nil).
      destruct (try_event as_automation ev) as [e|]; [|apply Hno; [reflexivity|]; inv_ok H; exact no_acts_nil].
      inv_bind H. inv_ok H. apply Hno; [reflexivity|]. now apply no_acts_map.
    + destruct lr as [m|m].
      2: { apply Hno; [reflexivity|]. destruct ks; try (inv_ok H; exact no_acts_nil).
           destruct (try_event as_layered ev) as [e|]; [|inv_ok H; exact no_acts_nil]. inv_bind H. destruct a as [b' k'].
           inv_ok H. cbn in E. inv_ok E. exact no_acts_nil. }
      destruct ks as [ | | | | |b| | ];
        try (apply Hno; [destruct (holdb _) eqn:Eh; [destruct (Hg eq_refl) as (b0 & Eb); discriminate|reflexivity]|inv_ok H; exact no_acts_nil]).
      destruct (try_event as_layered ev) as [e|] eqn:Et.
      2: { inv_ok H. split; [eauto|]. split; [constructor|]. destruct ev; cbn in *; try discriminate. now rewrite andb_false_r. }
      inv_bind H. destruct a as [b' k']. inv_ok H. cbn in E. inv_bind E. apply index_ok in E0. cbn [holdb]. rewrite E0.
      destruct (lm_handle_event b i e a) as [b2 o] eqn:El. inv_ok E. split; [eauto|].
      apply nth_error_In in E0. specialize (Hmods _ E0).
      assert (Ho : o = None \/ exists e', o = Some e').
      { destruct o; eauto. }
      destruct a as [x|x|x|bits|x]; cbn in El.
      * destruct ev as [[j|j|ko|ko]|j ke|kk]; cbn in Et; try (injection Et as <-);
          try (injection El as <- <-; cbn [is_release]; rewrite andb_false_r; split; [constructor|reflexivity]).
        -- injection El as <- <-. cbn [is_release]. destruct (i =? j); [|rewrite andb_false_r; split; [constructor|reflexivity]].
           destruct (one_layer i (LeDeactivated x)) as [A1 A2]. split; [exact A2|]. rewrite A1. cbn. rewrite andb_true_r.
           now destruct (x =? l).
        -- destruct (as_layered ke); [|discriminate]. injection Et as <-. injection El as <- <-. cbn [is_release]. rewrite andb_false_r.
           split; [constructor|reflexivity].
      * injection El as <- <-. split; [constructor|reflexivity].
      * assert (Hz : o = None \/ o = Some (LeActivated x) \/ o = Some (LeDeactivated x)).
        { destruct e as [[j|j|ko|ko]|j ke|kk]; destruct b; injection El as _ <-; auto. destruct (i =? j); auto. }
        destruct Hz as [->|[->| ->]]; [split; [constructor|reflexivity]| |].
        -- destruct (one_layer i (LeActivated x)) as [A1 A2]. split; [exact A2|]. rewrite A1. cbn. destruct (N.eqb_spec x l); [contradiction|reflexivity].
        -- destruct (one_layer i (LeDeactivated x)) as [A1 A2]. split; [exact A2|]. rewrite A1. cbn. destruct (N.eqb_spec x l); [contradiction|reflexivity].
      * injection El as <- <-. split; [constructor|reflexivity].
      * assert (Hz : o = None \/ o = Some (LeSetDefault x)).
        { destruct e as [[j|j|ko|ko]|j ke|kk]; injection El as _ <-; auto. destruct (i =? j); auto. }
        destruct Hz as [->| ->]; [split; [constructor|reflexivity]|].
        destruct (one_layer i (LeSetDefault x)) as [A1 A2]. split; [exact A2|]. rewrite A1. reflexivity.
    + destruct ks; try (apply Hno; [reflexivity|]; inv_ok H; exact no_acts_nil).
      destruct (try_event as_sticky ev) as [e|]; [|apply Hno; [reflexivity|]; inv_ok H; exact no_acts_nil].
      inv_bind H. destruct (st_update_state b a i e). inv_ok H. apply Hno; [reflexivity|]. now apply no_acts_map.
  - intros c ev c' kes [Hc1 Hc2] Hev H. apply cctx_inv in H as (k1 & k2 & k5 & S1 & S2 & _ & S4 & S5 & _ & _ & -> & _).
    assert (F1 : no_acts k1).
    { unfold step_automation in S1. destruct (try_event as_automation ev) as [e|]; [|injection S1 as _ <-; exact no_acts_nil].
      inv_bind S1. destruct a as [c2 k']. injection S1 as _ <-. now apply no_acts_map. }
    assert (F2 : no_acts k2).
    { unfold step_caps_word in S2. destruct (try_event as_caps_word ev) as [e|]; [|injection S2 as _ <-; exact no_acts_nil].
      destruct (cw_handle_event (cx_caps_word c) e). injection S2 as _ <-. now apply no_acts_map. }
    assert (F5 : no_acts k5).
    { unfold step_sticky in S5. destruct (try_event as_sticky ev) as [e|]; [|injection S5 as _ <-; exact no_acts_nil].
      inv_bind S5. destruct a as [c2 k']. injection S5 as _ <-. now apply no_acts_map. }
    destruct (no_acts_app _ _ F1 (no_acts_app _ _ F2 F5)) as [A1 A2].
    assert (HL : lctx c' /\ is_on (cx_layered c') l = match lact ev with Some b => b | None => is_on (cx_layered c) l end).
    { unfold step_layered, lctx in *. destruct ev as [x|j ke|kk]; cbn in S4.
      - apply (layer_input_keeps _ _ _ l) in S4 as (B1 & B2 & B3); [|exact Hc2]. cbn. rewrite B3. auto.
      - destruct ke as [e|e|e|e|e|e|e]; cbn in S4; try (injection S4 as S4; rewrite <- S4; cbn; auto; fail).
        pose proof (layer_event_spec _ _ _ S4) as (B1 & B2 & _). split; [split; [now rewrite B1|]|].
        + eapply layer_event_sticky; [exact S4| |exact Hc2]. destruct e; try exact I. exact Hev.
        + rewrite B2, Hc1. cbn. destruct e as [x|x|x|x|bits|x]; cbn.
          * rewrite N.eqb_sym. now destruct (x =? l).
          * rewrite N.eqb_sym. now destruct (x =? l).
          * cbn in Hev. destruct (N.eqb_spec l x); [congruence|reflexivity].
          * rewrite N.eqb_sym. now destruct (x =? l).
          * now destruct (_ && _).
          * reflexivity.
      - injection S4 as S4. rewrite <- S4. cbn. auto. }
    destruct HL as [HL1 HL2]. auto.
  - intros c t i. split; [reflexivity|]. auto.
  - intros x. split; [reflexivity|exact I].
  - intros x. split; [reflexivity|exact I].
  - destruct (composite_emits d) as (E1 & E2 & E3 & E4).
    assert (Hboth : forall kes, Forall (fun se => not_physical (se_event se)) kes -> fine kes ->
      Forall (fun se => not_physical (se_event se) /\ lev (se_event se)) kes).
    { intros kes A B. unfold fine in B. rewrite Forall_forall in *. auto. }
    split; [|split; [|split]]; cbn in *; intros.
    + apply Hboth; [eauto|eapply press_fine; eassumption].
    + apply Hboth; [eauto|eapply pending_fine; eassumption].
    + apply Hboth; [eauto|eapply state_fine; eassumption].
    + apply Hboth; [eauto|eapply ctx_fine; eassumption].
Qed.
End Held.
