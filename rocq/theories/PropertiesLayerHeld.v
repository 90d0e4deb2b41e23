(** C44: a layer switched by hold keys is active exactly while one is pressed. *)
From Verif Require Import BaseFacts Output Types Scheduler Keymap TapHold Sticky Layered Composite SpecKeymap KeymapSwitch
  CompositeFacts SpecLayer LayerFacts SpecMacroLive SpecLayerHeld LayerHeld Samples.
Local Open Scope N_scope.

Lemma is_on_off c l : ~ layer_on c l -> is_on c l = false /\ sticky_on c l = false.
Proof.
  intros H. assert (A : is_on c l = false) by (destruct (is_on c l) eqn:E; [destruct H; now apply layer_on_is_on|reflexivity]).
  split; [exact A|]. unfold is_on, sticky_on in *. destruct (1 <=? l); [|reflexivity]. cbn in *.
  destruct (nth_error _ _) as [[[|]|]|]; try reflexivity; discriminate.
Qed.
Lemma held_shape refs d n l rl (k : ckeymap) :
  held (layer_switch refs d n l rl) (km_pressed k) = true
  <-> exists i r, In (inl (i, r)) (pressed_shape k) /\ hold_key d l r.
Proof.
  unfold held, pressed_shape. rewrite existsb_exists. split.
  - intros (pi & Hi & Hh). destruct pi as [i r ks|ko]; [|discriminate]. exists i, r. split; [|now apply holdb_spec].
    apply in_map_iff. exists (PiKey i r ks). split; [reflexivity|exact Hi].
  - intros (i & r & Hi & Hh). apply in_map_iff in Hi as (pi & He & Hi). exists pi. split; [exact Hi|].
    destruct pi as [j r' ks|ko]; [|discriminate]. injection He as -> ->. now apply holdb_spec.
Qed.

(** If only hold keys activate a layer, then it is active only while one is pressed. *)
Theorem C44_layer_needs_held_key : forall refs d pos dbg l, only_hold_keys_activate d l ->
  forall fuel ops c k, ~ layer_on (cx_layered c) l -> ~ In OpInit ops ->
  run_ops (cconf refs d pos dbg) fuel ops (km_new c) = Ok k ->
  layer_on (cx_layered (km_ctx k)) l ->
  exists i r, In (inl (i, r)) (pressed_shape k) /\ hold_key d l r.
Proof.
  intros refs d pos dbg l Hm fuel ops c k Hc Hn H Hl. apply is_on_off in Hc as [Hc1 Hc2].
  set (rl := fun f h : bool => f = true -> h = true).
  assert (HS : switches (cconf refs d pos dbg) (layer_switch refs d (length (lyx_active (cx_layered c))) l rl)).
  { apply layer_switches; unfold rl; auto. intros m Hi. specialize (Hm m Hi). destruct m; auto.
    destruct Hm as [Hm|Hm]; [now left|right]. unfold keeps. intros. congruence. }
  assert (Hr : rest (layer_switch refs d (length (lyx_active (cx_layered c))) l rl) k).
  { eapply run_rest; [exact HS|exact Hn| |exact H]. eapply new_rest; [exact HS|split; [reflexivity|exact Hc2]|exact Hc1]. }
  apply rest_rel in Hr. eapply held_shape. apply Hr. cbn. now apply layer_on_is_on.
Qed.
Print Assumptions C44_layer_needs_held_key.

(** If only hold keys deactivate a layer and they are all at one index, then it is
    active as long as one is pressed. *)
Theorem C44_held_key_keeps_layer : forall refs d pos dbg l i, only_hold_keys_deactivate d l -> held_only_at refs d l i ->
  forall fuel ops c k, ~ layer_on (cx_layered c) l -> ~ In OpInit ops ->
  run_ops (cconf refs d pos dbg) fuel ops (km_new c) = Ok k ->
  forall j r, In (inl (j, r)) (pressed_shape k) -> hold_key d l r ->
  layer_on (cx_layered (km_ctx k)) l.
Proof.
  intros refs d pos dbg l i0 Hm Ha fuel ops c k Hc Hn H j r Hj Hr. apply is_on_off in Hc as [Hc1 Hc2].
  set (rl := fun f h : bool => h = true -> f = true).
  assert (HS : switches (cconf refs d pos dbg) (layer_switch refs d (length (lyx_active (cx_layered c))) l rl)).
  { apply layer_switches; unfold rl; auto.
    - intros m Hi. specialize (Hm m Hi). destruct m; auto.
      destruct Hm as [Hm|Hm]; [now left|right]. unfold keeps. intros. congruence.
    - right. intros i1 j1 r1 r2 (q1 & A1 & B1) C1 (q2 & A2 & B2) C2. apply holdb_spec in C1, C2.
      rewrite (Ha _ _ _ A1 B1 C1), (Ha _ _ _ A2 B2 C2). reflexivity. }
  assert (Hk : rest (layer_switch refs d (length (lyx_active (cx_layered c))) l rl) k).
  { eapply run_rest; [exact HS|exact Hn| |exact H]. eapply new_rest; [exact HS|split; [reflexivity|exact Hc2]|exact Hc1]. }
  apply rest_rel in Hk. apply layer_on_is_on. apply Hk. apply held_shape. eauto.
Qed.
Print Assumptions C44_held_key_keeps_layer.

(** With nothing but hold keys for every layer, a layered key pressed while no
    other key is pressed does what it does on the default or the base layer. *)
Theorem C44_base_when_nothing_held : forall refs d pos dbg, (forall l, only_hold_keys_activate d l) ->
  forall fuel ops c k, (forall l, ~ layer_on (cx_layered c) l) -> ~ In OpInit ops ->
  run_ops (cconf refs d pos dbg) fuel ops (km_new c) = Ok k ->
  pressed_keys_of k = [] ->
  forall ki m key p kes, nth_error (kd_layered d) (N.to_nat m) = Some key ->
  c_new_pressed_key d ki (km_ctx k) (RLayered (LyLayered m)) = Ok (p, kes) ->
  exists r, p = PkNewPressedKey (NpkKey r) /\ acts_as key (fun _ => False) (lyx_default (cx_layered (km_ctx k))) r.
Proof.
  intros refs d pos dbg Hm fuel ops c k Hc Hn H Hp ki m key p kes Hkey Hnp.
  cbn [c_new_pressed_key ly_new_pressed_key] in Hnp. unfold index in Hnp. rewrite Hkey in Hnp.
  cbn [bind] in Hnp. destruct (lk_new_pressed_key key (cx_layered (km_ctx k))) as [n| |] eqn:E; try discriminate. cbn in Hnp. inv_ok Hnp.
  pose proof E as E'. unfold lk_new_pressed_key in E'. inv_bind E'. inv_ok E'.
  eexists. split; [reflexivity|]. apply layered_lookup in E.
  assert (Hoff : forall l, ~ layer_on (cx_layered (km_ctx k)) l).
  { intros l Hl. destruct (C44_layer_needs_held_key _ _ _ _ _ (Hm l) _ _ _ _ (Hc l) Hn H Hl) as (i & r & Hi & _).
    unfold pressed_shape in Hi. unfold pressed_keys_of in Hp. apply in_map_iff in Hi as (pi & He & Hi).
    destruct pi as [j r' ks|ko]; [|discriminate]. cbn in He.
    assert (Hin : In j (pressed_keys_of k)).
    { unfold pressed_keys_of. clear -Hi. induction (km_pressed k) as [|x t IH]; [destruct Hi|].
      destruct Hi as [->|Hi]; [now left|]. cbn. destruct x; [right|]; auto. }
    unfold pressed_keys_of in Hin. rewrite Hp in Hin. destruct Hin. }
  inversion E as [l r Hl _ _|l r Ho Hd Hdef|Ho Hd]; subst.
  - destruct (Hoff _ Hl).
  - eapply on_default; [intros ? ? []|exact Hd|exact Hdef].
  - apply on_base; [intros ? ? []|exact Hd].
Qed.
Print Assumptions C44_base_when_nothing_held.

(** Key 0 holds layer 1; key 1 is A when tapped and holds layer 2 when held. *)
Definition hold_data : key_data :=
  mkData (kd_automation sample_data) (kd_callback sample_data) (kd_chorded sample_data) (kd_chorded_aux sample_data)
    (kd_keyboard sample_data) [LmHold 1; LmHold 2; LmDefault 1]
    [mkLayeredKey kC [Some kD; Some kB; None]] (kd_sticky sample_data)
    (kd_tap_dance sample_data) [mkTapHold kA (RLayered (LyModifier 1))].
Definition hold_refs : list ref :=
  [RLayered (LyModifier 0); RTapHold 0; RLayered (LyModifier 2); RLayered (LyLayered 0); kA].
Definition hold_conf := cconf hold_refs hold_data bs_std false.
Definition hold_ctx := ctx_from_config quick_config.

Lemma hold_data_activate l : only_hold_keys_activate hold_data l.
Proof. intros m [<-|[<-|[<-|[]]]]; exact I. Qed.
Lemma hold_data_deactivate l : only_hold_keys_deactivate hold_data l.
Proof. intros m [<-|[<-|[<-|[]]]]; exact I. Qed.
Lemma hold_ctx_off l : ~ layer_on (cx_layered hold_ctx) l.
Proof.
  intros [_ [s H]]. cbn in H. destruct (N.to_nat (l - 1)) as [|[|[|[|m]]]]; discriminate.
Qed.
Lemma reach_once d r r' : (forall r1, leads d r r1 -> forall r2, ~ leads d r1 r2) -> reaches d r r' -> r' = r \/ leads d r r'.
Proof.
  intros H Hr. induction Hr as [|r1 r2 Hr [->|IH] Hl]; [now left|now right|]. destruct (H _ IH _ Hl).
Qed.
Lemma hold_data_leads r r' : In r hold_refs -> leads hold_data r r' ->
  In r' [kA; kB; kC; kD] \/ r = RTapHold 0 /\ r' = RLayered (LyModifier 1).
Proof.
  intros Hi Hl. repeat (destruct Hi as [<-|Hi]); try (destruct Hi); inversion Hl as [i k ? Hk Hin|i k ? Hk Hin|i k ? Hk Hin|i k ? Hk Hin|i k Hk]; subst;
    try discriminate; cbn in Hk; injection Hk as <-; cbn in Hin.
  - destruct Hin as [->| ->]; [left; cbn; auto|right; auto].
  - left. cbn. intuition.
Qed.
Lemma hold_only_2 : held_only_at hold_refs hold_data 2 1.
Proof.
  intros j r r' Hj Hr Hh. pose proof (nth_error_In _ _ Hj) as Hi.
  apply reach_once in Hr.
  2: { intros r1 H1 r2 H2. apply hold_data_leads in H1 as [H1|[_ ->]]; [|inversion H2|exact Hi].
       repeat (destruct H1 as [<-|H1]); try destruct H1; inversion H2. }
  destruct Hh as (m & -> & Hm).
  destruct Hr as [<-|Hr].
  - cbn in Hm. exfalso. repeat (destruct Hi as [Hi|Hi]; [try discriminate; injection Hi as <-; discriminate|]). destruct Hi.
  - apply hold_data_leads in Hr as [Hr|[-> _]]; [|clear Hi|exact Hi].
    + exfalso. repeat (destruct Hr as [Hr|Hr]; [discriminate|]). destruct Hr.
    + destruct (N.to_nat j) as [|[|[|[|[|m']]]]] eqn:E; try discriminate; [lia|]. destruct m'; discriminate.
Qed.

(** Layer 2 is on while key 1 is held past the timeout, and off after its
    release; meanwhile key 3 is B, afterwards C. *)
Example C44_example :
  (forall l, only_hold_keys_activate hold_data l) /\ (forall l, only_hold_keys_deactivate hold_data l)
  /\ held_only_at hold_refs hold_data 2 1 /\ (forall l, ~ layer_on (cx_layered hold_ctx) l)
  /\ returns (run_ops hold_conf 60 ([P 1] ++ ticks 20 ++ [P 3] ++ ticks 2) (km_new hold_ctx)) (fun k =>
       is_on (cx_layered (km_ctx k)) 2 = true /\ pressed_shape k = [inl (1, RLayered (LyModifier 1)); inl (3, kB)]
       /\ returns (run_ops hold_conf 60 ([Rl 1; Rl 3] ++ ticks 4) k) (fun k' =>
            is_on (cx_layered (km_ctx k')) 2 = false /\ pressed_keys_of k' = []
            /\ c_new_pressed_key hold_data 3 (km_ctx k') (RLayered (LyLayered 0)) = Ok (PkNewPressedKey (NpkKey kC), []))).
Proof.
  split; [exact hold_data_activate|]. split; [exact hold_data_deactivate|]. split; [exact hold_only_2|].
  split; [exact hold_ctx_off|]. vm_compute. repeat split; reflexivity.
Qed.

(** With two keys for the same layer, releasing one turns the layer off under the
    other one. *)
Theorem C44_held_key_keeps_layer_refuted :
  ~ (forall refs d pos dbg l, only_hold_keys_deactivate d l ->
     forall fuel ops c k, ~ layer_on (cx_layered c) l -> ~ In OpInit ops ->
     run_ops (cconf refs d pos dbg) fuel ops (km_new c) = Ok k ->
     forall j r, In (inl (j, r)) (pressed_shape k) -> hold_key d l r ->
     layer_on (cx_layered (km_ctx k)) l).
Proof.
  intros H.
  assert (E : returns (run_ops (cconf [RLayered (LyModifier 0); RLayered (LyModifier 0)] hold_data bs_std false) 60
                ([P 0; OpTick; OpTick; P 1; OpTick; OpTick; Rl 0; OpTick; OpTick]) (km_new hold_ctx)) (fun k =>
                pressed_shape k = [inl (1, RLayered (LyModifier 0))] /\ is_on (cx_layered (km_ctx k)) 1 = false))
    by (vm_compute; repeat split; reflexivity).
  destruct (run_ops _ _ _ _) as [k| |] eqn:Er in E; try contradiction. destruct E as [E1 E2].
  assert (Hl : layer_on (cx_layered (km_ctx k)) 1).
  { eapply H; [apply hold_data_deactivate|apply hold_ctx_off| |exact Er| |].
    - cbn. intuition discriminate.
    - rewrite E1. left. reflexivity.
    - exists 0. split; reflexivity. }
  apply layer_on_is_on in Hl. congruence.
Qed.
Print Assumptions C44_held_key_keeps_layer_refuted.

(** [init] forgets the pressed keys but not the layers they hold. *)
Theorem C44_layer_needs_held_key_after_init_refuted :
  ~ (forall refs d pos dbg l, only_hold_keys_activate d l ->
     forall fuel ops c k, ~ layer_on (cx_layered c) l ->
     run_ops (cconf refs d pos dbg) fuel ops (km_new c) = Ok k ->
     layer_on (cx_layered (km_ctx k)) l ->
     exists i r, In (inl (i, r)) (pressed_shape k) /\ hold_key d l r).
Proof.
  intros H.
  assert (E : returns (run_ops hold_conf 60 ([P 0; OpTick; OpTick; OpInit; Rl 0; OpTick; OpTick]) (km_new hold_ctx)) (fun k =>
                pressed_shape k = [] /\ is_on (cx_layered (km_ctx k)) 1 = true))
    by (vm_compute; repeat split; reflexivity).
  destruct (run_ops _ _ _ _) as [k| |] eqn:Er in E; try contradiction. destruct E as [E1 E2].
  apply layer_on_is_on in E2. destruct (H _ _ _ _ 1 (hold_data_activate 1) _ _ _ _ (hold_ctx_off 1) Er E2) as (i & r & Hi & _).
  rewrite E1 in Hi. destruct Hi.
Qed.
Print Assumptions C44_layer_needs_held_key_after_init_refuted.
