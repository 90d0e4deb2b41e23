(** C25, C26: layered keys and layer keys. *)
From Verif Require Import BaseFacts Output Types Scheduler Keymap Sticky Layered Composite SpecLayer LayerFacts
  CompositeFacts Samples.
Local Open Scope N_scope.

(** ** C25 *)

(** A layered key becomes the key it has on the highest active layer that defines
    it, else on the default layer, else its base key. *)
Theorem C25_layered_key_acts_as : forall d ki c i k p kes,
  nth_error (kd_layered d) (N.to_nat i) = Some k ->
  c_new_pressed_key d ki c (RLayered (LyLayered i)) = Ok (p, kes) ->
  kes = [] /\ exists r, p = PkNewPressedKey (NpkKey r)
    /\ acts_as k (layer_on (cx_layered c)) (lyx_default (cx_layered c)) r.
Proof.
  intros d ki c i k p kes Hk H. cbn [c_new_pressed_key ly_new_pressed_key] in H. unfold index in H. rewrite Hk in H.
  cbn [bind] in H. destruct (lk_new_pressed_key k (cx_layered c)) as [n| |] eqn:E; try discriminate. cbn in H. inv_ok H.
  split; [reflexivity|]. pose proof E as E'. unfold lk_new_pressed_key in E'. inv_bind E'. inv_ok E'.
  eexists. split; [reflexivity|]. now apply layered_lookup.
Qed.
(** There is exactly one such key. *)
Theorem C25_meaning_unique : forall R (k : layered_key R) on default r1 r2,
  acts_as k on default r1 -> acts_as k on default r2 -> r1 = r2.
Proof. intros R k on default r1 r2. apply acts_as_fun. Qed.
(** Looking it up never panics if the key has an entry for each layer and the default layer exists. *)
Theorem C25_lookup_total : forall d ki c i k,
  nth_error (kd_layered d) (N.to_nat i) = Some k ->
  length (lk_layered k) = length (lyx_active (cx_layered c)) ->
  (forall l, lyx_default (cx_layered c) = Some l -> 1 <= l <= N.of_nat (length (lyx_active (cx_layered c)))) ->
  exists p, c_new_pressed_key d ki c (RLayered (LyLayered i)) = Ok (p, []).
Proof.
  intros d ki c i k Hk Hl Hd. destruct (layered_total k (cx_layered c) Hl Hd) as [r E].
  cbn [c_new_pressed_key ly_new_pressed_key]. unfold index. rewrite Hk. cbn [bind]. rewrite E. cbn. eauto.
Qed.

(** Layers 1 and 3 active, layer 2 the default: key 0 is D (layer 1; layer 3 is
    transparent), key 1 goes to layer 2's definition, nothing active defines it. *)
Definition layers13 : cctx :=
  mkCtx (cx_automation sample_ctx) (cx_caps_word sample_ctx) (cx_chorded sample_ctx)
    (mkLyCtx (Some 2) [Active StRegular; Inactive; Active StRegular] None)
    (cx_sticky sample_ctx) (cx_tap_dance sample_ctx) (cx_tap_hold sample_ctx).
Example C25_example :
  c_new_pressed_key sample_data 4 layers13 (RLayered (LyLayered 0)) = Ok (PkNewPressedKey (NpkKey kD), [])
  /\ c_new_pressed_key sample_data 4 layers13 (RLayered (LyLayered 1))
     = Ok (PkNewPressedKey (NpkKey (RLayered (LyLayered 0))), [])
  /\ c_new_pressed_key sample_data 4 sample_ctx (RLayered (LyLayered 0)) = Ok (PkNewPressedKey (NpkKey kC), [])
  /\ layer_on (cx_layered layers13) 3 /\ ~ layer_on (cx_layered layers13) 2.
Proof.
  repeat split; try (vm_compute; reflexivity); [discriminate|eexists; reflexivity|].
  intros [_ [s H]]. discriminate.
Qed.

(** ** C26 *)

(** After any sequence of layer events the active layers and the default layer
    are those of the set semantics. *)
Theorem C26_layer_events : forall n evs c,
  fold_res handle_layer_event evs (ly_ctx_new n) = Ok c ->
  length (lyx_active c) = n
  /\ (forall x, is_on c x = fold_left (fun on e => layer_set_step (N.of_nat n) e on) evs (fun _ => false) x)
  /\ lyx_default c = fold_left (fun d e => default_step e d) evs None.
Proof.
  intros n evs c H. apply layer_events_spec in H as (H1 & H2 & H3).
  assert (Hn : length (lyx_active (ly_ctx_new n)) = n) by apply repeat_length. rewrite Hn in *.
  split; [exact H1|]. split; [|exact H3]. intros x. rewrite H2.
  assert (E : forall es f g, (forall y, f y = g y) -> forall y,
    fold_left (fun on e => layer_set_step (N.of_nat n) e on) es f y
    = fold_left (fun on e => layer_set_step (N.of_nat n) e on) es g y).
  { induction es as [|e es IH]; intros f g Hfg y; cbn [fold_left]; [apply Hfg|]. apply IH. intros z.
    destruct e; cbn [layer_set_step]; now rewrite ?Hfg. }
  apply E. intros y. unfold is_on. cbn [ly_ctx_new lyx_active].
  destruct (nth_error (repeat Inactive n) (N.to_nat (y - 1))) as [a|] eqn:Ea; [|now rewrite andb_false_r].
  apply nth_error_In, repeat_spec in Ea. subst a. now rewrite andb_false_r.
Qed.
(** No event panics unless it names a layer that does not exist. *)
Theorem C26_layer_events_total : forall n evs,
  Forall (fun e => match names e with Some l => 1 <= l <= N.of_nat n | None => True end) evs ->
  exists c, fold_res handle_layer_event evs (ly_ctx_new n) = Ok c.
Proof.
  intros n evs H. apply layer_events_ok. cbn [ly_ctx_new lyx_active]. now rewrite repeat_length.
Qed.
(** One that does panics. *)
Theorem C26_layer_event_out_of_range : forall c e l,
  names e = Some l -> ~ (1 <= l <= N.of_nat (length (lyx_active c))) -> handle_layer_event c e = Panic.
Proof.
  intros c e l Hn Hl.
  destruct (handle_layer_event c e) as [c'| |] eqn:E; [|reflexivity|].
  - apply layer_event_spec in E as (_ & _ & _ & E). rewrite Hn in E. contradiction.
  - exfalso. destruct e; cbn in Hn; try discriminate; cbn in E;
      unfold activate, deactivate, layer_get, layer_set, update_index, index in E;
      repeat (match type of E with context [if ?b then _ else _] => destruct b
              | context [match nth_error ?x ?y with _ => _ end] => destruct (nth_error x y)
              | context [is_active ?a] => destruct (is_active a) end; cbn [bind] in E; try discriminate).
Qed.
(** Building the key that activates exactly the given layers works iff all are at
    most 30, and activating it makes exactly these active. *)
Theorem C26_set_active_layers : forall layers m,
  set_active_layers layers = Ok m ->
  Forall (fun l => l <= 30) layers
  /\ exists bits, m = LmSetActiveLayers bits /\ forall x, N.testbit bits x = true <-> In x layers.
Proof.
  intros layers m H. unfold set_active_layers in H. inv_bind H. inv_ok H. apply layer_bits_spec in E as [H1 H2].
  split; [eapply Forall_impl; [|exact H1]; cbn; lia|]. eexists. split; [reflexivity|]. intros x. rewrite H2, N.bits_0. cbn [orb].
  rewrite existsb_exists. split; [intros (y & Hy & He); apply N.eqb_eq in He; now subst|]. intros Hx. exists x. split; [exact Hx|apply N.eqb_refl].
Qed.
Theorem C26_set_active_layers_total : forall layers,
  Forall (fun l => l <= 30) layers -> exists m, set_active_layers layers = Ok m.
Proof.
  intros layers H. destruct (layer_bits_ok layers 0) as [b E]; [eapply Forall_impl; [|exact H]; cbn; lia|].
  unfold set_active_layers. rewrite E. cbn. eauto.
Qed.

(** Pressing a layer key emits the event of its kind, to be handled at once. *)
Theorem C26_press_layer_key : forall d ki c i m,
  nth_error (kd_layer_mods d) (N.to_nat i) = Some m ->
  exists b, c_new_pressed_key d ki c (RLayered (LyModifier i))
    = Ok (PkResolved (KsLayerModifier b), [immediate (EvKey ki (CeLayered (press_effect m)))])
    /\ b = match m with LmSticky _ => BhSticky | _ => BhRegular end.
Proof.
  intros d ki c i m Hm. cbn [c_new_pressed_key ly_new_pressed_key]. unfold index. rewrite Hm.
  destruct m; eexists; (split; reflexivity).
Qed.
(** Its release undoes a hold, ends a sticky layer if another key was pressed
    meanwhile, sets the default layer, and does nothing for the others. *)
Theorem C26_release_layer_key : forall d ki c i m b,
  nth_error (kd_layer_mods d) (N.to_nat i) = Some m ->
  c_update_state d (KsLayerModifier b) (RLayered (LyModifier i)) c ki (EvInput (Release ki))
  = Ok (KsLayerModifier b,
        match release_effect m (match b with BhRegular => true | BhSticky => false end) with
        | Some e => [immediate (EvKey ki (CeLayered e))]
        | None => [] end).
Proof.
  intros d ki c i m b Hm. cbn [c_update_state try_event ly_update_state]. unfold index. rewrite Hm. cbn [bind].
  destruct m, b; cbn; rewrite ?N.eqb_refl; reflexivity.
Qed.
(** While it is held it reacts to nothing else, except that a sticky layer key
    becomes a hold key when another key is pressed. *)
Theorem C26_held_layer_key : forall d ki c i m b ev,
  nth_error (kd_layer_mods d) (N.to_nat i) = Some m ->
  ev <> EvInput (Release ki) ->
  c_update_state d (KsLayerModifier b) (RLayered (LyModifier i)) c ki ev
  = match m, b, ev with
    | LmSticky l, BhSticky, EvInput (Press _) =>
        Ok (KsLayerModifier BhRegular, [immediate (EvKey ki (CeLayered (LeActivated l)))])
    | _, _, _ => Ok (KsLayerModifier b, [])
    end.
Proof.
  intros d ki c i m b ev Hm Hev. cbn [c_update_state]. destruct (try_event as_layered ev) as [e|] eqn:Ee.
  - cbn [ly_update_state]. unfold index. rewrite Hm. cbn [bind].
    assert (Hr : forall r, e = EvInput (Release r) -> (ki =? r) = false).
    { intros r ->. apply N.eqb_neq. intros <-. apply Hev. destruct ev as [ie|x e0|ke]; cbn in Ee; try discriminate; [congruence|].
      destruct (as_layered e0); discriminate. }
    destruct ev as [[r|r|r|r]|x e1|ke]; cbn in Ee; try (injection Ee as <-); try discriminate.
    + destruct m, b; reflexivity.
    + specialize (Hr r eq_refl). destruct m, b; cbn; rewrite ?Hr; reflexivity.
    + destruct m, b; reflexivity.
    + destruct m, b; reflexivity.
    + destruct (as_layered e1); [injection Ee as <-|discriminate]. destruct m, b; reflexivity.
    + destruct m, b; reflexivity.
  - destruct ev as [[r|r|r|r]|x e1|ke]; cbn in Ee; try discriminate. destruct m, b; reflexivity.
Qed.

(** A layer activated for one key: it is on until that key's release or the next
    press, and inputs change no other layer. *)
Theorem C26_sticky_layer : forall c c' l ins,
  1 <= l -> (forall x, sticky_on c x = (x =? l)) ->
  fold_res (fun c ie => ly_handle_event c (EvInput ie)) ins c = Ok c' ->
  is_on c' l = lasts (lyx_pressed c) ins
  /\ (forall x, x <> l -> is_on c' x = is_on c x) /\ lyx_default c' = lyx_default c.
Proof.
  intros c c' l ins Hl Hst H. pose proof (find_sticky_only c l Hl Hst) as Hf.
  destruct (handle_layer_inputs ins c c' l Hf Hst H) as (A & B & C & _). auto.
Qed.

(** ... counted from its activation, whatever keys were used before. *)
Theorem C26_sticky_activated : forall c c1 c' l ins,
  (forall x, sticky_on c x = true -> x = l) -> handle_layer_event c (LeStickyActivated l) = Ok c1 ->
  fold_res (fun c ie => ly_handle_event c (EvInput ie)) ins c1 = Ok c' ->
  is_on c' l = lasts None ins
  /\ (forall x, x <> l -> is_on c' x = is_on c x) /\ lyx_default c' = lyx_default c.
Proof.
  intros c c1 c' l ins Hc H1 H. cbn [handle_layer_event] in H1. inv_bind H1. injection H1 as <-.
  pose proof (layer_set_spec _ _ _ _ E) as (Hl & _ & Hn).
  assert (Hst : forall x, sticky_on (mkLyCtx (lyx_default c) a None) x = (x =? l)).
  { intros x. unfold sticky_on. cbn [lyx_active]. destruct (N.leb_spec 1 x) as [Hx|Hx]; cbn [andb].
    - rewrite Hn by exact Hx. destruct (N.eqb_spec x l) as [->|Hne]; [reflexivity|]. specialize (Hc x). unfold sticky_on in Hc.
      rewrite (proj2 (N.leb_le 1 x) Hx) in Hc. cbn [andb] in Hc.
      destruct (nth_error (lyx_active c) (N.to_nat (x - 1))) as [y|]; [|reflexivity]. destruct (is_sticky_active y); [|reflexivity]. now elim Hne; apply Hc.
    - destruct (N.eqb_spec x l); [lia|reflexivity]. }
  destruct (C26_sticky_layer _ _ l ins (proj1 Hl) Hst H) as (A & B & C). split; [exact A|]. split; [|exact C].
  intros x Hx. rewrite B by exact Hx. unfold is_on. cbn [lyx_active]. destruct (N.leb_spec 1 x) as [H1x|]; [|reflexivity]. rewrite Hn by exact H1x.
  now destruct (N.eqb_spec x l).
Qed.
Example C26_sticky_activated_example :
  let c := mkLyCtx None [Active StSticky; Inactive] (Some 4) in
  (forall x, sticky_on c x = true -> x = 1)
  /\ returns (handle_layer_event c (LeStickyActivated 1)) (fun c1 =>
       returns (fold_res (fun c ie => ly_handle_event c (EvInput ie)) [Release 4; Press 3] c1) (fun c' => is_on c' 1 = true)).
Proof.
  cbv zeta. split; [|vm_compute; reflexivity]. intros x. unfold sticky_on. destruct (N.leb_spec 1 x); [|discriminate].
  destruct (N.eqb_spec x 1) as [->|]; [reflexivity|]. destruct (N.eqb_spec x 2) as [->|]; [discriminate|].
  replace (N.to_nat (x - 1)) with (S (S (N.to_nat (x - 3)))) by lia. cbn. destruct (N.to_nat (x - 3)); discriminate.
Qed.

(** Toggle 2, hold 1, set {1,3}, release 1, default 2, then default 0. *)
Example C26_example :
  returns (fold_res handle_layer_event
     [LeToggled 2; LeActivated 1; LeSet 10; LeDeactivated 1; LeSetDefault 2] (ly_ctx_new 3)) (fun c =>
       is_on c 1 = false /\ is_on c 2 = false /\ is_on c 3 = true /\ lyx_default c = Some 2)
  /\ set_active_layers [1; 3] = Ok (LmSetActiveLayers 10)
  /\ set_active_layers [31] = Panic
  /\ handle_layer_event (ly_ctx_new 3) (LeActivated 4) = Panic.
Proof. vm_compute. repeat split; reflexivity. Qed.
Example C26_sticky_example :
  let c := mkLyCtx None [Active StRegular; Active StSticky] None in
  (forall x, sticky_on c x = (x =? 2))
  /\ returns (fold_res (fun c ie => ly_handle_event c (EvInput ie)) [Release 9; Press 3; Release 8] c) (fun c => is_on c 2 = true)
  /\ returns (fold_res (fun c ie => ly_handle_event c (EvInput ie)) [Release 9; Press 3; Release 3] c) (fun c => is_on c 2 = false /\ is_on c 1 = true).
Proof.
  cbv zeta. split; [|vm_compute; repeat split; reflexivity].
  intros x. unfold sticky_on. destruct (N.leb_spec 1 x).
  - destruct (N.eqb_spec x 1) as [->|]; [reflexivity|]. destruct (N.eqb_spec x 2) as [->|]; [reflexivity|].
    replace (N.to_nat (x - 1)) with (S (S (N.to_nat (x - 3)))) by lia. cbn. destruct (N.to_nat (x - 3)); reflexivity.
  - destruct (N.eqb_spec x 2); [lia|reflexivity].
Qed.

Print Assumptions C25_layered_key_acts_as.
Print Assumptions C25_meaning_unique.
Print Assumptions C25_lookup_total.
Print Assumptions C26_layer_events.
Print Assumptions C26_layer_events_total.
Print Assumptions C26_layer_event_out_of_range.
Print Assumptions C26_set_active_layers.
Print Assumptions C26_set_active_layers_total.
Print Assumptions C26_press_layer_key.
Print Assumptions C26_release_layer_key.
Print Assumptions C26_held_layer_key.
Print Assumptions C26_sticky_layer.
Print Assumptions C26_sticky_activated.
