(** Lemmas about layers. *)
From Verif Require Import BaseFacts Output Types Sticky Layered SpecLayer.
Local Open Scope N_scope.

Lemma layer_on_is_on c l : layer_on c l <-> is_on c l = true.
Proof.
  unfold layer_on, is_on. rewrite andb_true_iff, N.leb_le. split; intros [H1 H2]; (split; [exact H1|]).
  - destruct H2 as [s ->]. reflexivity.
  - destruct (nth_error _ _) as [[s|]|]; [eauto|discriminate..].
Qed.

(** ** The list of active layers: exactly those, from the highest down *)
Lemma enum_active_in ls : forall i l, In l (enum_active i ls) <->
  i < l /\ exists s, nth_error ls (N.to_nat (l - 1 - i)) = Some (Active s).
Proof.
  induction ls as [|a ls IH]; intros i l; cbn [enum_active].
  - split; [intros []|]. intros (_ & s & H). destruct (N.to_nat _); discriminate.
  - assert (Hs : forall l, i + 1 < l -> N.to_nat (l - 1 - i) = S (N.to_nat (l - 1 - (i + 1)))) by lia.
    assert (H0 : N.to_nat (i + 1 - 1 - i) = O) by lia.
    destruct (is_active a) eqn:Ea; cbn [In]; rewrite IH.
    + split.
      * intros [<-|(Hl & s & H)].
        -- split; [lia|]. rewrite H0. destruct a as [s|]; [exists s; reflexivity|discriminate].
        -- split; [lia|]. rewrite Hs by lia. eauto.
      * intros (Hl & s & H). destruct (N.eq_dec l (i + 1)) as [->|Hn]; [now left|right].
        split; [lia|]. rewrite Hs in H by lia. eauto.
    + split.
      * intros (Hl & s & H). split; [lia|]. rewrite Hs by lia. eauto.
      * intros (Hl & s & H). destruct (N.eq_dec l (i + 1)) as [->|Hn].
        -- rewrite H0 in H. injection H as ->. discriminate.
        -- split; [lia|]. rewrite Hs in H by lia. eauto.
Qed.
Lemma active_layers_in c l : In l (active_layers (lyx_active c)) <-> layer_on c l.
Proof.
  unfold active_layers. rewrite <- in_rev, enum_active_in. unfold layer_on.
  rewrite N.sub_0_r. split; intros [H1 H2]; split; auto; lia.
Qed.
(** In descending order. *)
Fixpoint descending (l : list N) : Prop :=
  match l with [] => True | x :: t => Forall (fun y => y < x) t /\ descending t end.
Lemma enum_active_desc ls : forall i, descending (rev (enum_active i ls)).
Proof.
  assert (A : forall l x, descending l -> Forall (fun y => x < y) l -> descending (l ++ [x])).
  { induction l as [|y l IH]; intros x H1 H2; cbn; [auto|]. destruct H1 as [H1 H1']. inversion H2; subst.
    split; [|auto]. apply Forall_app. auto. }
  induction ls as [|a ls IH]; intros i; cbn [enum_active]; [exact I|].
  destruct (is_active a); [|apply IH]. cbn [rev]. apply A; [apply IH|]. apply Forall_rev, Forall_forall.
  intros x Hx. apply enum_active_in in Hx as [Hx _]. lia.
Qed.

Lemma first_defined_spec {R} (keys : list (option R)) ls o : descending ls -> Forall (fun l => 1 <= l) ls ->
  first_defined keys ls = Ok o ->
  match o with
  | Some (l, r) => In l ls /\ nth_error keys (N.to_nat (l - 1)) = Some (Some r)
      /\ (forall l' r', In l' ls -> nth_error keys (N.to_nat (l' - 1)) = Some (Some r') -> l' <= l)
  | None => forall l r, In l ls -> nth_error keys (N.to_nat (l - 1)) <> Some (Some r)
  end.
Proof.
  induction ls as [|l ls IH]; cbn [first_defined descending]; intros Hd Hp H.
  - inv_ok H. intros l r [].
  - destruct Hd as [Hd1 Hd2]. inversion Hp as [|? ? Hl Hp']; subst. inv_bind H. unfold layer_key, index in E.
    destruct (N.eqb_spec l 0); [discriminate|]. destruct (nth_error keys (N.to_nat (l - 1))) as [x|] eqn:En; [|discriminate].
    inv_ok E. destruct a as [r|].
    + inv_ok H. split; [now left|]. split; [exact En|]. intros l' r' [<-|Hin] _; [lia|].
      rewrite Forall_forall in Hd1. apply Hd1 in Hin. lia.
    + specialize (IH Hd2 Hp' H). destruct o as [[l2 r2]|].
      * destruct IH as (A & B & C). split; [now right|]. split; [exact B|]. intros l' r' [<-|Hin] Hn; [congruence|eauto].
      * intros l' r' [<-|Hin] Hn; [congruence|]. eapply IH; eauto.
Qed.

Lemma layered_lookup {R} (k : layered_key R) c r : lk_new_pressed_key k c = Ok (NpkKey r) ->
  acts_as k (layer_on c) (lyx_default c) r.
Proof.
  unfold lk_new_pressed_key, highest_active_key. intros H. inv_bind H. injection H as Hr. inv_bind E.
  assert (Hpos : Forall (fun l => 1 <= l) (active_layers (lyx_active c))).
  { apply Forall_forall. intros l Hl. apply active_layers_in in Hl as [Hl _]. exact Hl. }
  apply first_defined_spec in E0; [|apply enum_active_desc|exact Hpos]. destruct a0 as [[l r']|].
  - inv_ok E. destruct E0 as (A & B & C). apply active_layers_in in A. destruct (A) as [A1 _].
    apply (on_layer _ _ _ l); [exact A|now split|]. intros l' r2 H1 [H2 H3]. apply active_layers_in in H1. eauto.
  - assert (Hno : forall l' r', layer_on c l' -> ~ defines k l' r').
    { intros l' r' H1 [H2 H3]. apply active_layers_in in H1. eapply E0; eauto. }
    destruct (lyx_default c) as [l|] eqn:Ed.
    + inv_bind E. unfold layer_key, index in E1. destruct (N.eqb_spec l 0); [discriminate|].
      destruct (nth_error (lk_layered k) (N.to_nat (l - 1))) as [x|] eqn:En; [|discriminate]. inv_ok E1.
      destruct a0 as [r'|]; inv_ok E.
      * apply (on_default _ _ _ l); [exact Hno|reflexivity|]. split; [lia|exact En].
      * apply on_base; [exact Hno|]. intros l2 r2 H1 [_ H2]. injection H1 as <-. congruence.
    + inv_ok E. apply on_base; [exact Hno|discriminate].
Qed.

Lemma acts_as_fun {R} (k : layered_key R) on d r1 r2 : acts_as k on d r1 -> acts_as k on d r2 -> r1 = r2.
Proof.
  intros [l r A B C|l r A B C|A B] [l' r' A' B' C'|l' r' A' B' C'|A' B']; try (exfalso; eapply A; eassumption);
    try (exfalso; eapply A'; eassumption); try (exfalso; eapply B; eassumption); try (exfalso; eapply B'; eassumption).
  - assert (l = l') as <- by (apply N.le_antisymm; eauto). destruct B as [_ B], B' as [_ B']. congruence.
  - assert (l = l') as <- by congruence. destruct C as [_ C], C' as [_ C']. congruence.
  - reflexivity.
Qed.

(** The lookup returns a key if the key has an entry for each layer and the
    default layer is one of them. *)
Lemma layered_total {R} (k : layered_key R) c :
  length (lk_layered k) = length (lyx_active c) ->
  (forall l, lyx_default c = Some l -> 1 <= l <= N.of_nat (length (lyx_active c))) ->
  exists r, lk_new_pressed_key k c = Ok (NpkKey r).
Proof.
  intros Hlen Hdef. unfold lk_new_pressed_key, highest_active_key.
  assert (Hidx : forall l, 1 <= l <= N.of_nat (length (lyx_active c)) -> exists o, layer_key (lk_layered k) l = Ok o).
  { intros l Hl. unfold layer_key, index. destruct (N.eqb_spec l 0); [lia|].
    destruct (nth_error _ _) eqn:En; [eauto|]. apply nth_error_None in En. lia. }
  assert (Hfd : forall ls, Forall (fun l => 1 <= l <= N.of_nat (length (lyx_active c))) ls ->
            exists o, first_defined (lk_layered k) ls = Ok o).
  { induction ls as [|l ls IH]; intros H; cbn; [eauto|]. inversion H; subst. destruct (Hidx l) as [o Ho]; [assumption|].
    rewrite Ho. cbn. destruct o; eauto. }
  destruct (Hfd (active_layers (lyx_active c))) as [o Ho].
  { apply Forall_forall. intros l Hl. apply active_layers_in in Hl as (H1 & s & H2). split; [exact H1|].
    assert (N.to_nat (l - 1) < length (lyx_active c))%nat by (apply nth_error_Some; congruence). lia. }
  rewrite Ho. cbn. destruct o as [[l r]|]; cbn; [eauto|].
  destruct (lyx_default c) as [l|]; cbn; [|eauto]. destruct (Hidx l) as [x Hx]; [auto|]. rewrite Hx. cbn. eauto.
Qed.

(** ** Layer events *)
Lemma set_nth_length {A} (l : list A) n x : length (set_nth l n x) = length l.
Proof. revert n; induction l as [|y l IH]; intros [|n]; cbn; auto. Qed.
Lemma nth_set_nth {A} (l : list A) n x m : (n < length l)%nat ->
  nth_error (set_nth l n x) m = if (m =? n)%nat then Some x else nth_error l m.
Proof.
  revert n m. induction l as [|y l IH]; intros [|n] [|m] H; cbn in *; try lia; try reflexivity. apply IH. lia.
Qed.

Lemma layer_set_spec ls l a ls' : layer_set ls l a = Ok ls' ->
  1 <= l <= N.of_nat (length ls) /\ length ls' = length ls
  /\ forall x, 1 <= x -> nth_error ls' (N.to_nat (x - 1)) = if x =? l then Some a else nth_error ls (N.to_nat (x - 1)).
Proof.
  unfold layer_set, update_index. destruct (N.eqb_spec l 0); [discriminate|].
  destruct (Nat.ltb_spec (N.to_nat (l - 1)) (length ls)); [|discriminate]. intros H0. inv_ok H0.
  split; [lia|]. split; [apply set_nth_length|]. intros x Hx. rewrite nth_set_nth by assumption.
  destruct (N.eqb_spec x l), (Nat.eqb_spec (N.to_nat (x - 1)) (N.to_nat (l - 1))); try reflexivity; subst; lia.
Qed.
Lemma layer_set_ok ls l a : 1 <= l <= N.of_nat (length ls) -> exists ls', layer_set ls l a = Ok ls'.
Proof.
  intros H. unfold layer_set, update_index. destruct (N.eqb_spec l 0); [lia|].
  destruct (Nat.ltb_spec (N.to_nat (l - 1)) (length ls)); [eauto|lia].
Qed.

Lemma set_layers_spec bits : forall m s ls, (1 <= s)%nat -> (s + m <= S (length ls))%nat ->
  exists ls', fold_res (set_one bits) (seq s m) ls = Ok ls'
  /\ length ls' = length ls
  /\ forall x, 1 <= x -> nth_error ls' (N.to_nat (x - 1))
       = if (N.of_nat s <=? x) && (x <? N.of_nat (s + m))
         then Some (if N.testbit bits x then Active StRegular else Inactive)
         else nth_error ls (N.to_nat (x - 1)).
Proof.
  induction m as [|m IH]; intros s ls Hs Hm.
  - exists ls. split; [reflexivity|]. split; [reflexivity|]. intros x Hx.
    destruct (N.leb_spec (N.of_nat s) x), (N.ltb_spec x (N.of_nat (s + 0))); cbn; try reflexivity; lia.
  - cbn [seq fold_res]. set (a := if N.testbit bits (N.of_nat s) then Active StRegular else Inactive).
    assert (E : set_one bits ls s = layer_set ls (N.of_nat s) a).
    { unfold set_one, a, activate, deactivate. destruct (N.testbit _ _); reflexivity. }
    rewrite E. destruct (layer_set_ok ls (N.of_nat s) a) as [ls1 E1]; [lia|]. rewrite E1. cbn [bind].
    apply layer_set_spec in E1 as (_ & Hl1 & Hn1).
    destruct (IH (S s) ls1) as (ls' & H1 & H2 & H3); [lia|lia|]. exists ls'. split; [exact H1|]. split; [congruence|].
    intros x Hx. rewrite H3, Hn1 by exact Hx.
    destruct (N.leb_spec (N.of_nat (S s)) x), (N.ltb_spec x (N.of_nat (S s + m))), (N.leb_spec (N.of_nat s) x),
      (N.ltb_spec x (N.of_nat (s + S m))), (N.eqb_spec x (N.of_nat s)); cbn [andb]; try lia; try reflexivity.
    unfold a. now subst x.
Qed.

Lemma layer_event_spec c e c' : handle_layer_event c e = Ok c' ->
  length (lyx_active c') = length (lyx_active c)
  /\ (forall x, is_on c' x = layer_set_step (N.of_nat (length (lyx_active c))) e (is_on c) x)
  /\ lyx_default c' = default_step e (lyx_default c)
  /\ match names e with Some l => 1 <= l <= N.of_nat (length (lyx_active c)) | None => True end.
Proof.
  assert (Hone : forall l a ls' d p f, layer_set (lyx_active c) l a = Ok ls' ->
    (forall x, f x = if x =? l then is_active a else is_on c x) ->
    length (lyx_active (mkLyCtx d ls' p)) = length (lyx_active c)
    /\ (forall x, is_on (mkLyCtx d ls' p) x = f x) /\ 1 <= l <= N.of_nat (length (lyx_active c))).
  { intros l a ls' d p f H Hf. apply layer_set_spec in H as (H1 & H2 & H3). split; [exact H2|]. split; [|exact H1].
    intros x. rewrite Hf. unfold is_on. cbn [lyx_active]. destruct (N.leb_spec 1 x); cbn [andb].
    - rewrite H3 by assumption. destruct (x =? l); reflexivity.
    - destruct (N.eqb_spec x l); [lia|reflexivity]. }
  destruct e as [l|l|l|l|bits|l]; cbn [handle_layer_event layer_set_step names default_step]; intros H.
  - inv_bind H. inv_ok H. apply (Hone l (Active StRegular) a (lyx_default c) (lyx_pressed c) (fun x => (x =? l) || is_on c x)) in E as (A & B & C);
      [auto|]. intros x. destruct (x =? l); reflexivity.
  - inv_bind H. inv_ok H. apply (Hone l Inactive a (lyx_default c) (lyx_pressed c) (fun x => negb (x =? l) && is_on c x)) in E as (A & B & C);
      [auto|]. intros x. destruct (x =? l); reflexivity.
  - inv_bind H. inv_bind H. inv_ok H.
    assert (Ea : is_active a = is_on c l).
    { unfold layer_get, index in E. unfold is_on. destruct (N.eqb_spec l 0); [discriminate|].
      destruct (N.leb_spec 1 l); [|lia]. destruct (nth_error _ _) in E |- *; [inv_ok E; reflexivity|discriminate]. }
    assert (El : layer_set (lyx_active c) l (if is_active a then Inactive else Active StRegular) = Ok a0)
      by (destruct (is_active a); exact E0).
    apply (Hone l _ a0 (lyx_default c) (lyx_pressed c) (fun x => if x =? l then negb (is_on c x) else is_on c x)) in El as (A & B & C).
    + auto.
    + intros x. destruct (N.eqb_spec x l) as [->|]; [|reflexivity]. rewrite <- Ea. destruct (is_active a); reflexivity.
  - inv_bind H. inv_ok H. apply (Hone l (Active StSticky) a (lyx_default c) None (fun x => (x =? l) || is_on c x)) in E as (A & B & C);
      [auto|]. intros x. destruct (x =? l); reflexivity.
  - inv_bind H. inv_ok H. unfold set_layers in E.
    destruct (set_layers_spec bits (Nat.min (length (lyx_active c)) MAX_BITSET_LAYER) 1 (lyx_active c)) as (ls & H1 & H2 & H3);
      [lia|lia|]. rewrite H1 in E. inv_ok E. split; [exact H2|]. split; [|auto]. intros x. unfold is_on. cbn [lyx_active].
    destruct (N.leb_spec 1 x); cbn [andb]; [|reflexivity]. rewrite H3 by assumption. unfold MAX_BITSET_LAYER.
    destruct (N.leb_spec (N.of_nat 1) x), (N.ltb_spec x (N.of_nat (1 + Nat.min (length (lyx_active c)) 31))),
      (N.leb_spec x (N.of_nat (length (lyx_active c)))), (N.leb_spec x 31); cbn [andb]; try lia; try reflexivity.
    destruct (N.testbit bits x); reflexivity.
  - inv_ok H. split; [reflexivity|]. split; [reflexivity|]. split; [|exact I]. cbn. destruct l; reflexivity.
Qed.
Lemma layer_event_ok c e :
  match names e with Some l => 1 <= l <= N.of_nat (length (lyx_active c)) | None => True end ->
  exists c', handle_layer_event c e = Ok c'.
Proof.
  destruct e as [l|l|l|l|bits|l]; cbn; intros H.
  - destruct (layer_set_ok (lyx_active c) l (Active StRegular) H) as [ls E]. unfold activate. rewrite E. cbn. eauto.
  - destruct (layer_set_ok (lyx_active c) l Inactive H) as [ls E]. unfold deactivate. rewrite E. cbn. eauto.
  - unfold layer_get, index. destruct (N.eqb_spec l 0); [lia|].
    destruct (nth_error _ _) as [a|] eqn:En; [|apply nth_error_None in En; lia]. cbn.
    destruct (is_active a); unfold activate, deactivate.
    + destruct (layer_set_ok (lyx_active c) l Inactive H) as [ls E]. rewrite E. cbn. eauto.
    + destruct (layer_set_ok (lyx_active c) l (Active StRegular) H) as [ls E]. rewrite E. cbn. eauto.
  - destruct (layer_set_ok (lyx_active c) l (Active StSticky) H) as [ls E]. unfold activate. rewrite E. cbn. eauto.
  - destruct (set_layers_spec bits (Nat.min (length (lyx_active c)) MAX_BITSET_LAYER) 1 (lyx_active c)) as (ls & H1 & _);
      [lia|lia|]. unfold set_layers. rewrite H1. cbn. eauto.
  - eauto.
Qed.

(** ** Histories of layer events *)
Lemma layer_events_spec evs : forall c c', fold_res handle_layer_event evs c = Ok c' ->
  length (lyx_active c') = length (lyx_active c)
  /\ (forall x, is_on c' x = fold_left (fun on e => layer_set_step (N.of_nat (length (lyx_active c))) e on) evs (is_on c) x)
  /\ lyx_default c' = fold_left (fun d e => default_step e d) evs (lyx_default c).
Proof.
  induction evs as [|e evs IH]; intros c c' H; cbn [fold_res fold_left] in *; [inv_ok H; auto|]. inv_bind H.
  apply layer_event_spec in E as (H1 & H2 & H3 & _). apply IH in H as (H4 & H5 & H6). rewrite H1 in *.
  split; [exact H4|]. split; [|now rewrite <- H3]. intros x. rewrite H5. clear - H2.
  assert (X : forall evs f g, (forall y, f y = g y) -> forall y,
    fold_left (fun on e => layer_set_step (N.of_nat (length (lyx_active c))) e on) evs f y
    = fold_left (fun on e => layer_set_step (N.of_nat (length (lyx_active c))) e on) evs g y).
  { induction evs0 as [|e0 l IH]; intros f g Hfg y; cbn [fold_left]; [apply Hfg|]. apply IH. intros z. unfold layer_set_step.
    destruct e0; rewrite ?Hfg; reflexivity. }
  apply X, H2.
Qed.
Lemma layer_events_ok evs : forall c,
  Forall (fun e => match names e with Some l => 1 <= l <= N.of_nat (length (lyx_active c)) | None => True end) evs ->
  exists c', fold_res handle_layer_event evs c = Ok c'.
Proof.
  induction evs as [|e evs IH]; intros c H; cbn; [eauto|]. inversion H as [|? ? He Hevs]; subst.
  destruct (layer_event_ok c e He) as [c1 E]. rewrite E. cbn. apply IH. apply layer_event_spec in E as (-> & _). exact Hevs.
Qed.

(** Which layers [set_active_layers] names. *)
Lemma layer_bits_spec layers : forall acc bits, layer_bits layers acc = Ok bits ->
  Forall (fun l => l < 31) layers /\ forall x, N.testbit bits x = N.testbit acc x || existsb (N.eqb x) layers.
Proof.
  induction layers as [|l t IH]; intros acc bits H; cbn [layer_bits] in H.
  - inv_ok H. split; [constructor|]. intros. cbn. now rewrite orb_false_r.
  - unfold MAX_BITSET_LAYER in H. destruct (N.ltb_spec l (N.of_nat 31)); [|discriminate]. apply IH in H as [H1 H2]. split; [constructor; assumption|].
    intros x. rewrite H2, N.lor_spec, N.shiftl_1_l, N.pow2_bits_eqb. cbn [existsb]. rewrite <- orb_assoc. do 2 f_equal.
    apply N.eqb_sym.
Qed.
Lemma layer_bits_ok layers : forall acc, Forall (fun l => l < 31) layers -> exists bits, layer_bits layers acc = Ok bits.
Proof.
  induction layers as [|l t IH]; intros acc H; cbn; [eauto|]. inversion H; subst. destruct (N.ltb_spec l 31); [|lia]. now apply IH.
Qed.

(** ** Sticky layers: inputs touch nothing else *)
Lemma find_sticky_spec ls : forall i l, find_sticky i ls = Some l ->
  i < l /\ nth_error ls (N.to_nat (l - 1 - i)) = Some (Active StSticky)
  /\ forall l', i < l' < l -> nth_error ls (N.to_nat (l' - 1 - i)) <> Some (Active StSticky).
Proof.
  induction ls as [|a ls IH]; intros i l H; cbn in H; [discriminate|].
  destruct (is_sticky_active a) eqn:Ea.
  - injection H as <-. split; [lia|]. replace (N.to_nat (i + 1 - 1 - i)) with O by lia.
    split; [|intros; lia]. destruct a as [[]|]; try discriminate. reflexivity.
  - apply IH in H as (H1 & H2 & H3). split; [lia|].
    assert (Hs : forall x, i + 1 < x -> N.to_nat (x - 1 - i) = S (N.to_nat (x - 1 - (i + 1)))) by lia.
    split; [rewrite Hs by lia; exact H2|]. intros l' Hl'. destruct (N.eq_dec l' (i + 1)) as [->|Hn].
    + replace (N.to_nat (i + 1 - 1 - i)) with O by lia. cbn. intros X. injection X as ->. discriminate.
    + rewrite Hs by lia. apply H3. lia.
Qed.
Lemma find_sticky_none ls : forall i, find_sticky i ls = None -> Forall (fun a => is_sticky_active a = false) ls.
Proof.
  induction ls as [|a ls IH]; intros i H; cbn in H; [constructor|]. destruct (is_sticky_active a) eqn:Ea; [discriminate|].
  constructor; eauto.
Qed.
Lemma handle_layer_inputs ins : forall c c' l,
  find_sticky 0 (lyx_active c) = Some l -> (forall x, sticky_on c x = (x =? l)) ->
  fold_res (fun c ie => ly_handle_event c (EvInput ie)) ins c = Ok c' ->
  is_on c' l = lasts (lyx_pressed c) ins
  /\ (forall x, x <> l -> is_on c' x = is_on c x)
  /\ lyx_default c' = lyx_default c /\ length (lyx_active c') = length (lyx_active c).
Proof.
  assert (Hgone : forall l c c', sticky_layer c = None ->
    fold_res (fun c ie => ly_handle_event c (EvInput ie)) l c = Ok c' -> c' = c).
  { induction l as [|ie l IH]; intros c c' Hs H; cbn [fold_res] in H; [now inv_ok H|]. inv_bind H.
    assert (a = c) as ->; [|eauto]. destruct ie; cbn [ly_handle_event] in E; rewrite ?Hs in E; congruence. }
  induction ins as [|ie ins IH]; intros c c' l Hf Hst H; cbn [fold_res] in H.
  - inv_ok H. split; [|auto]. apply find_sticky_spec in Hf as (H1 & H2 & _). rewrite N.sub_0_r in H2.
    unfold is_on. rewrite H2. destruct (N.leb_spec 1 l); [reflexivity|lia].
  - inv_bind H.
    assert (Hoff : forall ls, deactivate (lyx_active c) l = Ok ls -> forall c1 c2 p,
      c1 = mkLyCtx (lyx_default c) ls p -> fold_res (fun c ie => ly_handle_event c (EvInput ie)) ins c1 = Ok c2 ->
      is_on c2 l = false /\ (forall x, x <> l -> is_on c2 x = is_on c x)
      /\ lyx_default c2 = lyx_default c /\ length (lyx_active c2) = length (lyx_active c)).
    { intros ls Hd c1 c2 p Ec Hr. pose proof (layer_event_spec c (LeDeactivated l) (mkLyCtx (lyx_default c) ls (lyx_pressed c))) as Hl.
      cbn in Hl. rewrite Hd in Hl. destruct (Hl eq_refl) as (L1 & L2 & _).
      assert (Hnone : sticky_layer c1 = None).
      { unfold sticky_layer. destruct (find_sticky 0 (lyx_active c1)) as [l2|] eqn:E2; [exfalso|reflexivity].
        apply find_sticky_spec in E2 as (A & B & _). rewrite N.sub_0_r in B. subst c1. cbn [lyx_active] in B.
        apply layer_set_spec in Hd as (_ & _ & Hd). rewrite Hd in B by lia.
        destruct (N.eqb_spec l2 l); [discriminate|]. specialize (Hst l2). unfold sticky_on in Hst.
        destruct (N.leb_spec 1 l2); [|lia]. rewrite B in Hst. cbn in Hst. symmetry in Hst. apply N.eqb_eq in Hst. auto. }
      apply Hgone in Hr; [|exact Hnone]. subst c2 c1. unfold is_on in *. cbn [lyx_active lyx_default] in *.
      split; [rewrite L2, N.eqb_refl; reflexivity|]. split; [|auto]. intros x Hx. rewrite L2.
      destruct (N.eqb_spec x l); [contradiction|reflexivity]. }
    assert (Hu : lyx_active a = lyx_active c -> lyx_default a = lyx_default c ->
       is_on c' l = lasts (lyx_pressed a) ins /\ (forall x, x <> l -> is_on c' x = is_on c x)
       /\ lyx_default c' = lyx_default c /\ length (lyx_active c') = length (lyx_active c)).
    { intros E1 E2. apply (IH a c' l) in H as (A & B & C & D).
      - rewrite E1 in D. rewrite E2 in C. split; [exact A|]. split; [|auto]. intros x Hx. rewrite B by exact Hx. unfold is_on. now rewrite E1.
      - now rewrite E1.
      - intros x. unfold sticky_on. rewrite E1. apply Hst. }
    destruct ie as [i|i|ko|ko]; cbn [ly_handle_event lasts] in *; unfold sticky_layer in E; rewrite ?Hf in E.
    + destruct (lyx_pressed c) eqn:Ep.
      * inv_bind E. inv_ok E. eapply Hoff; eauto.
      * inv_ok E. now apply Hu.
    + destruct (opt_eqb N.eqb (lyx_pressed c) (Some i)) eqn:Eq.
      * inv_bind E. inv_ok E. destruct (lyx_pressed c) as [j|]; [|discriminate]. cbn in Eq. rewrite N.eqb_sym, Eq. eapply Hoff; eauto.
      * inv_ok E. destruct (lyx_pressed a) as [j|] eqn:Ep; [|now apply Hu]. cbn in Eq. rewrite N.eqb_sym in Eq. rewrite Eq.
        rewrite <- Ep in *. now apply Hu.
    + inv_ok E. now apply Hu.
    + inv_ok E. now apply Hu.
Qed.

(** The first sticky layer is the one if there is just one. *)
Lemma find_sticky_only c l : 1 <= l -> (forall x, sticky_on c x = (x =? l)) -> find_sticky 0 (lyx_active c) = Some l.
Proof.
  intros Hl Hst. destruct (find_sticky 0 (lyx_active c)) as [l2|] eqn:E.
  - apply find_sticky_spec in E as (A & B & _). rewrite N.sub_0_r in B. specialize (Hst l2). unfold sticky_on in Hst.
    destruct (N.leb_spec 1 l2); [|lia]. rewrite B in Hst. cbn in Hst. symmetry in Hst. apply N.eqb_eq in Hst. now rewrite Hst.
  - apply find_sticky_none in E. specialize (Hst l). rewrite N.eqb_refl in Hst. unfold sticky_on in Hst.
    destruct (N.leb_spec 1 l); [|lia]. cbn in Hst. destruct (nth_error _ _) as [a|] eqn:En; [|discriminate].
    apply nth_error_In in En. rewrite Forall_forall in E. apply E in En. congruence.
Qed.
