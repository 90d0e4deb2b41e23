(** The composite key system meets the assumptions of the keymap theorems. *)
From Verif Require Import BaseFacts Output Types Scheduler Keymap SimpleKeys TapHold TapDance Sticky CapsWord
  Layered Automation Chorded Composite SpecKeymap SpecComposite.
Local Open Scope N_scope.

Definition np {E} (s : sched_event E) : Prop := not_physical (se_event s).

Lemma ke_map_np {A B} (f : A -> B) (l : key_events A) : Forall np l -> Forall np (ke_map f l).
Proof.
  induction 1 as [|x l H _ IH]; cbn; constructor; [|exact IH]. unfold np in *. destruct x as [s [ie|i e|k]]; exact H.
Qed.
Lemma ke_extend_np {E} (a b c : key_events E) : Forall np a -> Forall np b -> ke_extend a b = Ok c -> Forall np c.
Proof. intros Ha Hb H. apply push_all_cap_ok in H as [-> _]. now apply Forall_app. Qed.

Ltac np_tac := repeat (first [apply Forall_nil | apply Forall_cons | exact I | reflexivity]).
(** Take a computation apart. *)
Ltac runs H :=
  repeat (match type of H with
  | bind _ _ = Ok _ =>
      let a := fresh "a" in let E := fresh "E" in
      apply bind_ok in H; destruct H as [a [E H]]; repeat match goal with p : (_ * _)%type |- _ => destruct p end;
      cbn beta iota zeta in H
  | Ok _ = Ok _ => injection H; clear H; intros; subst
  | Panic = Ok _ => discriminate
  | NoFuel = Ok _ => discriminate
  | (let '(_, _) := ?x in _) = Ok _ => let E := fresh "E" in destruct x as [? ?] eqn:E; cbn beta iota zeta in H
  | (if ?b then _ else _) = Ok _ => let E := fresh "E" in destruct b eqn:E; cbn beta iota zeta in H
  | match ?x with _ => _ end = Ok _ => let E := fresh "E" in destruct x eqn:E; cbn beta iota zeta in H
  end).

Lemma st_release_np {E} l : Forall np (@st_release_events E l).
Proof. induction l; cbn; constructor; [reflexivity|assumption]. Qed.
Lemma st_handle_np c ev c' kes : st_handle_event c ev = Ok (c', kes) -> Forall np kes.
Proof.
  unfold st_handle_event. cbv zeta. intros H. runs H; np_tac.
  all: eapply ke_extend_np; [constructor| |eassumption]; apply st_release_np.
Qed.
Lemma execute_head_np c ki c' kes : execute_head c ki = Ok (c', kes) -> Forall np kes.
Proof.
  unfold execute_head. intros H. destruct (aux_queue c) as [|h t]; [discriminate|]. inv_bind H.
  assert (Ha : Forall np a).
  { unfold key_events_for in E. inv_bind E. inv_ok E. destruct a0; np_tac. }
  runs H; auto. match goal with E : ke_add _ _ = Ok _ |- _ => apply push_cap_ok in E as [-> _] end.
  apply Forall_app. split; [exact Ha|np_tac].
Qed.
Lemma auto_handle_np c ev c' kes : auto_handle_event c ev = Ok (c', kes) -> Forall np kes.
Proof.
  unfold auto_handle_event. intros H. runs H; np_tac; eapply execute_head_np; eassumption.
Qed.

Lemma cctx_np c ev c' kes : cctx_handle_event c ev = Ok (c', kes) -> Forall np kes.
Proof.
  unfold cctx_handle_event. intros H. runs H. unfold step_automation in E. unfold step_sticky in E5.
  eapply ke_extend_np; [eapply ke_extend_np; [eapply ke_extend_np; [constructor| |eassumption]| |eassumption]| |eassumption].
  - runs E; [|constructor]. apply ke_map_np. eapply auto_handle_np; eassumption.
  - unfold step_caps_word in E1. destruct (try_event as_caps_word ev) as [e|]; [|injection E1 as <- <-; constructor].
    destruct (cw_handle_event (cx_caps_word c) e) as [x y] eqn:E7. injection E1 as <- <-. apply ke_map_np.
    unfold cw_handle_event in E7.
    repeat match type of E7 with
    | (if ?b then _ else _) = _ => destruct b
    | match ?x with _ => _ end = _ => destruct x
    end; injection E7 as <- <-; np_tac.
  - runs E5; [|constructor]. apply ke_map_np. eapply st_handle_np; eassumption.
Qed.

Lemma npk_np d i c r x kes : c_new_pressed_key d i c r = Ok (x, kes) -> Forall np kes.
Proof.
  unfold c_new_pressed_key. intros H. destruct r as [n|n| |[n|n]|n|n|n|[n|n]|n|n|n|n]; cbn in H; runs H; np_tac;
    try apply ke_map_np.
  all: unfold auto_new_pressed_key, callback_new_pressed_key, chk_new_pressed_key, cha_new_pressed_key,
         ly_new_pressed_key, lk_new_pressed_key, th_new_pressed_key in *.
  all: repeat match goal with H : _ = Ok (_, _) |- _ => progress runs H end; np_tac.
Qed.
Lemma up_np d p i c r ev x kes : c_update_pending d p i c r ev = Ok (x, kes) -> Forall np kes.
Proof.
  unfold c_update_pending. intros H. runs H; np_tac; try apply ke_map_np.
  all: unfold ch_update_pending, td_update_pending, th_update_pending in *.
  all: repeat match goal with H : _ = Ok (_, _) |- _ => progress runs H end; np_tac.
  all: unfold chk_update_pending, cha_update_pending, td_handle_event in *.
  all: repeat match goal with H : _ = Ok (_, _) |- _ => progress runs H end; np_tac.
Qed.
Lemma us_np d s r c i ev x kes : c_update_state d s r c i ev = Ok (x, kes) -> Forall np kes.
Proof.
  unfold c_update_state. intros H. runs H; np_tac; try apply ke_map_np.
  - match goal with E : auto_update_state _ _ _ _ = _ |- _ => unfold auto_update_state in E; runs E end; np_tac.
  - match goal with E : ly_update_state _ _ _ _ _ = _ |- _ => unfold ly_update_state in E; runs E end; np_tac.
    match goal with |- Forall _ (match ?o with _ => _ end) => destruct o end; np_tac.
  - match goal with E : st_update_state _ _ _ _ = _ |- _ => unfold st_update_state in E;
      repeat match type of E with
      | (if ?b then _ else _) = _ => destruct b
      | match ?x with _ => _ end = _ => destruct x
      end; injection E as <- <- end; np_tac.
Qed.

Lemma composite_emits d : emits_only (composite d) not_physical.
Proof.
  repeat split; cbn; intros; change (fun se => not_physical (se_event se)) with (@np cev).
  - eapply npk_np; eassumption.
  - eapply up_np; eassumption.
  - eapply us_np; eassumption.
  - eapply cctx_np; eassumption.
Qed.

(** Plain keys. *)
Lemma map_pkr_pending {R P K P' K'} (fp : P -> P') (fk : K -> K') (r : pressed_key_result R P K) p :
  map_pkr fp fk r = PkPending p -> exists q, r = PkPending q.
Proof. destruct r; cbn; intros; try discriminate; eauto. Qed.
Lemma first_defined_in {R} (keys : list (option R)) ls l r :
  first_defined keys ls = Ok (Some (l, r)) -> In (Some r) keys.
Proof.
  induction ls as [|l0 ls IH]; cbn; [discriminate|]. intros H. inv_bind H. destruct a as [k|]; [|auto].
  injection H as <- <-. unfold layer_key in E. destruct (l0 =? 0); [discriminate|]. apply index_ok in E.
  eapply nth_error_In; eassumption.
Qed.
Lemma lk_new_in {R} (k : layered_key R) c n : lk_new_pressed_key k c = Ok n ->
  exists r, n = NpkKey r /\ (r = lk_base k \/ In (Some r) (lk_layered k)).
Proof.
  unfold lk_new_pressed_key, highest_active_key. intros H. inv_bind H. inv_bind E. inv_ok H.
  destruct a0 as [[l r]|].
  - inv_ok E. exists r. split; [reflexivity|]. right. eapply first_defined_in; eassumption.
  - destruct (lyx_default c) as [l|]; [|inv_ok E; eauto]. inv_bind E. inv_ok E.
    destruct a0 as [r|]; [|eauto]. exists r. split; [reflexivity|]. right.
    unfold layer_key in E1. destruct (l =? 0); [discriminate|]. apply index_ok in E1. eapply nth_error_In; eassumption.
Qed.
Lemma layered_refs_in k r : r = lk_base k \/ In (Some r) (lk_layered k) -> In r (layered_refs k).
Proof. intros [->|H]; [now left|]. right. apply filter_map_In. eauto. Qed.

Lemma plain_not_pending d r : plain d r -> forall i c p kes, c_new_pressed_key d i c r <> Ok (PkPending p, kes).
Proof.
  intros Hp i c p kes. destruct Hp as [r Hb|n Hn].
  - destruct r as [n|n| |[n|n]|n|n|n|[n|n]|n|n|n|n]; cbn in *; try discriminate.
    + intros H. inv_bind H. destruct a as [x y]. inv_ok H. unfold auto_new_pressed_key in E. inv_bind E. now inv_ok E.
    + intros H. unfold callback_new_pressed_key in H. inv_bind H. discriminate.
    + intros H. inv_bind H. destruct a as [x y]. inv_ok H. unfold bind in E.
      destruct (index (kd_layer_mods d) (N.to_nat n)); [|discriminate..]. destruct (lm_new_pressed_key a). now inv_ok E.
  - cbn. intros H. inv_bind H. destruct a as [x y]. inv_ok H. inv_bind E. inv_bind E. now inv_ok E.
Qed.
Lemma plain_closed d r : plain d r -> forall i c r' kes,
  c_new_pressed_key d i c r = Ok (PkNewPressedKey (NpkKey r'), kes) -> plain d r'.
Proof.
  intros Hp i c r' kes. destruct Hp as [r Hb|n Hn].
  - destruct r as [n|n| |[n|n]|n|n|n|[n|n]|n|n|n|n]; cbn in *; try discriminate.
    + intros H. inv_bind H. destruct a as [x y]. inv_ok H. unfold auto_new_pressed_key in E. inv_bind E. now inv_ok E.
    + intros H. unfold callback_new_pressed_key in H. inv_bind H. discriminate.
    + intros H. inv_bind H. destruct a as [x y]. inv_ok H. unfold bind in E.
      destruct (index (kd_layer_mods d) (N.to_nat n)); [|discriminate..]. destruct (lm_new_pressed_key a). now inv_ok E.
  - cbn. intros H. inv_bind H. destruct a as [x y]. inv_ok H. inv_bind E. inv_bind E. inv_ok E.
    apply index_ok in E0. apply lk_new_in in E1 as (r & -> & Hr). cbn in H0. injection H0 as <-.
    eapply Hn; [exact E0|]. now apply layered_refs_in.
Qed.

Lemma composite_never_pending refs d pos dbg : Forall (plain d) refs -> never_pending (cconf refs d pos dbg).
Proof.
  intros H. exists (plain d). split; [exact H|]. split; cbn.
  - intros. now apply plain_not_pending.
  - intros. eapply plain_closed; eassumption.
Qed.

Lemma find_chord_key_in {R} (l : list (chord_id * R)) id r : find_chord_key l id = Some r -> In r (map snd l).
Proof.
  induction l as [|[i x] l IH]; cbn; [discriminate|]. destruct (i =? id); [intros [= ->]; auto|auto].
Qed.
Lemma td_definition_in {R} (k : tapdance_key R) i r : td_definition k i = Ok r -> In (Some r) k.
Proof.
  unfold td_definition. intros H. inv_bind H. apply index_ok in E. destruct a; cbn in H; [|discriminate]. inv_ok H.
  eapply nth_error_In; eassumption.
Qed.
Lemma composite_decides d : plain_outcomes d -> decides_at_once (composite d).
Proof.
  intros (Hth & Htd & Hch & Hca). exists (plain d). split; [|split; cbn].
  - cbn. intros p i c r ev p' r' kes H. unfold c_update_pending in H.
    destruct r as [n|n| |cr|n|n|n|[n|n]|n|n|n|n]; try discriminate.
    + destruct p as [p| |]; try discriminate. destruct (try_event as_chorded ev) as [e|]; [|discriminate].
      inv_bind H. destruct a as [[p2 n] k2]. inv_ok H. destruct cr as [n|n]; cbn in E; inv_bind E.
      * apply index_ok, nth_error_In in E0. unfold chk_update_pending in E. inv_bind E. destruct a0 as [p3 o].
        destruct o as [res|]; [|now inv_ok E]. inv_bind E. inv_ok E. unfold chk_resolve in E2.
        destruct res as [id|]; [|inv_ok E2; eapply Hch; eauto]. inv_bind E2. inv_bind E2. destruct (a1 =? i); [|discriminate].
        inv_bind E2. inv_ok E2. eapply Hch; [exact E0|]. right. destruct (find_chord_key (chk_chords a) id) eqn:Ef; cbn in E4; [|discriminate]. inv_ok E4.
        eapply find_chord_key_in; eassumption.
      * apply index_ok, nth_error_In in E0. unfold cha_update_pending in E. inv_bind E. destruct a0 as [p3 o].
        destruct o as [[id|]|]; cbn in E; try discriminate. inv_ok E. now apply Hca.
    + destruct p as [|p|]; try discriminate. destruct (try_event as_tap_dance ev) as [e|]; [|discriminate].
      inv_bind H. destruct a as [[p2 n2] k2]. inv_ok H. unfold td_update_pending in E. inv_bind E.
      apply index_ok, nth_error_In in E0. inv_bind E. destruct a0 as [[p3 o] k3]. destruct o as [idx|].
      * inv_bind E. inv_ok E. eapply Htd; [exact E0|]. eapply td_definition_in; eassumption.
      * destruct (td_count a); [discriminate|]. destruct (_ <=? _)%nat; [|discriminate].
        inv_bind E. inv_ok E. eapply Htd; [exact E0|]. eapply td_definition_in; eassumption.
    + destruct p as [| |p]; try discriminate. destruct (try_event as_tap_hold ev) as [e|]; [|discriminate].
      inv_bind H. destruct a as [[p2 n2] k2]. inv_ok H. unfold th_update_pending in E.
      destruct (th_handle_event p (cx_tap_hold c) i e) as [p3 [st|]]; [|discriminate].
      inv_bind E. inv_ok E. apply index_ok, nth_error_In in E0. destruct (Hth _ E0) as [A B]. destruct st; assumption.
  - intros. now apply plain_not_pending.
  - intros. eapply plain_closed; eassumption.
Qed.
