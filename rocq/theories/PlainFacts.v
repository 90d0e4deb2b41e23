(** A keymap of plain keys, computed (C38). *)
From Verif Require Import BaseFacts Output Types Scheduler Reporter Keymap SimpleKeys TapHold TapDance Sticky CapsWord
  Layered Automation Chorded Composite SpecKeymap KeymapHist KeymapQueue KeymapApi SpecChord ChordFacts ChordHeld SpecPlain.
Local Open Scope N_scope.

(** The context stays at rest, but for the chord context. *)
Definition calm (c : cctx) : Prop :=
  cwx_active (cx_caps_word c) = false /\ sticky_layer (cx_layered c) = None
  /\ stx_active (cx_sticky c) = [] /\ stx_pressed (cx_sticky c) = None.
(** No chord has been pressed. *)
Definition quiet_chords (h : chorded_ctx) : Prop :=
  (forall id, nth id (chx_pressed_chords h) false = false) /\ chx_latest h = None.
Definition with_chorded (c : cctx) (h : chorded_ctx) : cctx :=
  mkCtx (cx_automation c) (cx_caps_word c) h (cx_layered c) (cx_sticky c) (cx_tap_dance c) (cx_tap_hold c).

Lemma calm_new cf : calm (ctx_from_config cf).
Proof.
  unfold calm. cbn. repeat split.
  unfold sticky_layer. cbn. generalize 0. generalize (cf_layer_count cf) as n. induction n; intros i; cbn; auto.
Qed.
Lemma quiet_new cf : quiet_chords (ch_ctx_new cf).
Proof. split; [|reflexivity]. intros id. cbn. revert id. generalize (chc_max_chords cf) as n. induction n; intros [|id]; cbn; auto. Qed.
Lemma ctx_eta c : mkCtx (cx_automation c) (cx_caps_word c) (cx_chorded c) (cx_layered c) (cx_sticky c) (cx_tap_dance c) (cx_tap_hold c) = c.
Proof. now destruct c. Qed.
Lemma calm_input c ie : calm c ->
  cctx_handle_event c (EvInput ie) = (let! h := step_chorded (cx_chorded c) (EvInput ie) in Ok (with_chorded c h, [])).
Proof.
  intros (Hw & Hl & Hs & Hp). unfold cctx_handle_event, step_automation, step_caps_word, step_layered, step_sticky.
  cbn [try_event auto_handle_event cw_handle_event bind ke_map map ke_extend fold_res].
  destruct (step_chorded (cx_chorded c) (EvInput ie)) as [h| |]; try (destruct ie; reflexivity). cbn [bind].
  destruct ie; cbn [ly_handle_event st_handle_event]; rewrite ?Hl, ?Hs, ?Hp; reflexivity.
Qed.
Lemma calm_resolved c i ko : calm c -> cctx_handle_event c (EvKeymap (KmResolvedKeyOutput i ko)) = Ok (c, []).
Proof.
  intros (Hw & Hl & Hs & Hp). unfold cctx_handle_event, step_automation, step_caps_word, step_chorded, step_layered, step_sticky.
  cbn [try_event auto_handle_event cw_handle_event ch_handle_event bind ke_map map ke_extend fold_res ly_handle_event st_handle_event].
  rewrite Hw, Hs. cbn. now rewrite ctx_eta.
Qed.

Definition ks_plain (r : ref) : cks :=
  match r with RConsumer _ => KsConsumer | RCustom _ => KsCustom | RKeyboard _ => KsKeyboard | _ => KsMouse end.

Section Plain.
Variables (refs : list ref) (d : key_data) (pos : position_fn) (dbg : bool).
Variable outs : list key_output.
Hypothesis Hrefs : Forall2 (plain_key d) refs outs.
Local Notation conf := (cconf refs d pos dbg).

Lemma plain_new r ko ki c : plain_key d r ko -> c_new_pressed_key d ki c r = Ok (PkResolved (ks_plain r), []).
Proof. destruct r; cbn; intros H; try contradiction; reflexivity. Qed.
Lemma plain_update r ko s c ki ev : plain_key d r ko -> c_update_state d s r c ki ev = Ok (s, []).
Proof. destruct r; cbn; intros H; try contradiction; destruct s; reflexivity. Qed.
Lemma plain_output r ko : plain_key d r ko -> c_key_output d r (ks_plain r) = Ok (Some ko).
Proof.
  destruct r as [| | | |[c]|[c]|[kc|m|i]| |m| | |]; cbn; intros H; try contradiction; try (now subst).
  - destruct H as (k & H & ->). unfold index. now rewrite H.
  - now rewrite H.
Qed.

(** The pressed input that stands for something down. *)
Definition entry (x : u16 + key_output) : pressed_input ref cks :=
  match x with
  | inl i => let r := nth (N.to_nat i) refs RCapsWord in PiKey i r (ks_plain r)
  | inr ko => PiVirtual ko
  end.
Definition valid (x : u16 + key_output) : Prop :=
  match x with inl i => (N.to_nat i < length refs)%nat | inr _ => True end.
Lemma valid_plain i : (N.to_nat i < length refs)%nat ->
  plain_key d (nth (N.to_nat i) refs RCapsWord) (nth (N.to_nat i) outs ko_none).
Proof.
  clear -Hrefs. generalize (N.to_nat i) as n. induction Hrefs as [|r ko rs kos H _ IH]; intros [|n] Hn; cbn in *; try lia; [exact H|].
  apply IH; [|lia]. inversion Hrefs; assumption.
Qed.
Lemma outputs_plain l : Forall valid l -> outputs_of conf (map entry l) = Ok (map (out_of outs) l).
Proof.
  induction l as [|[i|ko] l IH]; intros H; [reflexivity| |]; inversion H as [|? ? H1 H2]; subst; cbn.
  - rewrite (plain_output _ _ (valid_plain i H1)). cbn. rewrite IH by exact H2. reflexivity.
  - rewrite IH by exact H2. reflexivity.
Qed.
Lemma update_plain c ev l s : Forall valid l -> update_pressed_list conf c ev (map entry l) s = Ok (map entry l, s).
Proof.
  induction l as [|[i|ko] l IH]; intros H; [reflexivity| |]; inversion H as [|? ? H1 H2]; subst; cbn.
  - rewrite (plain_update _ _ _ _ _ _ (valid_plain i H1)). cbn. rewrite IH by exact H2. reflexivity.
  - rewrite IH by exact H2. reflexivity.
Qed.

(** The step on what is down, with the limits of the keymap. *)
Definition input_ok (l : down) (ie : input_event) : bool :=
  match ie with
  | Press i => existsb (is_key i) l || ((N.to_nat i <? length refs)%nat && (length l <? 16)%nat)
  | VirtualKeyPress _ => (length l <? 16)%nat
  | _ => true
  end.
Lemma has_entry l i : existsb (pi_has_index i) (map entry l) = existsb (is_key i) l.
Proof. induction l as [|[j|ko] l IH]; cbn; [reflexivity| |]; now rewrite IH. Qed.
Lemma remove_map {A B} (f : A -> B) p q l : (forall x, p (f x) = q x) -> remove_first p (map f l) = map f (remove_first q l).
Proof. intros H. induction l as [|x l IH]; cbn; [reflexivity|]. rewrite H. destruct (q x); cbn; [reflexivity|]. now rewrite IH. Qed.
Lemma down_step_valid l ie : Forall valid l -> input_ok l ie = true -> Forall valid (down_step l ie).
Proof.
  intros H Ho.
  assert (Hr : forall q l, Forall valid l -> Forall valid (remove_first q l)).
  { clear. induction l as [|x l IH]; intros H; cbn; [constructor|]. inversion H; subst. destruct (q x); auto. }
  destruct ie as [i|i|ko|ko]; cbn in *; auto.
  - destruct (existsb (is_key i) l); [exact H|]. apply andb_true_iff in Ho as [Ho _]. apply Nat.ltb_lt in Ho. apply Forall_app. split; [exact H|].
    constructor; [exact Ho|constructor].
  - apply Forall_app. split; [exact H|]. constructor; [exact I|constructor].
Qed.

(** A state with nothing scheduled or undecided, and [l] down. *)
Definition plain_state (l : down) (k : ckeymap) : Prop :=
  calm (km_ctx k) /\ km_pressed k = map entry l /\ Forall valid l
  /\ sc_pending (km_sched k) = [] /\ sc_scheduled (km_sched k) = [] /\ km_pending k = None.

Lemma set_sched_id (k : ckeymap) : set_sched k (km_sched k) = k. Proof. now destruct k. Qed.
Lemma set_pressed_id (k : ckeymap) : set_pressed k (km_pressed k) = k. Proof. now destruct k. Qed.
Lemma set_ctx_id (k : ckeymap) : set_ctx k (km_ctx k) = k. Proof. now destruct k. Qed.
Lemma update_pressed_plain l k ev : plain_state l k -> update_pressed conf k ev = Ok k.
Proof.
  intros (_ & Hp & Hv & _). unfold update_pressed. rewrite Hp, update_plain by exact Hv. cbn. rewrite <- Hp. now destruct k.
Qed.
Lemma drained_plain l k f : plain_state l k -> exec conf (S f) JHandlePending k = Ok k.
Proof.
  intros (_ & _ & _ & Hs & _ & _). cbn. unfold step_handle_pending, sched_dequeue. rewrite Hs. now rewrite set_sched_id.
Qed.
Lemma update_context_plain l k ie : plain_state l k ->
  update_context conf k (EvInput ie) = (let! h := step_chorded (cx_chorded (km_ctx k)) (EvInput ie) in Ok (set_ctx k (with_chorded (km_ctx k) h))).
Proof.
  intros (Hc & _). unfold update_context. cbn [kc_sys cconf composite sys_ctx_handle_event]. rewrite calm_input by exact Hc.
  destruct (step_chorded _ _); cbn [bind]; reflexivity.
Qed.
Lemma event_plain l k f i ko : plain_state l k -> exec conf (S (S f)) (JHandleEvent (EvKeymap (KmResolvedKeyOutput i ko))) k = Ok k.
Proof.
  intros H. cbn [exec step]. unfold step_handle_event. cbn [run_callback].
  pose proof H as (Hc & _ & _ & _ & _ & Hpd).
  cbn [exec step]. unfold step_update_pending. rewrite Hpd. cbn [bind]. rewrite (update_pressed_plain l) by exact H. cbn [bind].
  unfold update_context. cbn [kc_sys cconf composite sys_ctx_handle_event]. rewrite calm_resolved by exact Hc. cbn [bind].
  rewrite set_ctx_id. unfold schedule_all. cbn. now rewrite set_sched_id.
Qed.

Lemma chorded_calm c ie h : calm c -> step_chorded (cx_chorded c) (EvInput ie) = Ok h -> calm (with_chorded c h).
Proof.
  intros H _. exact H.
Qed.
Lemma quiet_step h ie h' : quiet_chords h -> step_chorded h (EvInput ie) = Ok h' -> quiet_chords h'.
Proof.
  intros (Hc & Ht) H. unfold step_chorded in H.
  destruct ie as [i|i|ko|ko]; cbn [try_event ch_handle_event] in H; try (injection H as <-; split; assumption).
  - inv_bind H. inv_bind H. inv_bind H. injection H as <-. split; assumption.
  - injection H as <-. split; [|assumption]. cbn [chx_pressed_chords]. intros id. rewrite clear_chords_nth, Hc. destruct (nth_error _ id) as [ch|]; [destruct (member i ch)|]; reflexivity.
Qed.

(** Processing one input. *)
Lemma process_plain f l k ie : plain_state l k ->
  exec conf (S (S (S (S f)))) (JProcessInput ie) k =
  (let! h := step_chorded (cx_chorded (km_ctx k)) (EvInput ie) in
   if input_ok l ie then Ok (set_pressed (set_ctx k (with_chorded (km_ctx k) h)) (map entry (down_step l ie))) else Panic).
Proof.
  intros H. change (exec conf (S (S (S (S f)))) (JProcessInput ie) k) with (step_process_input conf (exec conf (S (S (S f)))) ie k).
  unfold step_process_input. pose proof H as (Hc & Hp & Hv & Hs1 & Hs2 & Hpd). rewrite Hpd.
  rewrite (update_pressed_plain l) by exact H. cbn [bind]. rewrite (update_context_plain l) by exact H.
  destruct (step_chorded (cx_chorded (km_ctx k)) (EvInput ie)) as [h| |] eqn:Eh; cbn [bind]; try reflexivity.
  set (k2 := set_ctx k (with_chorded (km_ctx k) h)).
  assert (H2 : forall l', Forall valid l' -> plain_state l' (set_pressed k2 (map entry l'))).
  { intros l' Hv'. unfold plain_state. cbn. split; [now apply chorded_calm with ie|auto]. }
  assert (Ek2 : km_pressed k2 = map entry l) by exact Hp.
  assert (Hfin : forall l', Forall valid l' -> exec conf (S (S (S f))) JHandlePending (set_pressed k2 (map entry l')) = Ok (set_pressed k2 (map entry l'))).
  { intros l' Hv'. apply (drained_plain l'). now apply H2. }
  pose proof (down_step_valid l ie Hv) as Hd.
  destruct ie as [i|i|ko|ko]; cbn [step_input_dispatch input_ok down_step] in *.
  - unfold has_pressed. rewrite Ek2, has_entry. destruct (existsb (is_key i) l) eqn:Ei; cbn [orb].
    + cbn [bind]. pose proof (Hfin l Hv) as X. rewrite <- Ek2 in X |- *. rewrite set_pressed_id in X |- *. exact X.
    + cbn [orb] in Hd. unfold index. cbn [kc_refs cconf]. destruct (N.to_nat i <? length refs)%nat eqn:El; cbn [andb] in *.
      * apply Nat.ltb_lt in El. rewrite (nth_error_nth' refs RCapsWord El). cbn [bind].
        set (r := nth (N.to_nat i) refs RCapsWord).
        change (exec conf (S (S (S f))) (JPressLoop i r) k2) with (step_press_loop conf (exec conf (S (S f))) i r k2).
        unfold step_press_loop. cbn [kc_sys cconf composite sys_new_pressed_key].
        rewrite (plain_new r _ i _ (valid_plain i El)). cbn [bind]. unfold schedule_all. cbn [sched_all fold_res bind].
        change (set_sched k2 (km_sched k2)) with k2. rewrite Ek2. unfold push_cap. rewrite map_length.
        change MAX_PRESSED_KEYS with 16%nat. destruct (length l <? 16)%nat eqn:E16; [|reflexivity]. cbn [bind].
        specialize (Hd eq_refl).
        assert (Em : map entry l ++ [PiKey i r (ks_plain r)] = map entry (l ++ [inl i])) by (rewrite map_app; reflexivity).
        rewrite Em. unfold emit_resolved. cbn [kc_sys cconf composite sys_key_output].
        rewrite (plain_output r _ (valid_plain i El)). cbn [bind].
        rewrite (event_plain (l ++ [inl i])) by (now apply H2). cbn [bind]. now apply Hfin.
      * apply Nat.ltb_ge in El. apply nth_error_None in El. rewrite El. reflexivity.
  - cbn [bind]. rewrite Ek2, (remove_map entry (pi_has_index i) (is_key i)) by (intros [j|ko]; reflexivity). apply Hfin. now apply Hd.
  - rewrite Ek2. unfold push_cap. rewrite map_length. change MAX_PRESSED_KEYS with 16%nat. destruct (length l <? 16)%nat eqn:E16; [|reflexivity].
    cbn [bind]. change (map entry l ++ [PiVirtual ko]) with (map entry l ++ map entry [inr ko]). rewrite <- map_app. apply Hfin. now apply Hd.
  - cbn [bind]. rewrite Ek2, (remove_map entry _ (is_virtual ko)) by (intros [j|ko']; reflexivity). apply Hfin. now apply Hd.
Qed.

(** ** Histories *)
Definition sim (q : queue) (k : ckeymap) : Prop :=
  plain_state (down_after (q_done q)) k /\ km_inq k = q_waiting q /\ km_delay k = (if q_busy q then 1 else 0).
Lemma down_snoc h ie : down_after (h ++ [ie]) = down_step (down_after h) ie.
Proof. unfold down_after. now rewrite fold_left_app. Qed.

Lemma plain_state_fields l (k k' : ckeymap) : plain_state l k -> km_ctx k' = km_ctx k -> km_pressed k' = km_pressed k ->
  km_sched k' = km_sched k -> km_pending k' = km_pending k -> plain_state l k'.
Proof. unfold plain_state. intros H -> -> -> ->. exact H. Qed.
Lemma take_plain f q k x w k' : sim q k -> q_waiting q = x :: w ->
  exec conf (S (S (S (S f)))) (JProcessInput x) (set_inq k w) = Ok k' -> sim (queue_take q) (set_delay k' INPUT_QUEUE_TICK_DELAY).
Proof.
  intros (Hp & Hq & Hb) Hw H. assert (Hp' : plain_state (down_after (q_done q)) (set_inq k w)) by exact Hp.
  rewrite (process_plain f _ _ x Hp') in H. inv_bind H. destruct (input_ok _ x) eqn:Eo; [|discriminate]. injection H as <-.
  unfold queue_take. rewrite Hw. unfold sim. cbn [q_done q_waiting q_busy]. rewrite down_snoc. split; [|split; reflexivity].
  destruct Hp as (Hc & Hpr & Hv & H1 & H2 & H3). unfold plain_state. cbn. split; [now apply chorded_calm with x|].
  split; [reflexivity|]. split; [now apply down_step_valid|auto].
Qed.
Lemma op_plain f q k o k' : sim q k -> plain_op o = true -> run_op conf (S (S (S (S f)))) k o = Ok k' -> sim (queue_step q o) k'.
Proof.
  intros Hs Ho H. pose proof Hs as (Hp & Hq & Hb). destruct o as [ev| |dd ev| | | |ms|c g]; try discriminate Ho; cbn [run_op queue_step] in *.
  - unfold km_handle_input in H. cbn zeta in H. change (km_inq (set_idle k 0)) with (km_inq k) in H. unfold queue_input. rewrite <- Hq.
    change INPUT_QUEUE_CAPACITY with 31%nat in H. destruct (length (km_inq k) <? 31)%nat; [|injection H as <-; exact Hs].
    change (km_delay (set_inq (set_idle k 0) (km_inq k ++ [ev]))) with (km_delay k) in H. rewrite Hb in H.
    set (q1 := mkQueue (q_done q) (km_inq k ++ [ev]) (q_busy q)).
    assert (Hs1 : sim q1 (set_inq (set_idle k 0) (km_inq k ++ [ev]))) by (split; [exact Hp|split; [reflexivity|exact Hb]]).
    destruct (q_busy q) eqn:Eb; cbn [N.eqb] in H.
    + injection H as <-. exact Hs1.
    + change (0 =? 0) with true in H. cbn iota in H. change (km_inq (set_inq (set_idle k 0) (km_inq k ++ [ev]))) with (km_inq k ++ [ev]) in H.
      destruct (km_inq k ++ [ev]) as [|x w] eqn:Ew; [discriminate|]. inv_bind H. injection H as <-.
      eapply take_plain; [exact Hs1|reflexivity|exact E].
  - unfold km_tick in H. cbn zeta in H.
    set (k0 := set_ctx k _) in H.
    assert (Hs0 : sim q k0).
    { split; [|split; [exact Hq|exact Hb]]. destruct Hp as ((A & B & C & D) & Hp). split; [|exact Hp]. repeat split; assumption. }
    inv_bind H. assert (H1 : sim (if q_busy q then q else queue_take q) a).
    { change (km_inq k0) with (km_inq k) in E. rewrite Hq in E. change (km_delay k0) with (km_delay k) in E. rewrite Hb in E.
      destruct (q_waiting q) as [|x w] eqn:Ew.
      - injection E as <-. destruct (q_busy q); [exact Hs0|]. unfold queue_take. rewrite Ew. exact Hs0.
      - destruct (q_busy q) eqn:Eb.
        + change (1 =? 0) with false in E. cbn iota in E. injection E as <-. exact Hs0.
        + change (0 =? 0) with true in E. cbn iota in E. inv_bind E. injection E as <-. eapply take_plain; [exact Hs0|exact Ew|exact E0]. }
    unfold queue_tick. set (q1 := if q_busy q then q else queue_take q) in *. destruct H1 as (Hp1 & Hq1 & Hb1).
    set (k2 := if 0 <? km_delay a then set_delay a (km_delay a - 1) else a) in H.
    assert (H2 : sim (mkQueue (q_done q1) (q_waiting q1) false) k2).
    { unfold k2. rewrite Hb1. destruct (q_busy q1); cbn; (split; [exact Hp1|split; [exact Hq1|try exact Hb1; reflexivity]]). }
    inv_bind H. assert (Hp2 : plain_state (down_after (q_done q1)) (set_sched k2 a0)).
    { destruct H2 as ((A & B & C & D & F & G) & _). unfold sched_tick in E0. inv_bind E0. rewrite F in E0. cbn in E0. injection E0 as <-.
      split; [exact A|]. cbn. rewrite D. auto. }
    rewrite (drained_plain _ _ _ Hp2) in H. cbn [bind] in H. inv_bind H. injection H as <-.
    destruct H2 as (_ & Hq2 & Hb2). split; [exact Hp2|]. split; [exact Hq2|exact Hb2].
  - unfold km_report_output in H. inv_bind H. inv_bind E. injection E as <-. injection H as <-. exact Hs.
  - injection H as <-. exact Hs.
Qed.
Lemma ops_plain f ops : Forall (fun o => plain_op o = true) ops -> forall q k k', sim q k ->
  run_ops conf (S (S (S (S f)))) ops k = Ok k' -> sim (fold_left queue_step ops q) k'.
Proof.
  unfold run_ops. induction 1 as [|o ops Ho _ IH]; intros q k k' Hs H; cbn [fold_res] in H; [injection H as <-; exact Hs|].
  inv_bind H. cbn [fold_left]. eapply IH; [|exact H]. eapply op_plain; eassumption.
Qed.
Lemma sim_new cf : sim queue_new (km_new (ctx_from_config cf)).
Proof. split; [|split; reflexivity]. split; [apply calm_new|]. cbn. auto. Qed.
Lemma run_plain fuel ops cf k : Forall (fun o => plain_op o = true) ops ->
  run_ops conf fuel ops (km_new (ctx_from_config cf)) = Ok k -> sim (queue_run ops) k.
Proof.
  intros Ho H. assert (H4 : run_ops conf (S (S (S (S fuel)))) ops (km_new (ctx_from_config cf)) = Ok k).
  { destruct (run_le conf fuel (S (S (S (S fuel)))) ops ltac:(lia) (km_new (ctx_from_config cf))) as [X|X]; congruence. }
  eapply ops_plain; [exact Ho|apply sim_new|exact H4].
Qed.
Lemma sim_outputs q k : sim q k -> km_pressed_keys conf k = Ok (map (out_of outs) (down_after (q_done q))).
Proof. intros ((_ & Hp & Hv & _) & _). unfold km_pressed_keys. rewrite Hp. now apply outputs_plain. Qed.

(** ** No panic *)
Definition chord_tracks (l : down) (h : chorded_ctx) : Prop :=
  quiet_chords h /\ NoDup (keys_down l) /\ (chc_max_pressed (chx_config h) = O \/ tracks (chx_pressed_indices h) (keys_down l)).
Lemma keys_key j l : keys_down (inl j :: l) = j :: keys_down l. Proof. reflexivity. Qed.
Lemma keys_virt ko l : keys_down (inr ko :: l) = keys_down l. Proof. reflexivity. Qed.
Lemma keys_app l m : keys_down (l ++ m) = keys_down l ++ keys_down m.
Proof. induction l as [|[j|ko] l IH]; cbn [app]; [reflexivity| |]; rewrite ?keys_key, ?keys_virt, IH; reflexivity. Qed.
Lemma keys_virtual ko l : keys_down (remove_first (is_virtual ko) l) = keys_down l.
Proof.
  induction l as [|[j|ko'] l IH]; cbn [remove_first is_virtual]; [reflexivity| |].
  - now rewrite !keys_key, IH.
  - destruct (ko_eqb ko ko'); rewrite !keys_virt; [reflexivity|exact IH].
Qed.
Lemma is_key_In i l : existsb (is_key i) l = true <-> In i (keys_down l).
Proof.
  induction l as [|[j|ko] l IH]; cbn [existsb is_key]; rewrite ?keys_key, ?keys_virt; [split; [discriminate|intros []]| |exact IH].
  rewrite orb_true_iff, IH, N.eqb_eq. cbn. split; (intros [->|X]; [now left|now right]).
Qed.
Lemma keys_remove i l : NoDup (keys_down l) ->
  NoDup (keys_down (remove_first (is_key i) l))
  /\ forall x, In x (keys_down (remove_first (is_key i) l)) <-> In x (keys_down l) /\ x <> i.
Proof.
  induction l as [|[j|ko] l IH]; cbn [remove_first is_key]; intros H.
  - split; [exact H|]. cbn. tauto.
  - rewrite keys_key in *. inversion H as [|? ? Hn Hd]; subst. destruct (i =? j) eqn:E.
    + apply N.eqb_eq in E. subst. split; [exact Hd|]. intros x. cbn. split.
      * intros Hx. split; [now right|]. intros ->. contradiction.
      * intros [[->|Hx] Hne]; [contradiction|exact Hx].
    + apply N.eqb_neq in E. destruct (IH Hd) as [I1 I2]. rewrite keys_key. split.
      * constructor; [|exact I1]. rewrite I2. tauto.
      * intros x. cbn [In]. rewrite I2. intuition congruence.
  - rewrite keys_virt in *. now apply IH.
Qed.
Lemma nodup_snoc {A} (l : list A) x : NoDup l -> ~ In x l -> NoDup (l ++ [x]).
Proof. intros H Hn. apply (NoDup_Add (a := x) (l := l)); [|auto]. rewrite <- (app_nil_r l) at 1. apply Add_app. Qed.
Lemma span_calm cap (chords : list chord) pressed : (forall id, nth id pressed false = false) -> forall i acc, span_loop cap chords i pressed acc = Ok acc.
Proof.
  intros H i acc. revert i. induction pressed as [|b t IH]; intros i; cbn [span_loop]; [reflexivity|].
  pose proof (H 0%nat) as H0. cbn in H0. subst b. apply IH. intros id. exact (H (S id)).
Qed.

Lemma chord_total c l ie : chord_tracks l (cx_chorded c) ->
  N.of_nat (length refs) <= 65535 -> (forall i, ie = Press i -> (N.to_nat i < length refs)%nat) ->
  (chc_max_pressed (chx_config (cx_chorded c)) = O \/ (length (keys_down (down_step l ie)) <= chc_max_pressed (chx_config (cx_chorded c)))%nat) ->
  exists h, step_chorded (cx_chorded c) (EvInput ie) = Ok h /\ chord_tracks (down_step l ie) h /\ chx_config h = chx_config (cx_chorded c).
Proof.
  intros (Hq & Hnd & Ht) Href Hin Hcap.
  enough (X : exists h, step_chorded (cx_chorded c) (EvInput ie) = Ok h
    /\ (NoDup (keys_down (down_step l ie)) /\ (chc_max_pressed (chx_config h) = O \/ tracks (chx_pressed_indices h) (keys_down (down_step l ie)))) /\ chx_config h = chx_config (cx_chorded c)).
  { destruct X as (h & E & A & B). exists h. split; [exact E|]. split; [|exact B]. split; [exact (quiet_step _ _ _ Hq E)|exact A]. }
  destruct Hq as (Hcs & Hlat). set (h := cx_chorded c) in *. unfold step_chorded. cbn [try_event].
  destruct ie as [i|i|ko|ko]; cbn [ch_handle_event down_step] in *.
  - specialize (Hin i eq_refl).
    assert (Hi : i <> 65535) by (intros ->; lia).
    assert (X : exists pi, press_index (chc_max_pressed (chx_config h)) (chx_pressed_indices h) i = Ok pi
      /\ (chc_max_pressed (chx_config h) = O \/ tracks pi (keys_down (if existsb (is_key i) l then l else l ++ [inl i])))).
    { destruct (Nat.eq_dec (chc_max_pressed (chx_config h)) 0) as [E0|E0].
      - unfold press_index. rewrite E0. cbn [Nat.eqb]. destruct (mem i _); eauto.
      - destruct Ht as [Ht|Ht]; [contradiction|]. destruct Hcap as [Hcap|Hcap]; [contradiction|].
        destruct (press_tracks (chc_max_pressed (chx_config h)) _ _ i Ht) as (l' & E' & Ht'); [lia|exact Hi| |].
        + destruct (existsb (is_key i) l) eqn:Ei; [left; now apply is_key_In|]. right. rewrite keys_app, app_length in Hcap. cbn in Hcap. lia.
        + exists l'. split; [exact E'|]. right. cbn [held_step] in Ht'. change (existsb (N.eqb i) (keys_down l)) with (mem i (keys_down l)) in Ht'.
          destruct (existsb (is_key i) l) eqn:Ei.
          * apply is_key_In in Ei. apply mem_In in Ei. rewrite Ei in Ht'. exact Ht'.
          * destruct (mem i (keys_down l)) eqn:Em; [apply mem_In in Em; apply is_key_In in Em; congruence|].
            destruct Ht' as (A & B & C). split; [exact A|]. rewrite keys_app. cbn [keys_down filter_map]. split.
            -- apply nodup_snoc; [exact Hnd|]. intros X. apply is_key_In in X. congruence.
            -- intros x. rewrite (C x). rewrite in_app_iff. cbn. tauto. }
    destruct X as (pi & E & Ht'). rewrite E. cbn [bind]. unfold pressed_chords_indices_span. cbn [chx_config chx_pressed_chords chx_latest].
    rewrite span_calm by exact Hcs. cbn [bind]. destruct (mem i []); [|rewrite Hlat]; cbn [bind]; (eexists; split; [reflexivity|]; split; [|reflexivity]; split; [|exact Ht']);
      (destruct (existsb (is_key i) l) eqn:Ei; [exact Hnd|]; rewrite keys_app; cbn [keys_down filter_map]; apply nodup_snoc; [exact Hnd|]; intros X; apply is_key_In in X; congruence).
  - destruct (keys_remove i l Hnd) as (N1 & N2). eexists. split; [reflexivity|]. split; [|reflexivity]. split; [exact N1|]. cbn [chx_config chx_pressed_indices].
    destruct Ht as [Ht|Ht]; [left; exact Ht|]. right. destruct (release_tracks _ _ i Ht) as (A & B & C). split; [exact A|]. split; [exact N1|].
    intros x. rewrite (C x), N2. cbn [held_step]. rewrite filter_In, negb_true_iff, N.eqb_neq. reflexivity.
  - eexists. split; [reflexivity|]. split; [|reflexivity]. rewrite keys_app. cbn [keys_down filter_map]. rewrite app_nil_r. split; assumption.
  - eexists. split; [reflexivity|]. split; [|reflexivity]. rewrite keys_virtual. split; assumption.
Qed.

Lemma fits_app n m h h' : fits n m (h ++ h') -> fits n m h.
Proof.
  intros (A & B). split; [intros i Hi; apply A, in_or_app; now left|]. intros j.
  specialize (B (Nat.min j (length h))). rewrite firstn_app in B. replace (Nat.min j (length h) - length h)%nat with 0%nat in B by lia.
  cbn [firstn] in B. rewrite app_nil_r in B. destruct (Nat.le_ge_cases j (length h)) as [Hj|Hj].
  - rewrite Nat.min_l in B by exact Hj. exact B.
  - rewrite Nat.min_r in B by exact Hj. rewrite firstn_all in B. rewrite firstn_all2 by exact Hj. exact B.
Qed.
Lemma process_total f l k h x : plain_state l k -> l = down_after h -> chord_tracks l (cx_chorded (km_ctx k)) -> N.of_nat (length refs) <= 65535 ->
  fits (length refs) (chc_max_pressed (chx_config (cx_chorded (km_ctx k)))) (h ++ [x]) ->
  exists c, exec conf (S (S (S (S f)))) (JProcessInput x) k = Ok (set_pressed (set_ctx k c) (map entry (down_step l x)))
    /\ chord_tracks (down_after (h ++ [x])) (cx_chorded c) /\ chx_config (cx_chorded c) = chx_config (cx_chorded (km_ctx k)).
Proof.
  intros Hp Hl Ht Hr (Hin & Hfit). specialize (Hfit (length (h ++ [x]))). cbv zeta in Hfit. rewrite firstn_all, down_snoc in Hfit. rewrite <- Hl in Hfit.
  destruct Hfit as (H16 & Hcap). rewrite down_snoc, <- Hl.
  destruct (chord_total (km_ctx k) l x) as (h' & E & Ht' & Hc); try assumption.
  { intros i ->. apply Hin, in_or_app. right. now left. }
  exists (with_chorded (km_ctx k) h'). rewrite (process_plain f l) by exact Hp. rewrite E. cbn [bind].
  replace (input_ok l x) with true; [split; [reflexivity|split; assumption]|]. symmetry. unfold input_ok, down_step in *.
  destruct x as [i|i|ko|ko]; try reflexivity.
  - destruct (existsb (is_key i) l); [reflexivity|]. cbn [orb]. apply andb_true_iff. rewrite !Nat.ltb_lt.
    split; [apply Hin, in_or_app; right; now left|]. rewrite app_length in H16. cbn in H16. lia.
  - apply Nat.ltb_lt. rewrite app_length in H16. cbn in H16. lia.
Qed.

Definition tsim (cf : chorded_config) (q : queue) (k : ckeymap) : Prop :=
  sim q k /\ chord_tracks (down_after (q_done q)) (cx_chorded (km_ctx k)) /\ chx_config (cx_chorded (km_ctx k)) = cf.
Lemma op_total f cf q k o : N.of_nat (length refs) <= 65535 -> tsim cf q k -> plain_op o = true ->
  fits (length refs) (chc_max_pressed cf) (q_done (queue_step q o)) ->
  let c := clocks_step (mkClocks (sc_counter (km_sched k)) (km_idle k) (km_ms_per_tick k)) o in
  ck_now c <= u32_max -> ck_idle c <= u32_max ->
  exists k', run_op conf (S (S (S (S f)))) k o = Ok k' /\ chord_tracks (down_after (q_done (queue_step q o))) (cx_chorded (km_ctx k'))
    /\ chx_config (cx_chorded (km_ctx k')) = cf.
Proof.
  intros Hr (Hs & Ht & Hcf) Ho Hfit c Hn Hi. pose proof Hs as (Hp & Hq & Hb).
  destruct o as [ev| |dd ev| | | |ms|cb g]; try discriminate Ho; cbn [run_op queue_step] in *.
  - unfold km_handle_input. cbn zeta. change (km_inq (set_idle k 0)) with (km_inq k).
    change INPUT_QUEUE_CAPACITY with 31%nat. unfold queue_input in *. rewrite <- Hq in Hfit |- *.
    destruct (length (km_inq k) <? 31)%nat; [|eexists; split; [reflexivity|]; split; [exact Ht|exact Hcf]].
    change (km_delay (set_inq (set_idle k 0) (km_inq k ++ [ev]))) with (km_delay k). rewrite Hb.
    destruct (q_busy q) eqn:Eb; [eexists; split; [reflexivity|]; split; [exact Ht|exact Hcf]|].
    change (0 =? 0) with true. cbn iota. change (km_inq (set_inq (set_idle k 0) (km_inq k ++ [ev]))) with (km_inq k ++ [ev]).
    unfold queue_take in *. cbn [q_waiting q_done] in *.
    destruct (km_inq k ++ [ev]) as [|x w] eqn:Ew; [destruct (km_inq k); discriminate|]. cbn [q_done] in *.
    set (k1 := set_inq (set_inq (set_idle k 0) (x :: w)) w).
    destruct (process_total f (down_after (q_done q)) k1 (q_done q) x) as (c' & E & T & C); [exact Hp|reflexivity|exact Ht|exact Hr|cbn; now rewrite Hcf|].
    rewrite E. cbn [bind]. eexists. split; [reflexivity|]. split; [exact T|]. cbn in *. now rewrite C.
  - unfold km_tick. cbn zeta. set (k0 := set_ctx k _).
    assert (Hp0 : plain_state (down_after (q_done q)) k0).
    { destruct Hp as ((A & B & C & D) & Hp). split; [|exact Hp]. repeat split; assumption. }
    assert (X : exists k1, match km_inq k0 with
       | ie :: q0 => if km_delay k0 =? 0 then let! k1 := exec conf (S (S (S (S f)))) (JProcessInput ie) (set_inq k0 q0) in Ok (set_delay k1 INPUT_QUEUE_TICK_DELAY) else Ok k0
       | [] => Ok k0 end = Ok k1
       /\ sc_counter (km_sched k1) = sc_counter (km_sched k) /\ km_idle k1 = km_idle k /\ km_ms_per_tick k1 = km_ms_per_tick k
       /\ sim (if q_busy q then q else queue_take q) k1
       /\ chord_tracks (down_after (q_done (if q_busy q then q else queue_take q))) (cx_chorded (km_ctx k1))
       /\ chx_config (cx_chorded (km_ctx k1)) = cf).
    { assert (Hs0 : sim q k0) by (split; [exact Hp0|split; [exact Hq|exact Hb]]).
      change (km_inq k0) with (km_inq k). rewrite Hq. change (km_delay k0) with (km_delay k). rewrite Hb. unfold queue_tick in Hfit.
      destruct (q_waiting q) as [|x w] eqn:Ew.
      - exists k0. do 4 (split; [reflexivity|]). assert (Eq : (if q_busy q then q else queue_take q) = q) by (unfold queue_take; rewrite Ew; now destruct (q_busy q)).
        rewrite Eq. split; [exact Hs0|split; [exact Ht|exact Hcf]].
      - destruct (q_busy q) eqn:Eb.
        + change (1 =? 0) with false. cbn iota. exists k0. do 4 (split; [reflexivity|]). split; [exact Hs0|split; [exact Ht|exact Hcf]].
        + change (0 =? 0) with true. cbn iota. pose proof (take_plain f q k0 x w) as Tp. unfold queue_take in *. rewrite Ew in *. cbn [q_done] in *.
          destruct (process_total f (down_after (q_done q)) (set_inq k0 w) (q_done q) x) as (c' & E & T & C); [exact Hp0|reflexivity|exact Ht|exact Hr|cbn; now rewrite Hcf|].
          specialize (Tp _ Hs0 eq_refl E). rewrite E. cbn [bind]. eexists. split; [reflexivity|]. do 3 (split; [reflexivity|]). split; [exact Tp|].
          split; [exact T|]. cbn in *. now rewrite C. }
    destruct X as (k1 & E1 & Ec & Ei & Em & (Hp1 & Hq1 & Hb1) & T1 & C1). rewrite E1. cbn [bind].
    set (k2 := if 0 <? km_delay k1 then set_delay k1 (km_delay k1 - 1) else k1).
    assert (H2 : km_sched k2 = km_sched k1 /\ km_idle k2 = km_idle k1 /\ km_ms_per_tick k2 = km_ms_per_tick k1 /\ km_ctx k2 = km_ctx k1
      /\ plain_state (down_after (q_done (if q_busy q then q else queue_take q))) k2).
    { unfold k2. destruct (0 <? km_delay k1); do 4 (split; [reflexivity|]); exact Hp1. }
    destruct H2 as (Es2 & Ei2 & Em2 & Ec2 & Hp2). rewrite Es2, Em2. unfold sched_tick. rewrite Ec, Em.
    unfold u32_add. cbn [ck_now ck_idle clocks_step c] in *.
    destruct (sc_counter (km_sched k) + km_ms_per_tick k <=? u32_max) eqn:L1; [|apply N.leb_gt in L1; unfold c in Hn; cbn in Hn; lia].
    cbn [bind]. destruct Hp1 as (A & B & C & D & F & G). rewrite F. cbn [last_opt bind].
    match goal with |- context [exec conf _ JHandlePending ?x] => set (k3 := x) end.
    assert (Hp3 : plain_state (down_after (q_done (if q_busy q then q else queue_take q))) k3).
    { destruct Hp2 as (A' & B' & C' & D' & F' & G'). split; [exact A'|]. cbn. auto. }
    rewrite (drained_plain _ _ _ Hp3). cbn [bind].
    change (km_idle k3) with (km_idle k2). change (km_ms_per_tick k3) with (km_ms_per_tick k2). rewrite Ei2, Em2, Ei, Em.
    destruct (km_idle k + km_ms_per_tick k <=? u32_max) eqn:L2; [|apply N.leb_gt in L2; unfold c in Hi; cbn in Hi; lia].
    cbn [bind]. eexists. split; [reflexivity|]. unfold queue_tick. cbn [q_done]. change (km_ctx (set_idle k3 _)) with (km_ctx k2). rewrite Ec2. split; assumption.
  - unfold km_report_output. rewrite (sim_outputs _ _ Hs). cbn [bind]. eexists. split; [reflexivity|]. split; assumption.
  - eexists. split; [reflexivity|]. split; assumption.
Qed.
Lemma clocks_mono ops : Forall (fun o => plain_op o = true) ops -> forall c,
  ck_now c <= ck_now (fold_left clocks_step ops c).
Proof.
  induction 1 as [|o ops Ho _ IH]; intros c; [apply N.le_refl|]. cbn [fold_left]. eapply N.le_trans; [|apply IH].
  destruct o; try discriminate Ho; cbn; lia.
Qed.
Lemma clocks_idle ops : Forall (fun o => plain_op o = true) ops -> forall c,
  ck_idle c <= ck_now c -> ck_idle (fold_left clocks_step ops c) <= ck_now (fold_left clocks_step ops c).
Proof.
  induction 1 as [|o ops Ho _ IH]; intros c H; [exact H|]. cbn [fold_left]. apply IH. destruct o; try discriminate Ho; cbn; lia.
Qed.
Lemma plain_simple o : plain_op o = true -> simple_op o = true. Proof. destruct o; cbn; auto. Qed.
Lemma plain_timed o : plain_op o = true -> timed_op o = true. Proof. destruct o; cbn; auto. Qed.
Lemma accepted_done ops : Forall (fun o => plain_op o = true) ops ->
  accepted ops = q_done (queue_run ops) ++ q_waiting (queue_run ops).
Proof.
  intros Ho. unfold queue_run. rewrite (queue_fifo_from ops) by (eapply Forall_impl; [|exact Ho]; apply plain_simple). reflexivity.
Qed.
Lemma run_total f cf ops : N.of_nat (length refs) <= 65535 -> Forall (fun o => plain_op o = true) ops ->
  fits (length refs) (chc_max_pressed (cf_chorded cf)) (q_done (queue_run ops)) -> ck_now (clocks_run ops) <= u32_max ->
  exists k, run_ops conf (S (S (S (S f)))) ops (km_new (ctx_from_config cf)) = Ok k /\ tsim (cf_chorded cf) (queue_run ops) k.
Proof.
  intros Hr. induction ops as [|o ops IH] using rev_ind; intros Ho Hf Hc.
  - exists (km_new (ctx_from_config cf)). split; [reflexivity|]. split; [apply sim_new|]. split; [|reflexivity]. split; [apply quiet_new|]. split; [constructor|].
    right. split; [intros a x b y c H; destruct a; discriminate H|]. split; [constructor|]. intros x. reflexivity.
  - apply Forall_app in Ho as (Ho & Ho1). inversion Ho1 as [|? ? Hop _]; subst.
    unfold queue_run, clocks_run in Hf, Hc. rewrite !fold_left_app in Hf, Hc. cbn [fold_left] in Hf, Hc.
    change (fold_left queue_step ops queue_new) with (queue_run ops) in Hf. change (fold_left clocks_step ops clocks_new) with (clocks_run ops) in Hc.
    destruct IH as (k & E & Ht); [exact Ho| | |].
    + destruct (queue_one_per_call (queue_run ops) o) as (l & El & _). rewrite El in Hf. eapply fits_app. exact Hf.
    + eapply N.le_trans; [|exact Hc]. apply (clocks_mono [o]). now constructor.
    + pose proof (run_ops_clock conf _ ops (Forall_impl _ plain_timed Ho) _ _ E) as Ek. unfold clocks_of in Ek. cbn [km_new km_sched sc_counter sched_new km_idle km_ms_per_tick] in Ek.
      change (fold_left clocks_step ops (mkClocks 0 0 1)) with (clocks_run ops) in Ek.
      destruct (op_total f (cf_chorded cf) (queue_run ops) k o Hr Ht Hop Hf) as (k' & E' & T & C).
      * rewrite Ek. exact Hc.
      * rewrite Ek. eapply N.le_trans; [|exact Hc]. change (clocks_step (clocks_run ops) o) with (fold_left clocks_step [o] (clocks_run ops)).
        apply clocks_idle; [now constructor|]. apply (clocks_idle ops Ho). cbn. lia.
      * exists k'. split.
        { unfold run_ops in *. rewrite fold_res_app. rewrite E. cbn [bind fold_res]. now rewrite E'. }
        unfold queue_run. rewrite fold_left_app. cbn [fold_left]. split; [|split; assumption].
        eapply op_plain; [apply Ht|exact Hop|exact E'].
Qed.
End Plain.

Lemma down_nodup h : NoDup (keys_down (down_after h)).
Proof.
  induction h as [|ie h IH] using rev_ind; [constructor|]. rewrite down_snoc.
  destruct ie as [i|i|ko|ko]; cbn [down_step].
  - destruct (existsb (is_key i) (down_after h)) eqn:E; [exact IH|]. rewrite keys_app. apply nodup_snoc; [exact IH|].
    intros X. apply is_key_In in X. congruence.
  - now apply keys_remove.
  - rewrite keys_app. cbn. now rewrite app_nil_r.
  - now rewrite keys_virtual.
Qed.
Lemma down_iff h i : In i (keys_down (down_after h)) <-> exists h1 h2, h = h1 ++ Press i :: h2 /\ ~ In (Release i) h2.
Proof.
  induction h as [|ie h IH] using rev_ind.
  - split; [intros []|]. intros ([|? ?] & h2 & E & _); discriminate.
  - rewrite down_snoc.
    assert (Hkeep : forall x, (In i (keys_down (down_after h)) <-> exists h1 h2, h = h1 ++ Press i :: h2 /\ ~ In (Release i) h2) ->
      x <> Press i -> x <> Release i ->
      (In i (keys_down (down_after h)) <-> exists h1 h2, h ++ [x] = h1 ++ Press i :: h2 /\ ~ In (Release i) h2)).
    { intros x Hx N1 N2. rewrite Hx. split.
      - intros (h1 & h2 & -> & Hn). exists h1, (h2 ++ [x]). split; [now rewrite <- app_assoc|]. rewrite in_app_iff. intros [X|[X|[]]]; auto.
      - intros (h1 & h2 & E & Hn). destruct h2 as [|y h2 _] using rev_ind.
        + apply app_inj_tail in E as (_ & E). congruence.
        + rewrite app_comm_cons, app_assoc in E. apply app_inj_tail in E as (-> & ->). exists h1, h2. split; [reflexivity|].
          intros X. apply Hn, in_or_app. now left. }
    destruct ie as [j|j|ko|ko]; cbn [down_step].
    + destruct (N.eq_dec j i) as [->|Hji].
      * split; [|intros _].
        -- intros _. exists h, []. split; [reflexivity|]. intros [].
        -- destruct (existsb (is_key i) (down_after h)) eqn:E; [now apply is_key_In|]. rewrite keys_app. apply in_or_app. right. now left.
      * rewrite <- (Hkeep (Press j) IH) by congruence. destruct (existsb (is_key j) (down_after h)); [reflexivity|]. rewrite keys_app, in_app_iff.
        cbn. intuition congruence.
    + destruct (keys_remove j (down_after h) (down_nodup h)) as (_ & Hr). rewrite Hr. destruct (N.eq_dec j i) as [->|Hji].
      * split; [intros [_ X]; congruence|]. intros (h1 & h2 & E & Hn). exfalso. destruct h2 as [|y h2 _] using rev_ind.
        -- apply app_inj_tail in E as (_ & E). congruence.
        -- rewrite app_comm_cons, app_assoc in E. apply app_inj_tail in E as (_ & <-). apply Hn, in_or_app. right. now left.
      * rewrite <- (Hkeep (Release j) IH) by congruence. intuition congruence.
    + rewrite keys_app. cbn. rewrite app_nil_r. apply Hkeep; [exact IH|congruence|congruence].
    + rewrite keys_virtual. apply Hkeep; [exact IH|congruence|congruence].
Qed.

Lemma queue_bound ops : (length (q_waiting (queue_run ops)) <= 31)%nat.
Proof.
  unfold queue_run. assert (H : (length (q_waiting queue_new) <= 31)%nat) by (cbn; lia). revert H. generalize queue_new as q.
  assert (Ht : forall q, (length (q_waiting (queue_take q)) <= length (q_waiting q))%nat).
  { intros q. unfold queue_take. destruct (q_waiting q) eqn:E; cbn [q_waiting]; [rewrite E; apply Nat.le_refl|cbn; lia]. }
  induction ops as [|o ops IH]; intros q H; [exact H|]. cbn [fold_left]. apply IH. destruct o; cbn [queue_step]; try exact H.
  - unfold queue_input. destruct (length (q_waiting q) <? 31)%nat eqn:E; [|exact H]. apply Nat.ltb_lt in E.
    destruct (q_busy q); [|eapply Nat.le_trans; [apply Ht|]]; cbn [q_waiting]; rewrite app_length; cbn [length]; lia.
  - unfold queue_tick. cbn. destruct (q_busy q); [exact H|]. eapply Nat.le_trans; [apply Ht|exact H].
Qed.
Lemma accepted_ticks ops n : accepted (ops ++ repeat OpTick n) = accepted ops.
Proof.
  unfold accepted. generalize queue_new as q. induction ops as [|o ops IH]; intros q; cbn [app accepted_from]; [|now rewrite IH].
  revert q. induction n as [|n IH]; intros q; cbn; [reflexivity|apply IH].
Qed.
Lemma clocks_ticks ops n : ck_now (clocks_run (ops ++ repeat OpTick n)) = ck_now (clocks_run ops) + N.of_nat n * ck_ms (clocks_run ops).
Proof.
  unfold clocks_run. rewrite fold_left_app. generalize (fold_left clocks_step ops clocks_new) as c.
  induction n as [|n IH]; intros c; cbn [repeat fold_left]; [lia|]. rewrite IH. cbn [clocks_step ck_now ck_ms]. rewrite Nat2N.inj_succ, N.mul_succ_l. lia.
Qed.
