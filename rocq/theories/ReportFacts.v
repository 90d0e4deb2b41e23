(** What the pressed keys of a composite keymap can be (C45, C46). *)
From Verif Require Import BaseFacts Output Types Scheduler Keymap SimpleKeys TapHold TapDance Sticky CapsWord
  Layered Automation Chorded Composite SpecKeymap SpecComposite CompositeFacts CtxFacts KeymapQueue KeymapSafe SpecReport.
Local Open Scope N_scope.

Lemma acts_trans d a b c : acts_as d a b -> acts_as d b c -> acts_as d a c.
Proof.
  induction 1; intros Hc; [exact Hc|..].
  all: solve [eapply AaTap; eauto|eapply AaHold; eauto|eapply AaDance; eauto|eapply AaBase; eauto|eapply AaLayer; eauto
             |eapply AaChord; eauto|eapply AaPass; eauto|eapply AaAux; eauto].
Qed.

(** The state of an undecided key, and of a pressed one, is of the key's own kind. *)
Definition wait_kind (r : ref) (p : cpks) : Prop :=
  match r, p with RChorded _, PksChorded _ | RTapDance _, PksTapDance _ | RTapHold _, PksTapHold _ => True | _, _ => False end.
Definition down_kind (r : ref) (s : cks) : Prop :=
  match r, s with
  | RKeyboard _, KsKeyboard | RConsumer _, KsConsumer | RCustom _, KsCustom | RMouse _, KsMouse
  | RSticky _, KsSticky _ | RLayered (LyModifier _), KsLayerModifier _ | RAutomation _, KsAutomation
  | RCallback _, KsNoOp | RCapsWord, KsNoOp | RChorded _, KsNoOp => True
  | _, _ => False
  end.

Section Report.
Variables (refs : list ref) (d : key_data) (pos : position_fn) (dbg : bool) (cf : automation_config) (ops : list op).
Local Notation conf := (cconf refs d pos dbg).

(** A macro one of the keys runs. *)
Definition runs_macro (e : execution) : Prop :=
  exists i k, offers refs d (RAutomation i) /\ nth_error (kd_automation d) (N.to_nat i) = Some k /\ macro_of k e.
Definition ev_fine (ev : event cev) : Prop :=
  match ev with
  | EvInput (VirtualKeyPress ko) => typed_by refs d (auc_instructions cf) ops ko
  | EvKey _ (CeCapsWord EnableCapsWord) => offers refs d RCapsWord
  | EvKey _ (CeAutomation (AuEnqueue e)) => runs_macro e
  | _ => True
  end.
(** What is left of a macro. *)
Definition rest_of (e e0 : execution) : Prop := ex_start e0 <= ex_start e /\ ex_start e + ex_length e = ex_start e0 + ex_length e0.
Definition slot_fine (e : execution) : Prop := exec_is_empty e = true \/ exists e0, runs_macro e0 /\ rest_of e e0.
Definition ctx_fine (c : cctx) : Prop :=
  aux_config (cx_automation c) = cf /\ Forall slot_fine (aux_queue (cx_automation c)).
Definition key_at (i : u16) (r : ref) : Prop := exists r0, nth_error refs (N.to_nat i) = Some r0 /\ acts_as d r0 r.
Definition report_parts : parts :=
  mkParts ctx_fine ev_fine key_at (fun _ => wait_kind) (fun _ => down_kind).

Lemma key_offers i r : key_at i r -> offers refs d r.
Proof. intros (r0 & H & Ha). exists r0. split; [eapply nth_error_In; exact H|exact Ha]. Qed.

Lemma fill_fine q e : Forall slot_fine q -> slot_fine e -> Forall slot_fine (fill_slot q e).
Proof.
  intros Hq He. induction Hq as [|x q Hx Hq IH]; cbn; [constructor|].
  destruct (exec_is_empty x); constructor; assumption.
Qed.
Lemma fill_head q e : exec_is_empty e = false -> match q with [] => true | h :: _ => exec_is_empty h end = true ->
  fill_slot q e = [] \/ exists t, fill_slot q e = e :: t.
Proof. intros He. destruct q as [|x q]; cbn; [auto|]. intros ->. eauto. Qed.

Local Notation all_fine kes := (Forall (fun se => ev_fine (se_event se)) kes).

Lemma chk_resolve_key k c ki x n i : nth_error (kd_chorded d) (N.to_nat i) = Some k ->
  chk_resolve k c ki x = Ok n -> match n with NpkKey r => acts_as d (RChorded (ChChorded i)) r | NpkNoOp => True end.
Proof.
  intros Hk H. destruct x as [id|]; cbn in H.
  - inv_bind H. inv_bind H. destruct (a0 =? ki); [|inv_ok H; exact I]. inv_bind H. inv_ok H.
    destruct (find_chord_key (chk_chords k) id) as [r|] eqn:Ef; [|discriminate]. inv_ok E1.
    eapply AaChord; [exact Hk| |apply AaSelf]. clear - Ef. induction (chk_chords k) as [|[j r] l IH]; cbn in Ef; [discriminate|].
    destruct (j =? id) eqn:Ej; [|right; auto]. apply N.eqb_eq in Ej as ->. injection Ef as ->. now left.
  - inv_ok H. eapply AaPass; [exact Hk|apply AaSelf].
Qed.
Lemma cha_resolve_key k x i : nth_error (kd_chorded_aux d) (N.to_nat i) = Some k ->
  match cha_resolve k x with NpkKey r => acts_as d (RChorded (ChAuxiliary i)) r | NpkNoOp => True end.
Proof. intros Hk. destruct x; cbn; [exact I|]. eapply AaAux; [exact Hk|apply AaSelf]. Qed.

Lemma key_step i r r' : key_at i r -> acts_as d r r' -> key_at i r'.
Proof. intros (r0 & H & Ha) Hb. exists r0. split; [exact H|eapply acts_trans; eauto]. Qed.

Lemma press_fine i c r x kes : key_at i r -> c_new_pressed_key d i c r = Ok (x, kes) ->
  all_fine kes /\ match x with
    | PkResolved ks => down_kind r ks
    | PkNewPressedKey (NpkKey r') => key_at i r'
    | PkNewPressedKey NpkNoOp => down_kind r KsNoOp
    | PkPending ps => wait_kind r ps
    end.
Proof.
  intros Hk H. destruct r as [n|n| |r|r|r|r|r|r|n|n|n]; cbn in H.
  - inv_bind H. destruct a as [p ke]. inv_ok H. unfold auto_new_pressed_key in E. inv_bind E. inv_ok E.
    apply index_ok in E0. split; [|exact I]. cbn. constructor; [|constructor]. cbn.
    destruct (exec_is_empty (ak_on_press a)); [exact I|]. cbn. exists n, a. split; [eapply key_offers; exact Hk|].
    split; [exact E0|now left].
  - unfold callback_new_pressed_key in H. inv_bind H. inv_ok H. split; [repeat constructor|exact I].
  - inv_ok H. split; [|exact I]. cbn. constructor; [|constructor]. cbn. destruct (cwx_active (cx_caps_word c)); cbn; [exact I|].
    eapply key_offers; exact Hk.
  - inv_bind H. destruct a as [p ke]. inv_ok H. destruct r as [n|n]; cbn in E; inv_bind E; apply index_ok in E0.
    + unfold chk_new_pressed_key in E. inv_bind E. destruct (ch_initial_resolution (cx_chorded c) a0) as [y|y].
      * inv_bind E. inv_ok E. split; [constructor|]. cbn. pose proof (chk_resolve_key _ _ _ _ _ _ E0 E2) as G.
        destruct a1 as [r|]; [eapply key_step; eauto|exact I].
      * inv_ok E. split; [repeat constructor|exact I].
    + unfold cha_new_pressed_key in E. inv_bind E. destruct (ch_initial_resolution (cx_chorded c) a0) as [y|y].
      * inv_ok E. split; [constructor|]. cbn. pose proof (cha_resolve_key _ y _ E0) as G.
        destruct (cha_resolve a y) as [r|]; [eapply key_step; eauto|exact I].
      * inv_ok E. split; [repeat constructor|exact I].
  - inv_ok H. split; [constructor|exact I].
  - inv_ok H. split; [constructor|exact I].
  - inv_ok H. split; [constructor|exact I].
  - inv_bind H. destruct a as [p ke]. inv_ok H. destruct r as [n|n]; cbn in E; inv_bind E; apply index_ok in E0.
    + destruct (lm_new_pressed_key a) as [b e] eqn:El. inv_ok E. split; [repeat constructor|exact I].
    + inv_bind E. inv_ok E. split; [constructor|]. apply lk_new_in in E1 as (r & -> & Hr). cbn.
      eapply key_step; [exact Hk|]. destruct Hr as [->|Hr]; [eapply AaBase; [exact E0|apply AaSelf]|eapply AaLayer; [exact E0|exact Hr|apply AaSelf]].
  - inv_ok H. split; [constructor|exact I].
  - inv_ok H. split; [constructor|exact I].
  - inv_ok H. split; [repeat constructor|exact I].
  - inv_bind H. destruct a as [p ke]. inv_ok H. unfold th_new_pressed_key in E.
    destruct (thc_required_idle (thx_config (cx_tap_hold c))) as [q|]; [destruct (q <=? thx_idle (cx_tap_hold c))|].
    + inv_ok E. split; [repeat constructor|exact I].
    + inv_bind E. apply index_ok in E0. inv_ok E. split; [constructor|]. cbn. eapply key_step; [exact Hk|].
      eapply AaTap; [exact E0|apply AaSelf].
    + inv_ok E. split; [repeat constructor|exact I].
Qed.

Lemma pending_fine i c r ps ev ps' n kes : key_at i r -> wait_kind r ps -> c_update_pending d ps i c r ev = Ok (ps', n, kes) ->
  all_fine kes /\ wait_kind r ps' /\ match n with
    | Some (NpkKey r') => key_at i r'
    | Some NpkNoOp => down_kind r KsNoOp
    | None => True
    end.
Proof.
  intros Hk Hw H. destruct r as [j|j| |r|r|r|r|r|r|j|j|j]; destruct ps as [p|p|p]; try contradiction; cbn in H.
  - destruct (try_event as_chorded ev) as [e|]; [|inv_ok H; repeat split; constructor]. inv_bind H. destruct a as [[p2 m] ke]. inv_ok H.
    destruct r as [j|j]; cbn in E; inv_bind E; apply index_ok in E0.
    + unfold chk_update_pending in E. inv_bind E. destruct a0 as [p3 o]. destruct o as [y|]; [|inv_ok E; repeat split; constructor].
      inv_bind E. inv_ok E. split; [repeat constructor|]. split; [exact I|]. pose proof (chk_resolve_key _ _ _ _ _ _ E0 E2) as G.
      destruct a0 as [r|]; [eapply key_step; eauto|exact I].
    + unfold cha_update_pending in E. inv_bind E. destruct a0 as [p3 o]. destruct o as [y|]; [|inv_ok E; repeat split; constructor].
      inv_ok E. split; [repeat constructor|]. split; [exact I|]. pose proof (cha_resolve_key _ y _ E0) as G.
      destruct (cha_resolve a y) as [r|]; [eapply key_step; eauto|exact I].
  - destruct (try_event as_tap_dance ev) as [e|]; [|inv_ok H; repeat split; constructor]. inv_bind H. destruct a as [[p2 m] ke]. inv_ok H.
    unfold td_update_pending in E. inv_bind E. apply index_ok in E0. inv_bind E. destruct a0 as [[p3 o] ke3].
    assert (Hke : all_fine (ke_map CeTapDance ke3)).
    { clear - E1. unfold td_handle_event in E1. runs E1; repeat constructor. }
    assert (Hd : forall m r, td_definition a m = Ok r -> key_at i r).
    { intros m r Hr. unfold td_definition in Hr. inv_bind Hr. apply index_ok in E2. destruct a0 as [r1|]; [|discriminate].
      injection Hr as ->. eapply key_step; [exact Hk|]. eapply AaDance; [exact E0|eapply nth_error_In; exact E2|apply AaSelf]. }
    destruct o as [idx|].
    + inv_bind E. inv_ok E. split; [exact Hke|]. split; [exact I|]. eapply Hd; eauto.
    + destruct (td_count a) as [|m']; [discriminate|]. destruct (m' <=? _)%nat.
      * inv_bind E. inv_ok E. split; [exact Hke|]. split; [exact I|]. eapply Hd; eauto.
      * inv_ok E. split; [exact Hke|]. split; exact I.
  - destruct (try_event as_tap_hold ev) as [e|]; [|inv_ok H; repeat split; constructor]. inv_bind H. destruct a as [[p2 m] ke]. inv_ok H.
    unfold th_update_pending, th_handle_event in E. destruct (hold_resolution _ _ _ _) as [s|].
    + inv_bind E. apply index_ok in E0. inv_ok E. split; [constructor|]. split; [exact I|]. eapply key_step; [exact Hk|].
      destruct s; [eapply AaTap|eapply AaHold]; eauto using AaSelf.
    + inv_ok E. split; [constructor|]. split; exact I.
Qed.

Lemma state_fine i c r ks ev ks' kes : key_at i r -> down_kind r ks -> c_update_state d ks r c i ev = Ok (ks', kes) ->
  all_fine kes /\ down_kind r ks'.
Proof.
  intros Hk Hd H. destruct r as [j|j| |r|r|r|r|[r|r]|r|j|j|j]; destruct ks as [| | | | |b| |b]; try contradiction; cbn in H;
    try (inv_ok H; split; [constructor|exact I]).
  - destruct (try_event as_automation ev) as [e|]; [|inv_ok H; split; [constructor|exact I]]. inv_bind H. inv_ok H. split; [|exact I].
    unfold auto_update_state in E. destruct e as [[k|k|ko|ko]|k [e| |]|m]; try (inv_ok E; constructor).
    + destruct (i =? k); [|inv_ok E; constructor]. inv_bind E. inv_ok E. apply index_ok in E0. cbn. constructor; [|constructor].
      cbn. exists j, a0. split; [eapply key_offers; exact Hk|]. split; [exact E0|]. right. now right.
    + destruct (i =? k); [|inv_ok E; constructor]. inv_bind E. inv_ok E. apply index_ok in E0. cbn. constructor; [|constructor].
      cbn. exists j, a0. split; [eapply key_offers; exact Hk|]. split; [exact E0|]. right. now left.
  - destruct (try_event as_layered ev) as [e|]; [|inv_ok H; split; [constructor|exact I]]. inv_bind H. destruct a as [b' ke]. inv_ok H.
    split; [|exact I]. cbn in E. inv_bind E. destruct (lm_handle_event b i e a) as [b2 o]. inv_ok E. destruct o; repeat constructor.
  - destruct (try_event as_sticky ev) as [e|]; [|inv_ok H; split; [constructor|exact I]]. inv_bind H. apply index_ok in E.
    unfold st_update_state in H. destruct b; [|inv_ok H; split; [constructor|exact I]].
    destruct e as [[k|k|ko|ko]|k e|[cb|k ko]]; try (inv_ok H; split; [constructor|exact I]).
    destruct (k =? i); inv_ok H; split; try exact I; [|constructor]. cbn. constructor; [exact I|]. constructor; [|constructor].
    cbn. eapply TbSticky; [eapply key_offers; exact Hk|exact E].
Qed.

Lemma execute_fine c ki c' kes h t : aux_config c = cf -> aux_queue c = h :: t -> exec_is_empty h = false -> Forall slot_fine (aux_queue c) ->
  execute_head c ki = Ok (c', kes) -> aux_config c' = cf /\ Forall slot_fine (aux_queue c') /\ all_fine (ke_map CeAutomation kes).
Proof.
  intros Hc Hq Hh Hs H. unfold execute_head in H. rewrite Hq in *. rewrite Hc in *. inv_bind H.
  inversion Hs as [|? ? [S1|(e0 & S1 & S2)] St]; subst; [congruence|].
  assert (Hlen : 0 < ex_length h) by (unfold exec_is_empty in Hh; apply N.eqb_neq in Hh; lia).
  assert (Ha : all_fine (ke_map CeAutomation a)).
  { unfold key_events_for in E. inv_bind E. inv_ok E. apply index_ok in E0.
    assert (Hty : forall ko, a0 = InPress ko \/ a0 = InTap ko -> typed_by refs d (auc_instructions cf) ops ko).
    { intros ko Hko. destruct S1 as (j & k & O1 & O2 & O3). eapply TbMacro; [exact O1|exact O2|exact O3|].
      destruct S2 as [S2 S3].
      destruct Hko as [->| ->]; [left|right]; exists (ex_start h); (split; [exact S2|]; split; [|exact E0]; pose proof Hlen; unfold u16 in *; lia). }
    assert (Hn : forall b, ev_fine (map_event CeAutomation (EvKey ki (if 1 <? b then AuNextInstruction else AuExecutionFinished)))).
    { intros b. destruct (1 <? b); exact I. }
    destruct a0; cbn; repeat (apply Forall_cons || apply Forall_nil); cbn; auto; try exact I; try apply Hn. }
  assert (Hi : slot_fine (exec_incr h)).
  { unfold exec_incr. rewrite (proj2 (N.ltb_lt _ _) Hlen). right. exists e0. split; [exact S1|]. destruct S2. split; cbn; lia. }
  destruct (exec_is_empty (exec_incr h)).
  - assert (Hq' : Forall slot_fine (t ++ [exec_empty])) by (apply Forall_app; split; [exact St|]; constructor; [now left|constructor]).
    destruct (t ++ [exec_empty]) as [|h2 t2] eqn:Et; [discriminate|]. destruct (exec_is_empty h2).
    + inv_ok H. cbn. auto.
    + inv_bind H. inv_ok H. apply push_cap_ok in E0 as [-> _]. cbn. split; [reflexivity|]. split; [exact Hq'|].
      unfold ke_map. rewrite map_app. apply Forall_app. split; [exact Ha|]. repeat constructor.
  - inv_ok H. cbn. split; [reflexivity|]. split; [constructor; assumption|exact Ha].
Qed.
Lemma automation_fine c ev c' kes : aux_config c = cf -> Forall slot_fine (aux_queue c) -> ev_fine ev ->
  step_automation c ev = Ok (c', kes) -> aux_config c' = cf /\ Forall slot_fine (aux_queue c') /\ all_fine kes.
Proof.
  intros Hc Hq He H. unfold step_automation in H. destruct ev as [ie|ki e|m]; cbn [try_event] in H.
  - cbn in H. inv_ok H. auto.
  - destruct e as [e|e|e|e|e|e|e]; cbn [as_automation] in H; try (inv_ok H; auto). inv_bind H. destruct a as [c2 ke]. inv_ok H.
    destruct e as [e| |]; cbn in E.
    + destruct (exec_is_empty e) eqn:Ee; [inv_ok E; cbn; auto|].
      assert (Hs : slot_fine e) by (right; exists e; split; [exact He|split; lia]).
      assert (Hf : Forall slot_fine (auto_enqueue (aux_queue c) e)) by (unfold auto_enqueue; rewrite Ee; now apply fill_fine).
      destruct (auto_head_empty c) eqn:Eh.
      * unfold auto_enqueue in *. rewrite Ee in *. destruct (fill_head _ _ Ee Eh) as [Eq|[t Eq]].
        -- unfold execute_head in E. cbn in E. rewrite Eq in E. discriminate.
        -- eapply execute_fine in E; [exact E|exact Hc|exact Eq|exact Ee|exact Hf].
      * inv_ok E. cbn. auto.
    + destruct (auto_head_empty c) eqn:Eh; [inv_ok E; cbn; auto|]. unfold auto_head_empty in Eh.
      destruct (aux_queue c) as [|h t] eqn:Eq; [discriminate|]. eapply execute_fine in E; eauto. now rewrite Eq.
    + inv_ok E. cbn. auto.
  - cbn in H. inv_ok H. auto.
Qed.
Lemma caps_fine c ev c' kes : ev_fine ev -> step_caps_word c ev = (c', kes) -> all_fine kes.
Proof.
  intros He H. unfold step_caps_word in H. destruct ev as [ie|ki e|m]; cbn [try_event] in H.
  - cbn in H. injection H as <- <-. constructor.
  - destruct e as [e|e|e|e|e|e|e]; cbn [as_caps_word] in H; try (injection H as <- <-; constructor).
    destruct e; cbn in H; injection H as <- <-; cbn; (apply Forall_cons; [|apply Forall_nil]); [apply (TbCapsWord refs d _ ops); exact He|exact I].
  - cbn in H. destruct m as [cb|i ko]; [injection H as <- <-; constructor|].
    destruct (cwx_active c); [|injection H as <- <-; constructor].
    destruct (ko_usage ko); try (injection H as <- <-; constructor).
    destruct (cw_exits _ _); injection H as <- <-; repeat constructor.
Qed.
Lemma sticky_fine c ev c' kes : step_sticky c ev = Ok (c', kes) -> all_fine kes.
Proof.
  intros H. unfold step_sticky in H. destruct (try_event as_sticky ev) as [e|]; [|inv_ok H; constructor]. inv_bind H.
  destruct a as [c2 ke]. inv_ok H.
  assert (Hr : forall l ke, ke_extend [] (@st_release_events st_event l) = Ok ke -> all_fine (ke_map CeSticky ke)).
  { intros l ke' Hl. apply push_all_cap_ok in Hl as [-> _]. cbn. induction l as [|m l IH]; constructor; [exact I|exact IH]. }
  unfold st_handle_event in E. cbv zeta in E. runs E; try constructor; eapply Hr; eassumption.
Qed.
Lemma ctx_event_fine c ev c' kes : ctx_fine c -> ev_fine ev -> cctx_handle_event c ev = Ok (c', kes) ->
  ctx_fine c' /\ all_fine kes.
Proof.
  intros [Hc Hq] He H. apply cctx_inv in H as (k1 & k2 & k5 & A & B & _ & _ & S & _ & _ & -> & _).
  apply automation_fine in A as (A1 & A2 & A3); auto. apply caps_fine in B; auto. apply sticky_fine in S.
  split; [split; assumption|]. apply Forall_app. split; [exact A3|]. apply Forall_app. auto.
Qed.

Lemma report_safe : safe_parts conf report_parts.
Proof.
  constructor; cbn.
  - intros i r H. exists r. split; [exact H|apply AaSelf].
  - intros i c r x kes _ Hk H. exact (press_fine _ _ _ _ _ Hk H).
  - intros i c r ps ev ps' n kes _ _ Hk Hw H. exact (pending_fine _ _ _ _ _ _ _ _ Hk Hw H).
  - intros i c r ks ev ks' kes _ _ Hk Hd H. exact (state_fine _ _ _ _ _ _ _ Hk Hd H).
  - intros; exact I.
  - intros c ev c' kes Hc He H. exact (ctx_event_fine _ _ _ _ Hc He H).
  - intros c t i Hc. exact Hc.
Qed.
End Report.

Lemma ctx_fine_new refs d cf : ctx_fine refs d (cf_automation cf) (ctx_from_config cf).
Proof. split; [reflexivity|]. cbn. repeat constructor. Qed.
Lemma inputs_fine refs d cf ops : inputs_ok (report_parts refs d cf ops) ops.
Proof.
  intros o ie Hin Ho. cbn. destruct ie as [i|i|ko|ko]; try exact I.
  destruct o; cbn in Ho; try discriminate; injection Ho as ->; [now apply TbCaller|eapply TbCallerAfter; exact Hin].
Qed.
Lemma reach_report refs d pos dbg fuel ops cf k :
  run_ops (cconf refs d pos dbg) fuel ops (km_new (ctx_from_config cf)) = Ok k ->
  all_ok (report_parts refs d (cf_automation cf) ops) k.
Proof. apply (reach_safe _ _ (report_safe refs d pos dbg _ ops)); [apply inputs_fine|apply ctx_fine_new]. Qed.

Lemma from_key_code_output c : ko_from_key_code c = code_output c 0.
Proof.
  unfold ko_from_key_code, code_output, mods_from_key_code.
  repeat match goal with |- context [c =? ?n] => let E := fresh "E" in destruct (c =? n) eqn:E; [apply N.eqb_eq in E as ->; reflexivity|apply N.eqb_neq in E] end.
  destruct ((224 <=? c) && (c <=? 231)) eqn:Ec; [|reflexivity].
  apply andb_prop in Ec as [A B]. apply N.leb_le in A, B. unfold u8 in *. lia.
Qed.
Lemma with_mods_output c m : ko_from_key_code_with_modifiers c m = code_output c m.
Proof.
  unfold ko_from_key_code_with_modifiers, mods_union. rewrite from_key_code_output. unfold code_output.
  destruct (_ && _); cbn [ko_usage ko_mods]; f_equal; now rewrite ?N.lor_0_r, ?N.lor_0_l.
Qed.
Lemma mouse_output_effect r ko : mouse_key_output r = Ok ko -> ko = mkKO (Mouse (mouse_effect r)) 0.
Proof.
  destruct r; unfold mouse_key_output, mouse_effect; try (intros H; inv_ok H; reflexivity). destruct (_ || _); [discriminate|]. intros H. injection H as <-.
  unfold ko_from_mouse_output. do 3 f_equal. exact (N.shiftl_1_l (b - 1)).
Qed.
Definition as_list {A} (o : option A) : list A := match o with Some x => [x] | None => [] end.
Lemma output_own d r ks o : down_kind r ks -> c_key_output d r ks = Ok o -> own_outputs d r (as_list o).
Proof.
  intros Hd H. destruct r as [j|j| |r|[r]|[r]|r|[r|r]|r|j|j|j]; destruct ks as [| | | | |b| |b]; try contradiction; cbn in H;
    try (inv_ok H; reflexivity).
  - inv_bind H. inv_ok H. destruct r as [c|m|n]; cbn in E.
    + inv_ok E. cbn. now rewrite from_key_code_output.
    + inv_ok E. reflexivity.
    + inv_bind E. inv_ok E. apply index_ok in E0. cbn. eexists. split; [exact E0|]. now rewrite with_mods_output.
  - inv_bind H. inv_ok H. cbn. now rewrite (mouse_output_effect _ _ E).
  - inv_bind H. inv_ok H. apply index_ok in E. cbn. exists a. split; [exact E|]. destruct b; cbn; auto.
Qed.
Lemma own_output d r ks : down_kind r ks -> (exists l, own_outputs d r l) ->
  (forall b, r = RMouse (MsButton b) -> 1 <= b <= 8) -> exists o, c_key_output d r ks = Ok o.
Proof.
  intros Hd (l & Hl) Hb. destruct r as [j|j| |r|[r]|[r]|r|[r|r]|r|j|j|j]; destruct ks as [| | | | |b| |b]; try contradiction; cbn; eauto.
  - destruct r as [c|m|n]; cbn; eauto. destruct Hl as (k & Hk & _). unfold index. rewrite Hk. cbn. eauto.
  - destruct r; cbn; eauto. specialize (Hb _ eq_refl).
    replace ((b =? 0) || (8 <? b)) with false; [cbn; eauto|]. symmetry. apply Bool.orb_false_iff. split; [apply N.eqb_neq|apply N.ltb_ge]; unfold u8 in *; lia.
  - destruct Hl as (k & Hk & _). unfold index. rewrite Hk. cbn. eauto.
Qed.

Section Outputs.
Variables (refs : list ref) (d : key_data) (pos : position_fn) (dbg : bool) (cf : automation_config) (ops : list op).
Local Notation conf := (cconf refs d pos dbg).
Lemma outputs_reported pis : Forall (entry_ok (report_parts refs d cf ops)) pis -> forall kos,
  outputs_of conf pis = Ok kos -> exists ls, kos = concat ls /\ Forall2 (reported refs d) (map shape_of pis) ls.
Proof.
  induction 1 as [|x pis Hx _ IH]; intros kos H; cbn in H.
  - inv_ok H. exists []. split; [reflexivity|constructor].
  - destruct x as [i r ks|ko].
    + inv_bind H. inv_bind H. inv_ok H. destruct (IH _ E0) as (ls & -> & HF). exists (as_list a :: ls).
      split; [destruct a; reflexivity|]. cbn. constructor; [|exact HF]. destruct Hx as [(r0 & A & B) C]. cbn in C.
      exists r0. split; [exact A|]. split; [exact B|]. eapply output_own; eauto.
    + inv_bind H. inv_ok H. destruct (IH _ E) as (ls & -> & HF). exists ([ko] :: ls). split; [reflexivity|].
      cbn. constructor; [reflexivity|exact HF].
Qed.
Lemma outputs_exist pis : Forall (entry_ok (report_parts refs d cf ops)) pis ->
  (forall i r, In (inl (i, r)) (map shape_of pis) ->
     (exists l, own_outputs d r l) /\ forall b, r = RMouse (MsButton b) -> 1 <= b <= 8) ->
  exists kos, outputs_of conf pis = Ok kos.
Proof.
  induction 1 as [|x pis Hx _ IH]; intros H; cbn; [eauto|]. destruct IH as (kos & E); [intros i r Hir; apply (H i r); now right|].
  destruct x as [i r ks|ko].
  - destruct (H i r) as [H1 H2]; [now left|]. destruct Hx as [_ C]. cbn in C.
    destruct (own_output d r ks C H1 H2) as (o & Eo). rewrite Eo. cbn. rewrite E. cbn. eauto.
  - rewrite E. cbn. eauto.
Qed.
Lemma outputs_configured pis : Forall (entry_ok (report_parts refs d cf ops)) pis -> forall kos ko,
  outputs_of conf pis = Ok kos -> In ko kos -> configured refs d (auc_instructions cf) ops ko.
Proof.
  induction 1 as [|x pis Hx _ IH]; intros kos ko H Hin; cbn in H; [inv_ok H; contradiction|].
  destruct x as [i r ks|ko'].
  - inv_bind H. inv_bind H. inv_ok H. destruct a as [ko'|]; [|eauto]. destruct Hin as [->|Hin]; [|eauto].
    right. destruct Hx as [A C]. exists r, [ko]. split; [eapply key_offers; exact A|]. split; [|now left].
    exact (output_own _ _ _ _ C E).
  - inv_bind H. inv_ok H. destruct Hin as [->|Hin]; [|eauto]. left. exact Hx.
Qed.
End Outputs.
