(** The tap-hold key over time, in a keymap that is otherwise at rest (C22). *)
From Verif Require Import BaseFacts Output Types Scheduler Reporter Keymap SpecScheduler SchedulerFacts
  SimpleKeys TapHold TapDance Sticky CapsWord Layered Automation Chorded Composite SpecKeymap SpecTap
  KeymapFacts KeymapInv KeymapQueue KeymapCtx TapFacts CtxFacts.
Local Open Scope N_scope.

(** Neither caps word nor sticky modifiers are active. *)
Definition inert (c : cctx) : Prop := cwx_active (cx_caps_word c) = false /\ stx_active (cx_sticky c) = [].
Definition harmless (ev : event cev) : Prop :=
  match ev with EvKey _ (CeTapHold _) => True | EvKey _ _ => False | _ => True end.

Lemma inert_event c ev c' kes : inert c -> harmless ev -> cctx_handle_event c ev = Ok (c', kes) ->
  kes = [] /\ inert c' /\ seen_rel c c'.
Proof.
  intros [Hc Hs] Hev H. pose proof (cctx_seen _ _ _ _ H) as Hseen.
  apply cctx_inv in H as (k1 & k2 & k5 & H1 & H2 & _ & _ & H5 & _ & _ & -> & _).
  assert (k1 = []).
  { unfold step_automation in H1. destruct ev as [ie|j []|kk]; cbn in *; try contradiction;
      injection H1; auto. }
  assert (k2 = [] /\ cwx_active (cx_caps_word c') = false) as [-> Hc'].
  { unfold step_caps_word in H2. destruct ev as [ie|j []|[cb|j ko]]; cbn in *; try contradiction; rewrite ?Hc in H2;
      injection H2; intros; subst; auto; split; congruence. }
  assert (k5 = [] /\ stx_active (cx_sticky c') = []) as [-> Hs'].
  { unfold step_sticky in H5. destruct ev as [[j|j|ko|ko]|j []|[cb|j ko]]; cbn in *; try contradiction; rewrite ?Hs in H5; cbn in H5;
      try (injection H5; intros; subst; split; congruence).
    destruct (stx_pressed (cx_sticky c)), (stc_release (stx_config (cx_sticky c))); cbn in H5;
      injection H5; intros E1 E2; rewrite <- E1, <- E2; auto. }
  subst k1. repeat split; assumption || apply Hseen.
Qed.

Lemma th_new_waits {R KS} (keys : list (taphold_key R)) ki c i :
  ~ too_soon (thc_required_idle (thx_config c)) (thx_idle c) ->
  th_new_pressed_key (KS := KS) keys ki c i = Ok (th_new_pending c ki).
Proof.
  intros H. unfold th_new_pressed_key. destruct (thc_required_idle _) as [r|] eqn:Er; [|reflexivity].
  destruct (N.leb_spec r (thx_idle c)); [reflexivity|]. exfalso. apply H. exists r. auto.
Qed.
Lemma th_new_taps {R KS} (keys : list (taphold_key R)) ki c i key :
  too_soon (thc_required_idle (thx_config c)) (thx_idle c) -> nth_error keys (N.to_nat i) = Some key ->
  th_new_pressed_key (KS := KS) keys ki c i = Ok (PkNewPressedKey (NpkKey (th_tap key)), []).
Proof.
  intros (r & Hr & Hlt) Hk. unfold th_new_pressed_key, index. rewrite Hr, Hk.
  destruct (N.leb_spec r (thx_idle c)); [lia|reflexivity].
Qed.

Section Time.
Variables (refs : list ref) (d : key_data) (pos : position_fn) (debug : bool).
Local Notation conf := (cconf refs d pos debug).
Variables (ki : u16) (i : u8) (kt kh : keyboard_ref).
Hypothesis Href : nth_error refs (N.to_nat ki) = Some (RTapHold i).
Hypothesis Hkey : nth_error (kd_tap_hold d) (N.to_nat i) = Some (mkTapHold (RKeyboard kt) (RKeyboard kh)).
Implicit Types (k : ckeymap).

Lemma exec_hp_empty fuel k k' : sc_pending (km_sched k) = [] -> exec conf fuel JHandlePending k = Ok k' -> k' = k.
Proof.
  intros Hp H. destruct fuel; [discriminate|]. cbn [exec step] in H. unfold step_handle_pending, sched_dequeue in H.
  rewrite Hp in H. inv_ok H. apply set_sched_same.
Qed.
Lemma exec_up_none fuel ev k k' : km_pending k = None -> exec conf fuel (JUpdatePending ev) k = Ok k' -> k' = k.
Proof.
  intros Hp H. destruct fuel; [discriminate|]. cbn [exec step] in H. unfold step_update_pending in H. rewrite Hp in H. now inv_ok H.
Qed.

(** Only keyboard keys are pressed. *)
Definition keyboard_only k : Prop := Forall (fun pi => exists j r, pi = PiKey j (RKeyboard r) KsKeyboard) (km_pressed k).
Lemma keyboard_update k ev k' : keyboard_only k -> update_pressed conf k ev = Ok k' -> k' = k.
Proof.
  intros Hk H. unfold update_pressed in H. inv_bind H. destruct a as [pis s]. inv_ok H.
  assert (A : forall l s0 pis s1, Forall (fun pi => exists j r, pi = PiKey j (RKeyboard r) KsKeyboard) l ->
      update_pressed_list conf (km_ctx k) ev l s0 = Ok (pis, s1) -> pis = l /\ s1 = s0).
  { induction l as [|pi l IH]; intros s0 pis0 s1 Hl H; cbn in H; [now inv_ok H|].
    inversion Hl as [|? ? (j & r & ->) Hl']; subst. cbn in H. inv_bind H. destruct a as [t' s']. inv_ok H.
    apply IH in E0 as [-> ->]; auto. }
  apply A in E as [-> ->]; [|exact Hk]. now destruct k.
Qed.
Lemma inert_update k ev k' : inert (km_ctx k) -> harmless ev -> update_context conf k ev = Ok k' ->
  exists c, k' = set_ctx k c /\ inert c /\ seen_rel (km_ctx k) c.
Proof.
  intros Hi He H. apply update_context_ok in H as (c & kes & s & -> & Hc & Hs).
  apply inert_event in Hc as (-> & H1 & H2); auto. cbn in Hs. inv_ok Hs. exists c. split; [|auto].
  now destruct k.
Qed.

(** Announcing a resolved key changes nothing but the context. *)
Lemma emit_inert fuel j r0 k k' : km_pending k = None -> keyboard_only k -> inert (km_ctx k) ->
  emit_resolved conf (exec conf fuel) j (RKeyboard r0) KsKeyboard k = Ok k' ->
  exists c, k' = set_ctx k c /\ inert c /\ seen_rel (km_ctx k) c.
Proof.
  intros Hp Hk Hi H. unfold emit_resolved in H. inv_bind H. cbn in E. inv_bind E. inv_ok E.
  destruct fuel; [discriminate|]. cbn [exec step] in H. unfold step_handle_event in H. inv_bind H.
  apply exec_up_none in E; [|exact Hp]. subst a. inv_bind H. apply keyboard_update in E; [|exact Hk]. subst a. inv_bind H.
  inv_ok H. apply inert_update in E; [exact E|exact Hi|exact I].
Qed.

(** Where the undecided key becomes keyboard key [kb]. *)
Lemma exec_resolve fuel kb k k' p : km_pending k = Some p -> km_pressed k = [] -> km_inq k = [] ->
  sc_pending (km_sched k) = [] -> inert (km_ctx k) ->
  pd_index p = ki -> (pd_queued p = [] \/ pd_queued p = [EvInput (Release ki)]) ->
  exec conf fuel (JPendingLoop (NpkKey (RKeyboard kb))) k = Ok k' ->
  exists c, inert c /\ seen_rel (km_ctx k) c /\
    k' = set_inq (set_sched (set_pressed (set_pending (set_ctx k c) None) [PiKey ki (RKeyboard kb) KsKeyboard])
                            (sched_cancel (km_sched k) ki))
                 (filter_map input_of_event (pd_queued p)).
Proof.
  intros Hp Hpr Hq Hs Hi Hx Hqd H. destruct p as [pi pr ps pq]. cbn [pd_index pd_queued] in *. subst pi. destruct fuel; [discriminate|]. cbn [exec step] in H. unfold step_pending_loop in H.
  rewrite Hp in H. cbn in H. destruct fuel; [discriminate|]. cbn [exec step] in H. unfold step_resolve in H.
  cbn [km_pending set_sched set_pending] in H. cbn [pd_index pd_queued pd_ref] in H. cbn [bind] in H. inv_bind H.
  apply push_cap_ok in E as [-> _]. inv_bind H. destruct a as [q s].
  assert (Eqs : q = filter_map input_of_event pq /\ s = sched_cancel (km_sched k) ki).
  { destruct Hqd as [-> | ->]; cbn in E.
    - inv_ok E. auto.
    - rewrite N.eqb_refl in E. cbn in E. inv_ok E. auto. }
  destruct Eqs as [-> ->]. inv_bind H. cbn in E0. rewrite Hq in E0. cbn in E0. inv_ok E0. inv_bind H.
  apply exec_hp_empty in E0; [|exact Hs]. subst a.
  apply emit_inert in H as (c & -> & H1 & H2); [|reflexivity|cbn; rewrite Hpr; repeat constructor; eauto|exact Hi].
  exists c. split; [exact H1|]. split; [exact H2|]. cbn. rewrite Hpr. destruct k; reflexivity.
Qed.

Definition prior (o : option u16) : list (event cev) := match o with Some x => [EvInput (Press x)] | None => [] end.
Definition undecided_key k : Prop :=
  exists o, km_pending k = Some (mkPending ki (RTapHold i) (PksTapHold (mkTHPks o)) []).

(** The timer fires. *)
Lemma exec_timeout fuel k k' : undecided_key k -> km_pressed k = [] -> km_inq k = [] ->
  sc_pending (km_sched k) = [Some (EvKey ki (CeTapHold TapHoldTimeout))] -> inert (km_ctx k) ->
  exec conf fuel JHandlePending k = Ok k' ->
  exists c, inert c /\ seen_rel (km_ctx k) c /\
    k' = set_sched (set_pressed (set_pending (set_ctx k c) None) [PiKey ki (RKeyboard kh) KsKeyboard])
           (mkSched [] (map (cancel_entry ki) (sc_scheduled (km_sched k))) (sc_counter (km_sched k))).
Proof.
  intros (o & Hp) Hpr Hq Hs Hi H. destruct fuel as [|f]; [discriminate|]. cbn [exec step] in H.
  unfold step_handle_pending, sched_dequeue in H. rewrite Hs in H. inv_bind H.
  destruct f as [|f]; [discriminate|]. cbn [exec step] in E. unfold step_handle_event in E. cbn [run_callback] in E.
  inv_bind E. destruct f as [|f]; [discriminate|]. cbn [exec step] in E0. unfold step_update_pending in E0.
  cbn [set_sched km_pending] in E0. rewrite Hp in E0.
  cbn [pd_state pd_index pd_ref pd_queued] in E0. cbn [kc_sys cconf composite sys_update_pending_state] in E0.
  rewrite (tap_hold_step d ki _ i _ Hkey (prior o)) in E0
    by (destruct o; reflexivity).
  cbn [tap_hold_rule bind tap_hold_key th_hold schedule_all sched_all fold_res] in E0.
  apply exec_resolve with (p := mkPending ki (RTapHold i) (PksTapHold (mkTHPks (latest_press
     (prior o ++ [EvKey ki (CeTapHold TapHoldTimeout)])))) []) in E0;
    [|reflexivity|exact Hpr|exact Hq|reflexivity|exact Hi|reflexivity|now left].
  destruct E0 as (c & Hc & Hseen & ->). inv_bind E.
  apply keyboard_update in E0; [|cbn; repeat constructor; eauto]. subst a0. inv_bind E.
  apply inert_update in E0 as (c2 & -> & Hc2 & Hseen2); [|exact Hc|exact I]. inv_ok E.
  apply exec_hp_empty in H; [|reflexivity]. subst k'. exists c2. split; [exact Hc2|].
  split; [eapply seen_rel_trans; eassumption|]. destruct k; cbn in *; subst; reflexivity.
Qed.

(** The key is released while undecided. *)
Lemma exec_release_undecided fuel k k' : undecided_key k -> km_pressed k = [] -> km_inq k = [] ->
  sc_pending (km_sched k) = [] -> inert (km_ctx k) ->
  exec conf fuel (JProcessInput (Release ki)) k = Ok k' ->
  exists c, inert c /\ seen_rel (km_ctx k) c /\
    k' = set_inq (set_sched (set_pressed (set_pending (set_ctx k c) None) [PiKey ki (RKeyboard kt) KsKeyboard])
           (sched_cancel (km_sched k) ki)) [Release ki].
Proof.
  intros (o & Hp) Hpr Hq Hs Hi H. destruct fuel as [|f]; [discriminate|]. cbn [exec step] in H.
  unfold step_process_input in H. rewrite Hp in H. inv_bind H. cbn [pd_queued pd_index pd_ref pd_state] in E.
  inv_bind E. apply push_cap_ok in E0 as [-> _].
  destruct f as [|f]; [discriminate|]. cbn [exec step] in E. unfold step_update_pending in E.
  cbn [set_pending km_pending pd_state pd_index pd_ref pd_queued] in E. cbn [kc_sys cconf composite sys_update_pending_state] in E.
  rewrite (tap_hold_step d ki _ i _ Hkey (prior o)) in E
    by (destruct o; reflexivity).
  cbn [tap_hold_rule] in E. rewrite N.eqb_refl in E. cbn [bind tap_hold_key th_tap schedule_all sched_all fold_res] in E.
  apply exec_resolve with (p := mkPending ki (RTapHold i) (PksTapHold (mkTHPks (latest_press
     (prior o ++ [EvInput (Release ki)])))) [EvInput (Release ki)]) in E;
    [|reflexivity|exact Hpr|exact Hq|exact Hs|exact Hi|reflexivity|now right].
  destruct E as (c & Hc & Hseen & ->). apply exec_hp_empty in H; [|exact Hs]. subst k'. exists c.
  split; [exact Hc|]. split; [exact Hseen|]. destruct k; cbn in *; subst; reflexivity.
Qed.

(** The key is released after it was decided. *)
Lemma exec_release_held fuel kb k k' : km_pending k = None -> km_pressed k = [PiKey ki (RKeyboard kb) KsKeyboard] ->
  sc_pending (km_sched k) = [] -> inert (km_ctx k) ->
  exec conf fuel (JProcessInput (Release ki)) k = Ok k' ->
  exists c, inert c /\ seen_rel (km_ctx k) c /\ k' = set_pressed (set_ctx k c) [].
Proof.
  intros Hp Hpr Hs Hi H. destruct fuel as [|f]; [discriminate|]. cbn [exec step] in H.
  unfold step_process_input in H. rewrite Hp in H. inv_bind H. inv_bind E.
  apply keyboard_update in E0; [|unfold keyboard_only; rewrite Hpr; repeat constructor; eauto]. subst a0.
  inv_bind E. apply inert_update in E0 as (c & -> & Hc & Hseen); [|exact Hi|exact I].
  cbn in E. rewrite Hpr in E. cbn in E. rewrite N.eqb_refl in E. inv_ok E.
  apply exec_hp_empty in H; [|exact Hs]. subst k'. exists c. auto.
Qed.

(** The key is pressed. *)
Lemma exec_press fuel k k' : km_pending k = None -> km_pressed k = [] ->
  sc_pending (km_sched k) = [] -> inert (km_ctx k) ->
  ~ too_soon (thc_required_idle (thx_config (cx_tap_hold (km_ctx k)))) (thx_idle (cx_tap_hold (km_ctx k))) ->
  exec conf fuel (JProcessInput (Press ki)) k = Ok k' ->
  exists c s, inert c /\ seen_rel (km_ctx k) c
    /\ sched_after pos (km_sched k) (thc_timeout (thx_config (cx_tap_hold (km_ctx k)))) (EvKey ki (CeTapHold TapHoldTimeout)) = Ok s
    /\ k' = set_pending (set_sched (set_ctx k c) s) (Some (mkPending ki (RTapHold i) (PksTapHold th_pks_new) [])).
Proof.
  intros Hp Hpr Hs Hi Hidle H. destruct fuel as [|f]; [discriminate|]. cbn [exec step] in H.
  unfold step_process_input in H. rewrite Hp in H. inv_bind H. inv_bind E.
  apply keyboard_update in E0; [|unfold keyboard_only; rewrite Hpr; constructor]. subst a0.
  inv_bind E. apply inert_update in E0 as (c & -> & Hc & Hseen); [|exact Hi|exact I].
  cbn [step_input_dispatch] in E. unfold has_pressed in E. cbn [set_ctx km_pressed] in E. rewrite Hpr in E. cbn [existsb] in E.
  cbn [kc_refs cconf] in E. unfold index in E. rewrite Href in E. cbn [bind] in E.
  destruct f as [|f]; [discriminate|]. cbn [exec step] in E. unfold step_press_loop in E.
  cbn [kc_sys cconf composite sys_new_pressed_key c_new_pressed_key set_ctx km_ctx] in E.
  pose proof Hseen as (Hth & _). rewrite Hth, th_new_waits in E by exact Hidle. cbn in E. inv_bind E. inv_ok E.
  unfold schedule_all in E0. inv_bind E0. inv_ok E0. unfold sched_all in E. cbn [fold_res sched_event_in] in E.
  unfold sched_event_in in E. cbn in E. inv_bind E. inv_ok E.
  assert (Hs' : sc_pending a = []) by (apply sched_after_ok in E0 as (-> & _); exact Hs).
  apply exec_hp_empty in H; [|exact Hs']. subst k'. exists c, a. auto.
Qed.

Lemma exec_press_soon fuel k k' : km_pending k = None -> km_pressed k = [] ->
  sc_pending (km_sched k) = [] -> inert (km_ctx k) ->
  too_soon (thc_required_idle (thx_config (cx_tap_hold (km_ctx k)))) (thx_idle (cx_tap_hold (km_ctx k))) ->
  exec conf fuel (JProcessInput (Press ki)) k = Ok k' ->
  exists c, inert c /\ k' = set_pressed (set_ctx k c) [PiKey ki (RKeyboard kt) KsKeyboard].
Proof.
  intros Hp Hpr Hs Hi Hidle H. destruct fuel as [|f]; [discriminate|]. cbn [exec step] in H.
  unfold step_process_input in H. rewrite Hp in H. inv_bind H. inv_bind E.
  apply keyboard_update in E0; [|unfold keyboard_only; rewrite Hpr; constructor]. subst a0.
  inv_bind E. apply inert_update in E0 as (c & -> & Hc & Hseen); [|exact Hi|exact I].
  cbn [step_input_dispatch] in E. unfold has_pressed in E. cbn [set_ctx km_pressed] in E. rewrite Hpr in E. cbn [existsb] in E.
  cbn [kc_refs cconf] in E. unfold index in E. rewrite Href in E. cbn [bind] in E.
  destruct f as [|f]; [discriminate|]. cbn [exec step] in E. unfold step_press_loop in E.
  cbn [kc_sys cconf composite sys_new_pressed_key c_new_pressed_key set_ctx km_ctx] in E.
  pose proof Hseen as (Hth & _). rewrite Hth, (th_new_taps _ _ _ _ _ Hidle Hkey) in E. cbn [bind map_pkr ke_map map] in E.
  unfold schedule_all, sched_all in E. cbn [fold_res bind] in E.
  destruct f as [|f]; [discriminate|]. cbn [exec step th_tap] in E. unfold step_press_loop in E.
  cbn [kc_sys cconf composite sys_new_pressed_key c_new_pressed_key set_sched set_ctx km_ctx bind] in E.
  unfold schedule_all, sched_all in E. cbn [fold_res bind th_tap] in E.
  unfold push_cap in E. cbn [set_sched set_ctx km_pressed] in E. rewrite Hpr in E. cbn [length Nat.ltb Nat.leb MAX_PRESSED_KEYS app bind] in E.
  apply emit_inert in E as (c2 & -> & Hc2 & _); [|exact Hp|repeat constructor; eauto|exact Hc].
  apply exec_hp_empty in H; [|exact Hs]. subst k'. exists c2. split; [exact Hc2|]. now destruct k.
Qed.

(** ** Stages *)
Definition waits (due now : N) k : Prop :=
  undecided_key k /\ km_pressed k = [] /\ km_inq k = []
  /\ km_sched k = mkSched [] [mkEntry due (EvKey ki (CeTapHold TapHoldTimeout)) true] now /\ inert (km_ctx k).
Definition dead (s : scheduler cev) : Prop := sc_pending s = [] /\ Forall (fun en => en_live en = false) (sc_scheduled s).
Definition is_held kb q k : Prop :=
  km_pending k = None /\ km_pressed k = [PiKey ki (RKeyboard kb) KsKeyboard] /\ km_inq k = q
  /\ dead (km_sched k) /\ inert (km_ctx k).
Definition rests k : Prop :=
  km_pending k = None /\ km_pressed k = [] /\ km_inq k = [] /\ dead (km_sched k) /\ inert (km_ctx k).

Lemma inert_set c t idle : inert c -> inert (cctx_set_keymap_context c t idle).
Proof. exact (fun H => H). Qed.
Lemma dead_tick (s : scheduler cev) ms s' : dead s -> sched_tick s ms = Ok s' ->
  (sc_pending s' = [] \/ sc_pending s' = [None]) /\ Forall (fun en => en_live en = false) (sc_scheduled s').
Proof.
  intros [Hp Hd] H. apply sched_tick_ok in H as (_ & [(A & B & _)|(en & A & _ & B)]).
  - rewrite A, B. auto.
  - rewrite A in Hd. apply Forall_app in Hd as [Hd Hl]. inversion Hl; subst. rewrite B, Hp.
    match goal with H : en_live en = false |- _ => rewrite H end. auto.
Qed.
Lemma exec_hp_hole fuel k k' : sc_pending (km_sched k) = [] \/ sc_pending (km_sched k) = [None] ->
  exec conf fuel JHandlePending k = Ok k' ->
  k' = set_sched k (mkSched [] (sc_scheduled (km_sched k)) (sc_counter (km_sched k))).
Proof.
  intros Hp H. destruct fuel; [discriminate|]. cbn [exec step] in H. unfold step_handle_pending, sched_dequeue in H.
  destruct Hp as [Hp|Hp]; rewrite Hp in H; inv_ok H; [|reflexivity].
  destruct k as [? ? [? ? ?]]; cbn in *; subst; reflexivity.
Qed.

Lemma tick_waits fuel due now k k' : waits due now k -> km_tick conf fuel k = Ok k' ->
  if due <=? now + km_ms_per_tick k then is_held kh [] k' else waits due (now + km_ms_per_tick k) k'.
Proof.
  intros (Hu & Hpr & Hq & Hs & Hi) H. apply tick_cases in H as (k1 & k2 & s & k3 & H1 & E2 & Hs2 & H3 & _ & ->).
  destruct H1 as [(x & q & k1' & Eq & _)|(-> & _)]; [congruence|].
  assert (K2 : undecided_key k2 /\ km_pressed k2 = [] /\ km_inq k2 = [] /\ km_sched k2 = km_sched k
               /\ inert (km_ctx k2) /\ km_ms_per_tick k2 = km_ms_per_tick k).
  { subst k2. destruct (0 <? _); repeat split; auto; apply Hi. }
  destruct K2 as (Hu2 & Hpr2 & Hq2 & Hs3 & Hi2 & Hm). rewrite Hs3, Hs, Hm in Hs2. unfold sched_tick in Hs2.
  cbn [sc_counter sc_scheduled last_opt en_time sc_pending en_live en_event removelast] in Hs2. inv_bind Hs2.
  apply u32_add_ok in E as [-> _]. destruct (due <=? now + km_ms_per_tick k).
  - inv_bind Hs2. cbn in E. inv_ok E. inv_ok Hs2.
    apply exec_timeout in H3 as (c & Hc & _ & ->); [|exact Hu2|exact Hpr2|exact Hq2|reflexivity|exact Hi2].
    repeat split; cbn; auto; apply Hc.
  - inv_ok Hs2. apply exec_hp_empty in H3; [|reflexivity]. subst k3. repeat split; auto; apply Hi2.
Qed.

Lemma tick_held_stays fuel kb q k k' : is_held kb q k -> (q = [] \/ km_delay k <> 0) ->
  km_tick conf fuel k = Ok k' -> is_held kb q k' /\ km_delay k' = km_delay k - 1.
Proof.
  intros (Hp & Hpr & Hq & Hs & Hi) Hw H. apply tick_cases in H as (k1 & k2 & s & k3 & H1 & E2 & Hs2 & H3 & _ & ->).
  destruct H1 as [(x & q' & k1' & Eq & Hz & _)|(-> & _)]; [destruct Hw; congruence|].
  assert (K2 : is_held kb q k2 /\ km_delay k2 = km_delay k - 1).
  { subst k2. destruct (N.ltb_spec 0 (km_delay (set_ctx k (sys_ctx_set_keymap_context (kc_sys conf) (km_ctx k)
        (sc_counter (km_sched k)) (km_idle k))))) as [Hd|Hd]; cbn in Hd |- *; (split; [repeat split; auto; apply Hs || apply Hi|lia]). }
  destruct K2 as ((Hp2 & Hpr2 & Hq2 & Hd2 & Hi2) & Hdl). apply dead_tick in Hs2 as [A B]; [|exact Hd2].
  apply exec_hp_hole in H3; [|exact A]. subst k3. split; [|exact Hdl]. repeat split; auto; apply Hi2.
Qed.
Lemma tick_rests fuel k k' : rests k -> km_tick conf fuel k = Ok k' -> rests k'.
Proof.
  intros (Hp & Hpr & Hq & Hs & Hi) H. apply tick_cases in H as (k1 & k2 & s & k3 & H1 & E2 & Hs2 & H3 & _ & ->).
  destruct H1 as [(x & q' & k1' & Eq & Hz & _)|(-> & _)]; [congruence|].
  assert (K2 : rests k2) by (subst k2; destruct (0 <? _); repeat split; auto; apply Hs || apply Hi).
  destruct K2 as (Hp2 & Hpr2 & Hq2 & Hd2 & Hi2). apply dead_tick in Hs2 as [A B]; [|exact Hd2].
  apply exec_hp_hole in H3; [|exact A]. subst k3. repeat split; auto; apply Hi2.
Qed.
Lemma tick_held_releases fuel kb k k' : is_held kb [Release ki] k -> km_delay k = 0 ->
  km_tick conf fuel k = Ok k' -> rests k'.
Proof.
  intros (Hp & Hpr & Hq & Hs & Hi) Hw H. apply tick_cases in H as (k1 & k2 & s & k3 & H1 & E2 & Hs2 & H3 & _ & ->).
  destruct H1 as [(x & q' & k1' & Eq & Hz & H1 & ->)|(-> & [H1|H1])]; [|congruence|congruence].
  rewrite Hq in Eq. injection Eq as <- <-.
  apply (exec_release_held _ kb) in H1 as (c & Hc & _ & ->); [|exact Hp|exact Hpr|apply Hs|exact Hi].
  assert (K2 : rests k2) by (subst k2; destruct (0 <? _); repeat split; auto; apply Hs || apply Hc).
  destruct K2 as (Hp2 & Hpr2 & Hq2 & Hd2 & Hi2). apply dead_tick in Hs2 as [A B]; [|exact Hd2].
  apply exec_hp_hole in H3; [|exact A]. subst k3. repeat split; auto; apply Hi2.
Qed.

Lemma tick_delay fuel k k' : km_inq k = [] -> km_tick conf fuel k = Ok k' -> km_delay k' = km_delay k - 1.
Proof.
  intros Hq H. apply tick_cases in H as (k1 & k2 & s & k3 & H1 & E2 & Hs2 & H3 & _ & ->).
  destruct H1 as [(x & q' & k1' & Eq & Hz & _)|(-> & _)]; [congruence|].
  apply exec_frame in H3 as (_ & _ & _ & _ & H3 & _). cbn in H3 |- *. rewrite H3. subst k2. cbn.
  destruct (N.ltb_spec 0 (km_delay k)); cbn; lia.
Qed.

Lemma ticks_held fuel kb n : forall k k', is_held kb [] k -> tick_n conf fuel n k = Ok k' -> is_held kb [] k'.
Proof.
  induction n as [|n IH]; intros k k' Hk H; cbn in H; [now inv_ok H|]. inv_bind H.
  apply (tick_held_stays fuel kb []) in E as [E _]; [eauto|exact Hk|now left].
Qed.
Lemma ticks_rests fuel n : forall k k', rests k -> tick_n conf fuel n k = Ok k' -> rests k'.
Proof.
  induction n as [|n IH]; intros k k' Hk H; cbn in H; [now inv_ok H|]. inv_bind H.
  apply tick_rests in E; [eauto|exact Hk].
Qed.
Lemma ticks_delay fuel n : forall k k', km_inq k = [] -> (forall m k2, tick_n conf fuel m k = Ok k2 -> km_inq k2 = []) ->
  tick_n conf fuel n k = Ok k' -> km_delay k' = km_delay k - N.of_nat n.
Proof.
  induction n as [|n IH]; intros k k' Hq Hall H; cbn in H; [inv_ok H; lia|]. inv_bind H.
  pose proof (tick_delay _ _ _ Hq E) as Hd. rewrite (IH a k').
  - lia.
  - apply (Hall 1%nat). cbn. now rewrite E.
  - intros m k2 Hm. apply (Hall (S m)). cbn. now rewrite E.
  - exact H.
Qed.
Lemma ticks_waits fuel n : forall due now k k', waits due now k -> tick_n conf fuel n k = Ok k' ->
  if (0 <? n)%nat && (due <=? now + N.of_nat n * km_ms_per_tick k)
  then is_held kh [] k' else waits due (now + N.of_nat n * km_ms_per_tick k) k'.
Proof.
  induction n as [|n IH]; intros due now k k' Hk H.
  - cbn in H. inv_ok H. cbn. now rewrite N.add_0_r.
  - cbn [tick_n] in H. inv_bind H. pose proof (frame_of_tick _ _ _ _ E) as (_ & Hm & _).
    apply (tick_waits _ due now) in E; [|exact Hk]. cbn [Nat.ltb Nat.leb andb].
    destruct (N.leb_spec due (now + km_ms_per_tick k)).
    + apply (ticks_held _ kh) in H; [|exact E]. destruct (N.leb_spec due (now + N.of_nat (S n) * km_ms_per_tick k)); [exact H|].
      exfalso. nia.
    + apply (IH due (now + km_ms_per_tick k)) in H; [|exact E]. rewrite Hm in H.
      replace (now + N.of_nat (S n) * km_ms_per_tick k) with (now + km_ms_per_tick k + N.of_nat n * km_ms_per_tick k) by nia.
      destruct n as [|n].
      * cbn [Nat.ltb Nat.leb andb] in H. destruct (N.leb_spec due (now + km_ms_per_tick k + N.of_nat 0 * km_ms_per_tick k)); [nia|exact H].
      * exact H.
Qed.

(** ** From a keymap at rest *)
Lemma press_waits fuel k k' : at_rest k ->
  ~ too_soon (thc_required_idle (thx_config (cx_tap_hold (km_ctx k)))) (thx_idle (cx_tap_hold (km_ctx k))) ->
  km_handle_input conf fuel (Press ki) k = Ok k' ->
  waits (sc_counter (km_sched k) + thc_timeout (thx_config (cx_tap_hold (km_ctx k)))) (sc_counter (km_sched k)) k'
  /\ km_delay k' = 1 /\ km_ms_per_tick k' = km_ms_per_tick k.
Proof.
  intros (Hp & Hpr & Hq & Hd & Hsp & Hss & Hi) Hidle H. pose proof (frame_of_handle_input _ _ _ _ _ H) as (_ & Hm & _).
  apply handle_input_cases in H as [(_ & _ & x & q & k2 & Eq & H & ->)|[(_ & Hz & _)|(Hl & _)]].
  - rewrite Hq in Eq. injection Eq as <- <-.
    apply exec_press in H as (c & s & Hc & _ & Hs & ->); [|exact Hp|exact Hpr|exact Hsp|exact Hi|exact Hidle].
    split; [|split; [reflexivity|exact Hm]]. unfold sched_after in Hs. inv_bind Hs. apply u32_add_ok in E as [-> _].
    cbn [set_inq set_idle km_sched km_ctx] in Hs. rewrite Hss in Hs. cbn in Hs.
    destruct (pos [] _) as [|n]; [|discriminate]. inv_ok Hs.
    repeat split; cbn; auto; try apply Hc. now exists None. now rewrite Hsp.
  - congruence.
  - rewrite Hq in Hl. cbn in Hl. unfold INPUT_QUEUE_CAPACITY in Hl. lia.
Qed.

Lemma run_press_ticks fuel n k k' : at_rest k ->
  ~ too_soon (thc_required_idle (thx_config (cx_tap_hold (km_ctx k)))) (thx_idle (cx_tap_hold (km_ctx k))) ->
  run_ops conf fuel (OpInput (Press ki) :: repeat OpTick n) k = Ok k' ->
  km_delay k' = 1 - N.of_nat n
  /\ if (0 <? n)%nat && (thc_timeout (thx_config (cx_tap_hold (km_ctx k))) <=? N.of_nat n * km_ms_per_tick k)
     then is_held kh [] k'
     else exists due now, waits due now k'.
Proof.
  intros Hr Hidle H. unfold run_ops in H. cbn [fold_res run_op] in H. inv_bind H.
  change (run_ops conf fuel (repeat OpTick n) a = Ok k') in H. rewrite <- tick_n_ops in H.
  apply press_waits in E as (Hw & Hd & Hm); [|exact Hr|exact Hidle].
  split.
  - rewrite <- Hd. eapply ticks_delay; [apply Hw| |exact H]. intros m k2 Hm2.
    apply (ticks_waits _ _ _ _ _ _ Hw) in Hm2. destruct (_ && _); [apply Hm2|apply Hm2].
  - apply (ticks_waits _ _ _ _ _ _ Hw) in H. rewrite Hm in H.
    assert (X : (sc_counter (km_sched k) + thc_timeout (thx_config (cx_tap_hold (km_ctx k)))
         <=? sc_counter (km_sched k) + N.of_nat n * km_ms_per_tick k)
       = (thc_timeout (thx_config (cx_tap_hold (km_ctx k))) <=? N.of_nat n * km_ms_per_tick k)).
    { destruct (N.leb_spec (thc_timeout (thx_config (cx_tap_hold (km_ctx k)))) (N.of_nat n * km_ms_per_tick k));
      [apply N.leb_le|apply N.leb_gt]; lia. }
    rewrite X in H. destruct ((0 <? n)%nat && _); [exact H|eauto].
Qed.

(** The outputs of the stages. *)
Variables (ot oh : key_output).
Hypothesis Ht : keyboard_output (kd_keyboard d) kt = Ok ot.
Hypothesis Hh : keyboard_output (kd_keyboard d) kh = Ok oh.
Lemma held_output kb o q k : keyboard_output (kd_keyboard d) kb = Ok o -> is_held kb q k -> km_pressed_keys conf k = Ok [o].
Proof. intros Ho (_ & Hp & _). unfold km_pressed_keys. rewrite Hp. cbn. rewrite Ho. reflexivity. Qed.
Lemma rests_output k : km_pressed k = [] -> km_pressed_keys conf k = Ok [].
Proof. intros Hp. unfold km_pressed_keys. rewrite Hp. reflexivity. Qed.

Lemma tap_hold_time fuel n k k' : at_rest k ->
  ~ too_soon (thc_required_idle (thx_config (cx_tap_hold (km_ctx k)))) (thx_idle (cx_tap_hold (km_ctx k))) ->
  run_ops conf fuel (OpInput (Press ki) :: repeat OpTick n) k = Ok k' ->
  km_pressed_keys conf k'
  = Ok (if (0 <? n)%nat && (thc_timeout (thx_config (cx_tap_hold (km_ctx k))) <=? N.of_nat n * km_ms_per_tick k)
        then [oh] else []).
Proof.
  intros Hr Hidle H. apply run_press_ticks in H as [_ H]; [|exact Hr|exact Hidle].
  destruct (_ && _); [now apply (held_output kh oh [])|]. destruct H as (due & now & H). apply rests_output, H.
Qed.

Lemma tap_hold_soon fuel k k' : at_rest k ->
  too_soon (thc_required_idle (thx_config (cx_tap_hold (km_ctx k)))) (thx_idle (cx_tap_hold (km_ctx k))) ->
  km_handle_input conf fuel (Press ki) k = Ok k' ->
  km_pressed_keys conf k' = Ok [ot] /\ km_pending k' = None /\ km_has_scheduled_events k' = false.
Proof.
  intros (Hp & Hpr & Hq & Hd & Hsp & Hss & Hi) Hidle H.
  apply handle_input_cases in H as [(_ & _ & x & q & k2 & Eq & H & ->)|[(_ & Hz & _)|(Hl & _)]].
  - rewrite Hq in Eq. injection Eq as <- <-.
    apply exec_press_soon in H as (c & Hc & ->); [|exact Hp|exact Hpr|exact Hsp|exact Hi|exact Hidle].
    split; [unfold km_pressed_keys; cbn; now rewrite Ht|]. split; [exact Hp|].
    unfold km_has_scheduled_events. cbn. now rewrite Hsp, Hss.
  - congruence.
  - rewrite Hq in Hl. cbn in Hl. unfold INPUT_QUEUE_CAPACITY in Hl. lia.
Qed.

Lemma tap_hold_release_early fuel n m k k' : at_rest k ->
  ~ too_soon (thc_required_idle (thx_config (cx_tap_hold (km_ctx k)))) (thx_idle (cx_tap_hold (km_ctx k))) ->
  (0 < n)%nat -> N.of_nat n * km_ms_per_tick k < thc_timeout (thx_config (cx_tap_hold (km_ctx k))) ->
  run_ops conf fuel (OpInput (Press ki) :: repeat OpTick n ++ OpInput (Release ki) :: repeat OpTick m) k = Ok k' ->
  km_pressed_keys conf k' = Ok (if (m <? 2)%nat then [ot] else []).
Proof.
  intros Hr Hidle Hn Hlt H. change (OpInput (Press ki) :: repeat OpTick n ++ OpInput (Release ki) :: repeat OpTick m)
    with ((OpInput (Press ki) :: repeat OpTick n) ++ OpInput (Release ki) :: repeat OpTick m) in H.
  rewrite run_ops_app in H. inv_bind H. apply run_press_ticks in E as [Hd E]; [|exact Hr|exact Hidle].
  destruct (N.leb_spec (thc_timeout (thx_config (cx_tap_hold (km_ctx k)))) (N.of_nat n * km_ms_per_tick k)); [lia|].
  rewrite andb_false_r in E. destruct E as (due & now & Hu & Hpr & Hq & Hs & Hi).
  unfold run_ops in H. cbn [fold_res run_op] in H. inv_bind H.
  change (run_ops conf fuel (repeat OpTick m) a0 = Ok k') in H. rewrite <- tick_n_ops in H.
  apply handle_input_cases in E as [(_ & _ & x & q & k2 & Eq & E & ->)|[(_ & Hz & _)|(Hl & _)]].
  - rewrite Hq in Eq. injection Eq as <- <-.
    apply exec_release_undecided in E as (c & Hc & _ & ->); [|exact Hu|exact Hpr|reflexivity|cbn; now rewrite Hs|exact Hi].
    match type of H with tick_n _ _ _ ?s = _ => set (k0 := s) in * end.
    assert (HH0 : is_held kt [Release ki] k0).
    { repeat split; try apply Hc.
      - unfold k0. cbn. now rewrite Hs.
      - unfold k0. cbn. rewrite Hs. cbn. unfold cancel_entry. cbn. rewrite N.eqb_refl. repeat constructor. }
    assert (D0 : km_delay k0 = 1) by reflexivity. clearbody k0.
    destruct m as [|m]; cbn [tick_n] in H; [inv_ok H; now apply (held_output kt ot [Release ki])|]. inv_bind H.
    apply (tick_held_stays _ kt [Release ki]) in E as [H1 D1]; [|exact HH0|right; lia].
    destruct m as [|m]; cbn [tick_n] in H; [inv_ok H; now apply (held_output kt ot [Release ki])|]. inv_bind H.
    apply (tick_held_releases _ kt) in E; [|exact H1|lia]. apply ticks_rests in H; [|exact E].
    cbn [Nat.ltb Nat.leb]. apply rests_output, H.
  - lia.
  - rewrite Hq in Hl. cbn in Hl. unfold INPUT_QUEUE_CAPACITY in Hl. lia.
Qed.

Lemma tap_hold_release_late fuel n m k k' : at_rest k ->
  ~ too_soon (thc_required_idle (thx_config (cx_tap_hold (km_ctx k)))) (thx_idle (cx_tap_hold (km_ctx k))) ->
  (0 < n)%nat -> thc_timeout (thx_config (cx_tap_hold (km_ctx k))) <= N.of_nat n * km_ms_per_tick k ->
  run_ops conf fuel (OpInput (Press ki) :: repeat OpTick n ++ OpInput (Release ki) :: repeat OpTick m) k = Ok k' ->
  km_pressed_keys conf k' = Ok [].
Proof.
  intros Hr Hidle Hn Hlt H. change (OpInput (Press ki) :: repeat OpTick n ++ OpInput (Release ki) :: repeat OpTick m)
    with ((OpInput (Press ki) :: repeat OpTick n) ++ OpInput (Release ki) :: repeat OpTick m) in H.
  rewrite run_ops_app in H. inv_bind H. apply run_press_ticks in E as [Hd E]; [|exact Hr|exact Hidle].
  destruct (N.leb_spec (thc_timeout (thx_config (cx_tap_hold (km_ctx k)))) (N.of_nat n * km_ms_per_tick k)); [|lia].
  destruct (Nat.ltb_spec 0 n); [|lia]. cbn in E. destruct E as (Hp & Hpr & Hq & Hs & Hi).
  unfold run_ops in H. cbn [fold_res run_op] in H. inv_bind H.
  change (run_ops conf fuel (repeat OpTick m) a0 = Ok k') in H. rewrite <- tick_n_ops in H.
  apply handle_input_cases in E as [(_ & _ & x & q & k2 & Eq & E & ->)|[(_ & Hz & _)|(Hl & _)]].
  - rewrite Hq in Eq. injection Eq as <- <-.
    apply (exec_release_held _ kh) in E as (c & Hc & _ & ->); [|exact Hp|exact Hpr|apply Hs|exact Hi].
    apply ticks_rests in H; [apply rests_output, H|]. repeat split; cbn; auto; apply Hs || apply Hc.
  - lia.
  - rewrite Hq in Hl. cbn in Hl. unfold INPUT_QUEUE_CAPACITY in Hl. lia.
Qed.
End Time.
