(** Keyboards with layers and tap-hold keys, computed (C68). *)
From Verif Require Import BaseFacts Output Types Scheduler Reporter Keymap SimpleKeys TapHold TapDance Sticky CapsWord
  Layered Automation Chorded Composite SpecKeymap KeymapHist KeymapQueue KeymapCalls KeymapApi SpecChord ChordFacts ChordHeld SpecPlain PlainFacts
  SpecLayer LayerFacts SpecTap TapFacts TapTime CtxFacts SpecDecide SpecBoard BoardFacts SpecScheduler SchedulerFacts SpecTapBoard.
Local Open Scope N_scope.

(** ** Queued inputs *)
Lemma queued_again (i : u16) (qd : list input_event) : ~ In (Press i) qd -> (forall a z, qd = a ++ Release i :: z -> z = []) ->
  filter (fun ev => negb (is_own_event i ev)) (map (@EvInput cev) qd) ++ last_list (filter (is_own_event i) (map (@EvInput cev) qd))
  = map EvInput qd.
Proof.
  induction qd as [|x qd IH]; intros Hp Hr; [reflexivity|].
  assert (IH' : filter (fun ev => negb (is_own_event i ev)) (map (@EvInput cev) qd) ++ last_list (filter (is_own_event i) (map (@EvInput cev) qd)) = map EvInput qd).
  { apply IH; [intros X; apply Hp; now right|]. intros a z E. apply (Hr (x :: a) z). now rewrite E. }
  cbn [map filter]. destruct (is_own_event i (@EvInput cev x)) eqn:Eo; cbn [negb app]; [|now rewrite IH'].
  destruct x as [j|j|ko|ko]; cbn in Eo; try discriminate; apply N.eqb_eq in Eo; subst j.
  - exfalso. apply Hp. now left.
  - specialize (Hr [] qd eq_refl). subst qd. reflexivity.
Qed.
Lemma requeue_all (conf : kconf ref cctx cev cpks cks) qd : forall n q s, (length q <= 31)%nat ->
  requeue conf (map EvInput qd) n q s = (if (length q + length qd <=? 31)%nat then Ok (q ++ qd, s) else Panic).
Proof.
  induction qd as [|x qd IH]; intros n q s Hq; cbn [map requeue length].
  - rewrite Nat.add_0_r, app_nil_r. apply Nat.leb_le in Hq. now rewrite Hq.
  - unfold push_cap. change INPUT_QUEUE_CAPACITY with 31%nat. destruct (Nat.ltb_spec (length q) 31) as [Hl|Hl]; cbn [bind].
    + rewrite IH by (rewrite app_length; cbn; lia). rewrite app_length. cbn [length]. rewrite <- app_assoc. cbn [app].
      now replace (length q + 1 + length qd)%nat with (length q + S (length qd))%nat by lia.
    + destruct (Nat.leb_spec (length q + S (length qd)) 31); [lia|reflexivity].
Qed.
Lemma push_all_dec {A} cap (xs l : list A) : (length l <= cap)%nat ->
  push_all_cap cap l xs = (if (length l + length xs <=? cap)%nat then Ok (l ++ xs) else Panic).
Proof.
  intros H. destruct (Nat.leb_spec (length l + length xs) cap) as [E|E]; [now apply push_all_cap_total|apply push_all_cap_panic; lia].
Qed.

Lemma tap_hold_ctx c i e : calm c -> cctx_handle_event c (EvKey i (CeTapHold e)) = Ok (c, []).
Proof.
  intros (Hw & Hl & Hs & Hp). unfold cctx_handle_event, step_automation, step_caps_word, step_chorded, step_layered, step_sticky.
  cbn. now rewrite ctx_eta.
Qed.

Section TapBoard.
Variables (refs : list ref) (d : key_data) (pos : position_fn) (dbg : bool) (n : nat).
Local Notation conf := (cconf refs d pos dbg).
Local Notation bstate := (bstate d n).
Local Notation held := (held d n).

Lemma bstate_push sch b (k : ckeymap) i r ks m : bstate sch b k -> existsb (this_key i) (bd_down b) = false ->
  held (PiKey i r ks) (inl (i, m)) ->
  bstate sch (set_down b (bd_down b ++ [inl (i, m)])) (set_pressed k (km_pressed k ++ [PiKey i r ks])).
Proof.
  intros (Hc & Hly & Hh & Hnd & Hsc & Hp) Hi Hm. split; [exact Hc|]. split; [exact Hly|]. split; [|split; [|split; [exact Hsc|exact Hp]]].
  - cbn. apply Forall2_app; [exact Hh|]. constructor; [exact Hm|constructor].
  - unfold shape. cbn [set_down bd_down]. rewrite map_app, keys_app. cbn. apply nodup_snoc; [exact Hnd|]. intros X. apply is_key_In in X. unfold shape in X. rewrite this_forget in X. congruence.
Qed.

(** What a decided key does when it is pressed. *)
Inductive leaf (i : u16) : ref -> cks -> meaning -> Prop :=
| leaf_plain r ko : plain_key d r ko -> leaf i r (ks_plain r) (Sends ko)
| leaf_modifier q lm : nth_error (kd_layer_mods d) (N.to_nat q) = Some lm -> modifier_ok n lm ->
    leaf i (RLayered (LyModifier q)) (KsLayerModifier BhRegular) (Switches lm)
| leaf_callback q cb : nth_error (kd_callback d) (N.to_nat q) = Some cb -> leaf i (RCallback q) KsNoOp (Calls cb).
Lemma leaf_held i r ks m : leaf i r ks m -> held (PiKey i r ks) (inl (i, m)).
Proof.
  destruct 1; cbn; (split; [reflexivity|]); auto.
  - exists q. auto.
  - exists q. auto.
Qed.
Lemma leaf_output i r ks m : leaf i r ks m -> c_key_output d r ks = Ok (match m with Sends ko => Some ko | _ => None end).
Proof. destruct 1; [now apply plain_output|reflexivity|reflexivity]. Qed.
Lemma leaf_events i r ks m : leaf i r ks m -> forall b (k : ckeymap) sch, bstate sch b k -> sc_pending (km_sched k) = press_events i m ->
  forall f, exists k', exec conf (S (S (S f))) JHandlePending k = Ok k' /\ bstate sch (switch n (at_press m) b) k' /\ frame k k'
    /\ sc_pending (km_sched k') = [] /\ km_calls k' = km_calls k ++ filter_map (lm_get (km_callbacks k)) (asks m).
Proof.
  intros Hl b k sch Hb Hs f. destruct (drain_board refs d pos dbg n sch f b k _ (at_press m) Hb Hs) as (k' & E & B & F & P & C).
  { destruct Hl as [r ko H|q lm Hm Hok|q cb H]; [left; split; reflexivity| |]; right; eexists; (split; [reflexivity|]); cbn.
    - split; [reflexivity|]. now apply modifier_events.
    - exact I. }
  exists k'. split; [exact E|]. split; [exact B|]. split; [exact F|]. split; [exact P|]. rewrite C. f_equal. destruct m; reflexivity || (cbn; now rewrite app_nil_r).
Qed.

(** What the keymap puts back of the queued inputs: those of other keys, then the last of its own. *)
Definition again (i : u16) (qd : list input_event) : list (event cev) :=
  filter (fun ev => negb (is_own_event i ev)) (map (@EvInput cev) qd) ++ last_list (filter (is_own_event i) (map (@EvInput cev) qd)).

(** Resolving an undecided key. *)
Lemma resolve_board_gen i r ks m st qd qd' : leaf i r ks m -> again i qd = map EvInput qd' ->
  forall b (k : ckeymap) sch f, bstate sch b (set_pending k None) -> existsb (this_key i) (bd_down b) = false ->
  km_pending k = Some (mkPending i r st (map EvInput qd)) -> sc_pending (km_sched k) = press_events i m ->
  if (length (bd_down b) <? 16)%nat && (length qd' + length (km_inq k) <=? 31)%nat
  then exists k', exec conf (S (S (S (S f)))) (JResolve ks) k = Ok k'
    /\ bstate (map (cancel_entry i) sch) (switch n (at_press m) (set_down b (bd_down b ++ [inl (i, m)]))) k'
    /\ frame (set_inq k (qd' ++ km_inq k)) k' /\ sc_pending (km_sched k') = []
    /\ km_calls k' = km_calls k ++ filter_map (lm_get (km_callbacks k)) (asks m)
  else exec conf (S (S (S (S f)))) (JResolve ks) k = Panic.
Proof.
  intros Hl Hq b k sch f Hb Hi Hp Hs. pose proof Hb as (_ & _ & Hh & _ & Hsc & _).
  change (exec conf (S (S (S (S f)))) (JResolve ks) k) with (step_resolve conf (exec conf (S (S (S f)))) ks k).
  unfold step_resolve. rewrite Hp. cbn [pd_index pd_ref pd_queued].
  unfold push_cap. cbn [km_pressed set_sched set_pending] in *. rewrite (held_length _ _ _ _ Hh). change MAX_PRESSED_KEYS with 16%nat.
  destruct (length (bd_down b) <? 16)%nat; cbn [andb bind]; [|reflexivity].
  unfold again in Hq; rewrite Hq, requeue_all by (cbn; lia). cbn [length Nat.add app].
  destruct (Nat.leb_spec (length qd' + length (km_inq k)) 31) as [L1|L1].
  2:{ destruct (Nat.leb_spec (length qd') 31) as [L2|L2]; cbn [bind]; [|reflexivity]. rewrite push_all_dec by exact L2. cbn [km_inq set_pressed set_sched set_pending].
      destruct (Nat.leb_spec (length qd' + length (km_inq k)) INPUT_QUEUE_CAPACITY) as [L3|L3]; [change INPUT_QUEUE_CAPACITY with 31%nat in L3; lia|reflexivity]. }
  destruct (Nat.leb_spec (length qd') 31) as [L2|L2]; [|lia]. cbn [bind]. rewrite push_all_dec by exact L2.
  change INPUT_QUEUE_CAPACITY with 31%nat. cbn [km_inq set_pressed set_sched set_pending].
  destruct (Nat.leb_spec (length qd' + length (km_inq k)) 31) as [_|L3]; [|lia]. cbn [bind].
  match goal with |- context [exec conf _ JHandlePending ?x] => set (k2 := x) end.
  assert (B2 : bstate (map (cancel_entry i) sch) (set_down b (bd_down b ++ [inl (i, m)])) k2).
  { assert (X := bstate_push sch b (set_pending k None) i r ks m Hb Hi (leaf_held _ _ _ _ Hl)).
    destruct X as (A1 & A2 & A3 & A4 & A5 & A6). split; [exact A1|]. split; [exact A2|]. split; [exact A3|]. split; [exact A4|]. split; [cbn; now rewrite <- Hsc|reflexivity]. }
  destruct (leaf_events i r ks m Hl _ k2 _ B2 Hs f) as (k3 & E3 & B3 & F3 & P3 & C3). rewrite E3. cbn [bind].
  assert (F2 : frame (set_inq k (qd' ++ km_inq k)) k2) by (unfold frame; cbn; auto 10).
  unfold emit_resolved. cbn [kc_sys cconf composite sys_key_output]. rewrite (leaf_output _ _ _ _ Hl). cbn [bind].
  destruct m as [ko|lm|cb|].
  - destruct (event_board refs d pos dbg n _ (S f) _ k3 (EvKeymap (KmResolvedKeyOutput i ko)) None B3 I) as (k4 & E4 & B4 & F4 & S4 & C4).
    exists k4. split; [exact E4|]. split; [exact B4|]. split; [exact (frame_trans _ _ _ F2 (frame_trans _ _ _ F3 F4))|]. split; [now rewrite S4|].
    rewrite C4, C3. cbn. now rewrite !app_nil_r.
  - exists k3. split; [reflexivity|]. split; [exact B3|]. split; [exact (frame_trans _ _ _ F2 F3)|]. split; [exact P3|exact C3].
  - exists k3. split; [reflexivity|]. split; [exact B3|]. split; [exact (frame_trans _ _ _ F2 F3)|]. split; [exact P3|exact C3].
  - exists k3. split; [reflexivity|]. split; [exact B3|]. split; [exact (frame_trans _ _ _ F2 F3)|]. split; [exact P3|exact C3].
Qed.

(** The undecided key becomes a decided key. *)
Lemma pending_board_gen i st qd qd' h r : board_key n d h r -> again i qd = map EvInput qd' ->
  forall b (k : ckeymap) sch f r0, bstate sch b (set_pending k None) -> existsb (this_key i) (bd_down b) = false ->
  km_pending k = Some (mkPending i r0 st (map EvInput qd)) -> sc_pending (km_sched k) = [] ->
  if (length (bd_down b) <? 16)%nat && (length qd' + length (km_inq k) <=? 31)%nat
  then exists m k', means d (bd_on b) (bd_default b) r m /\ exec conf (S (S (S (S (S (h + f)))))) (JPendingLoop (NpkKey r)) k = Ok k'
    /\ bstate (map (cancel_entry i) sch) (switch n (at_press m) (set_down b (bd_down b ++ [inl (i, m)]))) k'
    /\ frame (set_inq k (qd' ++ km_inq k)) k' /\ sc_pending (km_sched k') = []
    /\ km_calls k' = km_calls k ++ filter_map (lm_get (km_callbacks k)) (asks m)
  else exec conf (S (S (S (S (S (h + f)))))) (JPendingLoop (NpkKey r)) k = Panic.
Proof.
  intros Hk Hq. revert r Hk.
  assert (Step : forall r ks m, leaf i r ks m -> forall b (k : ckeymap) sch f r0, bstate sch b (set_pending k None) -> existsb (this_key i) (bd_down b) = false ->
    km_pending k = Some (mkPending i r0 st (map EvInput qd)) -> sc_pending (km_sched k) = [] ->
    exists k1, exec conf (S (S (S (S (S f))))) (JPendingLoop (NpkKey r)) k = exec conf (S (S (S (S f)))) (JResolve ks) k1
      /\ bstate sch b (set_pending k1 None) /\ km_pending k1 = Some (mkPending i r st (map EvInput qd)) /\ sc_pending (km_sched k1) = press_events i m
      /\ frame k k1 /\ km_calls k1 = km_calls k).
  { intros r ks m Hl b k sch f r0 Hb Hi Hp Hs.
    change (exec conf (S (S (S (S (S f))))) (JPendingLoop (NpkKey r)) k) with (step_pending_loop conf (exec conf (S (S (S (S f))))) (NpkKey r) k).
    unfold step_pending_loop. rewrite Hp. cbn [pd_index pd_ref pd_state pd_queued kc_sys cconf composite sys_new_pressed_key].
    pose proof Hb as (A1 & A2 & A3 & A4 & A5 & A6).
    destruct Hl as [r ko H|q lm Hm Hok|q cb H].
    - rewrite (plain_new d _ _ i (km_ctx k) H). cbn [bind schedule_all sched_all fold_res]. unfold schedule_all, sched_all. cbn [fold_res bind].
      eexists. split; [reflexivity|]. split; [split; [exact A1|split; [exact A2|split; [exact A3|split; [exact A4|split; [exact A5|reflexivity]]]]]|].
      split; [reflexivity|]. split; [exact Hs|]. split; [unfold frame; cbn; auto 10|reflexivity].
    - cbn [c_new_pressed_key ly_new_pressed_key]. unfold index. rewrite Hm. cbn [bind].
      assert (E : lm_new_pressed_key lm = (BhRegular, press_effect lm)) by (destruct lm; cbn in *; try contradiction; reflexivity). rewrite E. cbn [bind].
      unfold schedule_all, sched_all. cbn [ke_map map map_sched immediate se_schedule se_event map_event fold_res sched_event_in km_sched set_pending]. unfold sched_enqueue, push_cap. rewrite Hs.
      change (length (@nil (option (event cev))) <? PENDING_CAPACITY)%nat with true. cbn [bind app map_pkr].
      eexists. split; [reflexivity|]. split; [split; [exact A1|split; [exact A2|split; [exact A3|split; [exact A4|split; [exact A5|reflexivity]]]]]|].
      split; [reflexivity|]. split; [reflexivity|]. split; [unfold frame; cbn; auto 10|reflexivity].
    - cbn [c_new_pressed_key]. unfold callback_new_pressed_key, index. rewrite H. cbn [bind].
      unfold schedule_all, sched_all. cbn [immediate se_schedule se_event fold_res sched_event_in km_sched set_pending]. unfold sched_enqueue, push_cap. rewrite Hs.
      change (length (@nil (option (event cev))) <? PENDING_CAPACITY)%nat with true. cbn [bind app].
      eexists. split; [reflexivity|]. split; [split; [exact A1|split; [exact A2|split; [exact A3|split; [exact A4|split; [exact A5|reflexivity]]]]]|].
      split; [reflexivity|]. split; [reflexivity|]. split; [unfold frame; cbn; auto 10|reflexivity]. }
  assert (Leaf : forall r ks m, leaf i r ks m -> (forall on df, means d on df r m) ->
    forall b (k : ckeymap) sch f r0, bstate sch b (set_pending k None) -> existsb (this_key i) (bd_down b) = false ->
    km_pending k = Some (mkPending i r0 st (map EvInput qd)) -> sc_pending (km_sched k) = [] ->
    if (length (bd_down b) <? 16)%nat && (length qd' + length (km_inq k) <=? 31)%nat
    then exists m k', means d (bd_on b) (bd_default b) r m /\ exec conf (S (S (S (S (S f))))) (JPendingLoop (NpkKey r)) k = Ok k'
      /\ bstate (map (cancel_entry i) sch) (switch n (at_press m) (set_down b (bd_down b ++ [inl (i, m)]))) k'
      /\ frame (set_inq k (qd' ++ km_inq k)) k' /\ sc_pending (km_sched k') = []
      /\ km_calls k' = km_calls k ++ filter_map (lm_get (km_callbacks k)) (asks m)
    else exec conf (S (S (S (S (S f))))) (JPendingLoop (NpkKey r)) k = Panic).
  { intros r ks m Hl Hm b k sch f r0 Hb Hi Hp Hs. destruct (Step r ks m Hl b k sch f r0 Hb Hi Hp Hs) as (k1 & E1 & B1 & P1 & S1 & F1 & C1).
    pose proof (resolve_board_gen i r ks m st qd qd' Hl Hq b k1 sch f B1 Hi P1 S1) as X. rewrite E1.
    pose proof F1 as (G1 & G2 & G3 & G4 & G5 & G6 & G7). rewrite G1 in X.
    destruct ((length (bd_down b) <? 16)%nat && (length qd' + length (km_inq k) <=? 31)%nat); [|exact X].
    destruct X as (k' & E & B & F & P & C). exists m, k'. split; [apply Hm|]. split; [exact E|]. split; [exact B|]. split; [|split; [exact P|now rewrite C, C1, G7]].
    eapply frame_trans; [|exact F]. unfold frame. cbn. rewrite ?G1. auto 10. }
  intros r Hk. induction Hk as [h r ko Hk|h q lm Hm Hok|h q cb Hcb|h q lk Hk Hlen _ IHb _ IHl]; intros b k sch f r0 Hb Hi Hp Hs.
  - eapply (Leaf r _ (Sends ko)); try eassumption; [now constructor|intros; now constructor].
  - eapply (Leaf _ _ (Switches lm)); try eassumption; [now constructor|intros; now constructor].
  - eapply (Leaf _ _ (Calls cb)); try eassumption; [now constructor|intros; now constructor].
  - match goal with |- context [exec conf (S ?f0) (JPendingLoop ?x) k] => change (exec conf (S f0) (JPendingLoop x) k) with (step_pending_loop conf (exec conf f0) x k) end.
    unfold step_pending_loop. rewrite Hp. cbn [pd_index pd_ref pd_state pd_queued kc_sys cconf composite sys_new_pressed_key].
    cbn [c_new_pressed_key ly_new_pressed_key]. unfold index. rewrite Hk. cbn [bind].
    pose proof Hb as (A1 & (Ln & Lo & Ld & Lr) & A3 & A4 & A5 & A6). cbn [km_ctx set_pending] in *.
    destruct (layered_total lk (cx_layered (km_ctx k))) as (r' & Er); [congruence| |].
    { rewrite Ld, Ln. exact Lr. }
    rewrite Er. cbn [bind map_pkr ke_map map]. unfold schedule_all, sched_all. cbn [fold_res bind].
    assert (Ha : acts_as lk (fun l => bd_on b l = true) (bd_default b) r').
    { apply layered_lookup in Er. rewrite <- Ld. eapply acts_as_ext; [|exact Er]. intros l. rewrite layer_on_is_on, Lo. reflexivity. }
    match goal with |- context [exec conf _ (JPendingLoop (NpkKey r')) ?x] => set (k1 := x) end.
    assert (B1 : bstate sch b (set_pending k1 None)) by (split; [exact A1|split; [split; [exact Ln|split; [exact Lo|split; [exact Ld|exact Lr]]]|split; [exact A3|split; [exact A4|split; [exact A5|reflexivity]]]]]).
    assert (IH : forall f, if (length (bd_down b) <? 16)%nat && (length qd' + length (km_inq k1) <=? 31)%nat
      then exists m k', means d (bd_on b) (bd_default b) r' m /\ exec conf (S (S (S (S (S (h + f)))))) (JPendingLoop (NpkKey r')) k1 = Ok k'
        /\ bstate (map (cancel_entry i) sch) (switch n (at_press m) (set_down b (bd_down b ++ [inl (i, m)]))) k'
        /\ frame (set_inq k1 (qd' ++ km_inq k1)) k' /\ sc_pending (km_sched k') = []
        /\ km_calls k' = km_calls k1 ++ filter_map (lm_get (km_callbacks k1)) (asks m)
      else exec conf (S (S (S (S (S (h + f)))))) (JPendingLoop (NpkKey r')) k1 = Panic).
    { intros f'. destruct (acts_as_entry _ _ _ _ Ha) as [->|Hin]; [eapply IHb; try eassumption; reflexivity|eapply (IHl r' Hin); try eassumption; reflexivity]. }
    specialize (IH f). change (S h + f)%nat with (S (h + f)). change (km_inq k1) with (km_inq k) in IH. change (km_calls k1) with (km_calls k) in IH. change (km_callbacks k1) with (km_callbacks k) in IH.
    destruct ((length (bd_down b) <? 16)%nat && (length qd' + length (km_inq k) <=? 31)%nat); [|exact IH].
    destruct IH as (m & k' & M & E & B & F & X). exists m, k'. split; [eapply means_layered; eassumption|]. split; [exact E|]. split; [exact B|]. split; [|exact X].
    eapply frame_trans; [|exact F]. unfold frame. cbn. auto 10.
Qed.

Lemma pending_board i st qd h r : board_key n d h r -> ~ In (Press i) qd -> (forall a z, qd = a ++ Release i :: z -> z = []) ->
  forall b (k : ckeymap) sch f r0, bstate sch b (set_pending k None) -> existsb (this_key i) (bd_down b) = false ->
  km_pending k = Some (mkPending i r0 st (map EvInput qd)) -> sc_pending (km_sched k) = [] ->
  if (length (bd_down b) <? 16)%nat && (length qd + length (km_inq k) <=? 31)%nat
  then exists m k', means d (bd_on b) (bd_default b) r m /\ exec conf (S (S (S (S (S (h + f)))))) (JPendingLoop (NpkKey r)) k = Ok k'
    /\ bstate (map (cancel_entry i) sch) (switch n (at_press m) (set_down b (bd_down b ++ [inl (i, m)]))) k'
    /\ frame (set_inq k (qd ++ km_inq k)) k' /\ sc_pending (km_sched k') = []
    /\ km_calls k' = km_calls k ++ filter_map (lm_get (km_callbacks k)) (asks m)
  else exec conf (S (S (S (S (S (h + f)))))) (JPendingLoop (NpkKey r)) k = Panic.
Proof. intros Hk Hq1 Hq2. exact (pending_board_gen i st qd qd h r Hk (queued_again i qd Hq1 Hq2)). Qed.

(** ** Pressing a key that may be a tap-hold key *)
Definition soon (c : cctx) : Prop := too_soon (thc_required_idle (thx_config (cx_tap_hold c))) (thx_idle (cx_tap_hold c)).
Lemma soon_dec c : soon c \/ ~ soon c.
Proof.
  unfold soon, too_soon. destruct (thc_required_idle _) as [r|]; [|right; intros (r & E & _); discriminate].
  destruct (N.lt_ge_cases (thx_idle (cx_tap_hold c)) r) as [H|H]; [left; exists r; auto|right]. intros (r' & E & X). injection E as <-. lia.
Qed.
(** The key [r] is the tap-hold key [key], numbered [q], under the layers of the board. *)
Definition stands_for (b : board) (height : nat) (r : ref) (q : u8) (key : taphold_key ref) : Prop :=
  nth_error (kd_tap_hold d) (N.to_nat q) = Some key /\ board_key n d height (th_tap key) /\ board_key n d height (th_hold key)
  /\ forall x m, means d (bd_on b) (bd_default b) (picks key x) m -> may_mean d (bd_on b) (bd_default b) r (Some x) m.
Definition timer (i : u16) : event cev := EvKey i (CeTapHold TapHoldTimeout).
Definition undecided_from (k : ckeymap) (i : u16) (q : u8) (s : scheduler cev) : ckeymap :=
  set_pending (set_sched k s) (Some (mkPending i (RTapHold q) (PksTapHold th_pks_new) [])).

Lemma board_key_up h r : board_key n d h r -> board_key n d (S h) r.
Proof.
  induction 1 as [h r ko Hk|h q lm Hm Hok|h q cb Hcb|h q lk Hk Hlen _ IHb _ IHl].
  - eapply bk_plain; eassumption.
  - eapply bk_modifier; eassumption.
  - eapply bk_callback; eassumption.
  - eapply bk_layered; eassumption.
Qed.
Lemma press_tap h r : tap_board_key n d h r -> forall sch f i b (k : ckeymap), bstate sch b k -> sc_pending (km_sched k) = [] ->
  existsb (this_key i) (bd_down b) = false ->
  (exists x, (x = None \/ x = Some Hurried /\ soon (km_ctx k))
    /\ if (length (bd_down b) <? 16)%nat
    then exists m k', may_mean d (bd_on b) (bd_default b) r x m /\ exec conf (S (S (S (h + f)))) (JPressLoop i r) k = Ok k'
      /\ bstate sch (set_down b (bd_down b ++ [inl (i, m)])) k' /\ frame k k' /\ sc_pending (km_sched k') = press_events i m /\ km_calls k' = km_calls k
      /\ (forall lm, m = Switches lm -> modifier_ok n lm)
    else exec conf (S (S (S (h + f)))) (JPressLoop i r) k = Panic)
  \/ (~ soon (km_ctx k) /\ exists q key, stands_for b h r q key
      /\ exec conf (S (S (S (h + f)))) (JPressLoop i r) k
         = (let! s := sched_after pos (km_sched k) (thc_timeout (thx_config (cx_tap_hold (km_ctx k)))) (timer i) in Ok (undecided_from k i q s))).
Proof.
  induction 1 as [h r Hk|h q key Hk Ht Hh|h q lk Hk Hlen _ IHb _ IHl]; intros sch f i b k Hb Hs Hi.
  - left. exists None. split; [now left|]. pose proof (press_board refs d pos dbg n h r Hk sch f i b k Hb Hs Hi) as X.
    destruct (length (bd_down b) <? 16)%nat; [|exact X]. destruct X as (m & k' & M & X). exists m, k'. split; [now constructor|exact X].
  - change (exec conf (S (S (S (S h + f)))) (JPressLoop i (RTapHold q)) k) with (step_press_loop conf (exec conf (S (S (S (h + f))))) i (RTapHold q) k).
    unfold step_press_loop. cbn [kc_sys cconf composite sys_new_pressed_key c_new_pressed_key].
    destruct (soon_dec (km_ctx k)) as [So|So].
    + left. exists (Some Hurried). split; [right; auto|]. rewrite (th_new_taps _ _ _ _ key So Hk). cbn [bind map_pkr ke_map map].
      unfold schedule_all, sched_all. cbn [fold_res bind]. rewrite set_sched_id.
      pose proof (press_board refs d pos dbg n h (th_tap key) Ht sch f i b k Hb Hs Hi) as X.
      destruct (length (bd_down b) <? 16)%nat; [|exact X]. destruct X as (m & k' & M & X). exists m, k'. split; [eapply mm_tap_hold; [exact Hk|exact M]|exact X].
    + right. split; [exact So|]. exists q, key. split.
      { split; [exact Hk|]. split; [now apply board_key_up|]. split; [now apply board_key_up|]. intros x m M. eapply mm_tap_hold; eassumption. }
      rewrite (th_new_waits _ _ _ _ So). unfold th_new_pending. cbn [bind map_pkr ke_map map after map_sched se_schedule se_event map_event].
      unfold schedule_all, sched_all. cbn [fold_res].
      change (sched_event_in (kc_pos conf) (km_sched k) _) with (sched_after pos (km_sched k) (thc_timeout (thx_config (cx_tap_hold (km_ctx k)))) (timer i)).
      destruct (sched_after pos (km_sched k) _ _); reflexivity.
  - change (exec conf (S (S (S (S h + f)))) (JPressLoop i (RLayered (LyLayered q))) k) with (step_press_loop conf (exec conf (S (S (S (h + f))))) i (RLayered (LyLayered q)) k).
    unfold step_press_loop. cbn [kc_sys cconf composite sys_new_pressed_key c_new_pressed_key ly_new_pressed_key]. unfold index. rewrite Hk. cbn [bind].
    pose proof Hb as (_ & (Ln & Lo & Ld & Lr) & _). destruct (layered_total lk (cx_layered (km_ctx k))) as (r' & Er); [congruence| |].
    { rewrite Ld, Ln. exact Lr. }
    rewrite Er. cbn [bind map_pkr ke_map map]. unfold schedule_all, sched_all. cbn [fold_res bind]. rewrite set_sched_id.
    assert (Ha : acts_as lk (fun l => bd_on b l = true) (bd_default b) r').
    { apply layered_lookup in Er. rewrite <- Ld. eapply acts_as_ext; [|exact Er]. intros l. rewrite layer_on_is_on, Lo. reflexivity. }
    assert (IH : forall sch f i b (k : ckeymap), bstate sch b k -> sc_pending (km_sched k) = [] -> existsb (this_key i) (bd_down b) = false ->
      (exists x, (x = None \/ x = Some Hurried /\ soon (km_ctx k))
        /\ if (length (bd_down b) <? 16)%nat
        then exists m k', may_mean d (bd_on b) (bd_default b) r' x m /\ exec conf (S (S (S (h + f)))) (JPressLoop i r') k = Ok k'
          /\ bstate sch (set_down b (bd_down b ++ [inl (i, m)])) k' /\ frame k k' /\ sc_pending (km_sched k') = press_events i m /\ km_calls k' = km_calls k
          /\ (forall lm, m = Switches lm -> modifier_ok n lm)
        else exec conf (S (S (S (h + f)))) (JPressLoop i r') k = Panic)
      \/ (~ soon (km_ctx k) /\ exists q key, stands_for b h r' q key
          /\ exec conf (S (S (S (h + f)))) (JPressLoop i r') k
             = (let! s := sched_after pos (km_sched k) (thc_timeout (thx_config (cx_tap_hold (km_ctx k)))) (timer i) in Ok (undecided_from k i q s)))).
    { destruct (acts_as_entry _ _ _ _ Ha) as [->|Hin]; [exact IHb|exact (IHl r' Hin)]. }
    destruct (IH sch f i b k Hb Hs Hi) as [(x & Hx & X)|(So & q' & key & (S1 & S2 & S3 & S4) & E)].
    + left. exists x. split; [exact Hx|]. destruct (length (bd_down b) <? 16)%nat; [|exact X]. destruct X as (m & k' & M & X). exists m, k'.
      split; [eapply mm_layered; eassumption|exact X].
    + right. split; [exact So|]. exists q', key. split; [|exact E]. split; [exact S1|]. split; [now apply board_key_up|]. split; [now apply board_key_up|].
      intros x m M. eapply mm_layered; [exact Hk|exact Ha|]. now apply S4.
Qed.

Variable height : nat.
Hypothesis Hrefs : Forall (tap_board_key n d height) refs.
Local Notation fuel4 f := (S (S (S (S (height + f))))).

(** Taking an input while no key is undecided. *)
Lemma process_tap sch f b (k k' : ckeymap) ie : bstate sch b k -> sc_pending (km_sched k) = [] ->
  (forall i, ie = Press i -> existsb (this_key i) (bd_down b) = false) ->
  exec conf (fuel4 f) (JProcessInput ie) k = Ok k' ->
  exists h, step_chorded (cx_chorded (km_ctx k)) (EvInput ie) = Ok h /\ sc_pending (km_sched k') = []
  /\ framed k k' h /\
  ((exists i r x m, ie = Press i /\ nth_error refs (N.to_nat i) = Some r /\ (x = None \/ x = Some Hurried /\ soon (km_ctx k))
        /\ may_mean d (bd_on b) (bd_default b) r x m
        /\ bstate sch (switch n (at_press m) (set_down b (bd_down b ++ [inl (i, m)]))) k'
        /\ km_calls k' = km_calls k ++ filter_map (lm_get (km_callbacks k)) (asks m))
     \/ ((forall i, ie <> Press i) /\ exists b', board_step n refs d b ie b' /\ bstate sch b' k' /\ km_calls k' = km_calls k)
     \/ (~ soon (km_ctx k) /\ exists i r q key s, ie = Press i /\ nth_error refs (N.to_nat i) = Some r /\ stands_for b height r q key
          /\ sched_after pos (km_sched k) (thc_timeout (thx_config (cx_tap_hold (km_ctx k)))) (timer i) = Ok s
          /\ km_pending k' = Some (mkPending i (RTapHold q) (PksTapHold th_pks_new) []) /\ km_sched k' = s
          /\ bstate (sc_scheduled s) b (set_pending k' None) /\ km_calls k' = km_calls k)).
Proof.
  intros H Hs Hnew E. pose proof H as (Hc & Hly & Hh & Hnd & Hsc & Hp).
  assert (Hone : (forall i, ie <> Press i) \/ exists i, ie = Press i) by (destruct ie as [i|i|ko|ko]; [right; exists i; reflexivity|left; discriminate..]).
  destruct Hone as [Hno|(i & ->)].
  - assert (Hv : forall i r, ie = Press i -> nth_error refs (N.to_nat i) = Some r -> board_key n d height r) by (intros i r X; now apply Hno in X).
    pose proof (process_board refs d pos dbg n height sch f b k ie H Hs Hv) as X.
    destruct (step_chorded (cx_chorded (km_ctx k)) (EvInput ie)) as [h| |]; [|rewrite E in X; discriminate..].
    destruct (board_input_ok refs b ie); [|congruence]. destruct X as (b' & cs & k1 & Hst & Hcs & E1 & B1 & F1 & P1 & C1). rewrite E in E1. injection E1 as <-.
    exists h. split; [reflexivity|]. split; [exact P1|]. split; [exact F1|]. right. left. split; [exact Hno|].
    exists b'. split; [exact Hst|]. split; [exact B1|]. rewrite C1. replace cs with (@nil callback); [apply app_nil_r|].
    inversion Hcs; subst; try reflexivity. now elim (Hno i).
  - specialize (Hnew i eq_refl).
    change (exec conf (fuel4 f) (JProcessInput (Press i)) k) with (step_process_input conf (exec conf (S (S (S (height + f))))) (Press i) k) in E.
    unfold step_process_input in E. rewrite Hp in E. rewrite (update_pressed_board refs d pos dbg n b) in E by (try exact Hh; discriminate). cbn [bind] in E.
    unfold update_context in E. cbn [kc_sys cconf composite sys_ctx_handle_event] in E. rewrite calm_input in E by exact Hc.
    destruct (step_chorded (cx_chorded (km_ctx k)) (EvInput (Press i))) as [h| |] eqn:Eh; cbn [bind] in E; try discriminate.
    exists h. split; [reflexivity|]. unfold schedule_all, sched_all in E. cbn [fold_res bind] in E. rewrite set_sched_id in E.
    set (k2 := set_ctx k (with_chorded (km_ctx k) h)) in E.
    assert (B2 : bstate sch b k2).
    { split; [eapply chorded_calm; [exact Hc|exact Eh]|]. split; [exact Hly|]. split; [exact Hh|]. split; [exact Hnd|]. split; [exact Hsc|exact Hp]. }
    assert (Fin : forall k', frame k2 k' -> framed k k' h).
    { intros k3 (A & B & C & D & E' & G & J). unfold framed. repeat split; [exact A|exact B|exact C|exact D|exact E'|exact G|exact J]. }
    cbn [step_input_dispatch] in E. unfold has_pressed in E. change (km_pressed k2) with (km_pressed k) in E. rewrite (has_held _ _ _ _ _ Hh), Hnew in E.
    unfold index in E. cbn [kc_refs cconf] in E. destruct (nth_error refs (N.to_nat i)) as [r|] eqn:Er; [|discriminate E]. cbn [bind] in E.
    assert (Hbk : tap_board_key n d height r) by (eapply Forall_forall; [exact Hrefs|eapply nth_error_In; exact Er]).
    destruct (press_tap height r Hbk sch f i b k2 B2 Hs Hnew) as [(x & Hx & X)|(So & q & key & St & X)].
    + destruct (length (bd_down b) <? 16)%nat; [|rewrite X in E; discriminate]. destruct X as (m & k3 & M & E3 & B3 & F3 & P3 & C3 & Hok).
      rewrite E3 in E. cbn [bind] in E.
      destruct (drain_board refs d pos dbg n sch (height + f) _ k3 _ (at_press m) B3 P3) as (k4 & E4 & B4 & F4 & P4 & C4).
      { destruct m as [ko|lm|cb|]; try (left; split; reflexivity); right; eexists; (split; [reflexivity|]); cbn.
        - split; [reflexivity|]. destruct (modifier_events n lm (Hok lm eq_refl)) as [X _]. exact X.
        - exact I. }
      rewrite E4 in E. injection E as <-. split; [exact P4|]. split; [apply Fin; eapply frame_trans; eassumption|]. left.
      exists i, r, x, m. split; [reflexivity|]. split; [exact Er|]. split; [exact Hx|]. split; [exact M|]. split; [exact B4|].
      assert (L3 : km_callbacks k3 = km_callbacks k) by (destruct F3 as (_ & _ & _ & _ & _ & _ & G); rewrite G; reflexivity).
      rewrite C4, C3. f_equal. destruct m as [ko|lm|cb|]; try reflexivity. cbn [press_events flat_map called asks]. now rewrite L3, app_nil_r.
    + rewrite X in E. change (km_sched k2) with (km_sched k) in E. change (thx_config (cx_tap_hold (km_ctx k2))) with (thx_config (cx_tap_hold (km_ctx k))) in E.
      destruct (sched_after pos (km_sched k) _ (timer i)) as [s| |] eqn:Es; try discriminate E. cbn [bind] in E.
      assert (Ps : sc_pending s = [] /\ sc_counter s = sc_counter (km_sched k)).
      { unfold sched_after in Es. inv_bind Es. destruct (_ <? _)%nat; [|discriminate]. destruct (_ <=? _)%nat; [|discriminate]. injection Es as <-. split; [exact Hs|reflexivity]. }
      destruct Ps as (Ps & Pc). rewrite drain0 in E by exact Ps. injection E as <-. split; [exact Ps|]. split; [unfold framed; cbn; auto 10|]. right. right.
      split; [exact So|]. exists i, r, q, key, s. split; [reflexivity|]. split; [exact Er|]. split; [exact St|]. split; [exact Es|]. split; [reflexivity|]. split; [reflexivity|].
      split; [|reflexivity]. destruct B2 as (A1 & A2 & A3 & A4 & _ & _). split; [exact A1|]. split; [exact A2|]. split; [exact A3|]. split; [exact A4|]. split; reflexivity.
Qed.

(** ** An undecided key *)
Definition waits_for (i : u16) (q : u8) (qd : list input_event) : pending_state ref cev cpks :=
  mkPending i (RTapHold q) (PksTapHold (mkTHPks (latest_press (map (@EvInput cev) qd)))) (map EvInput qd).
Definition undecided_at (ir : interrupt_response) (b : board) (i : u16) (q : u8) (key : taphold_key ref) (qd : list input_event) (k : ckeymap) : Prop :=
  km_pending k = Some (waits_for i q qd) /\ bstate (sc_scheduled (km_sched k)) b (set_pending k None)
  /\ existsb (this_key i) (bd_down b) = false /\ (exists r, nth_error refs (N.to_nat i) = Some r /\ stands_for b height r q key)
  /\ ~ In (Press i) qd /\ first_decision (tap_hold_rule ir i) [] (map EvInput qd) = None.

Lemma undecided_release ir i qd : forall hist, first_decision (tap_hold_rule ir i) hist (map EvInput qd) = None -> ~ In (Release i) qd.
Proof.
  clear. induction qd as [|x qd IH]; intros hist H; cbn [map first_decision] in H; [intros []|].
  destruct (tap_hold_rule ir i hist (EvInput x)) eqn:E; [discriminate|]. intros [->|X]; [|eapply IH; eassumption].
  cbn in E. rewrite N.eqb_refl in E. discriminate.
Qed.
Lemma first_snoc ir i qd x : forall hist, first_decision (tap_hold_rule ir i) hist (map EvInput qd) = None ->
  tap_hold_rule ir i (hist ++ map EvInput qd) (EvInput x) = None -> first_decision (tap_hold_rule ir i) hist (map EvInput (qd ++ [x])) = None.
Proof.
  clear. induction qd as [|y qd IH]; intros hist H E; cbn [map first_decision app] in *; [rewrite app_nil_r in E; now rewrite E|].
  destruct (tap_hold_rule ir i hist (EvInput y)); [discriminate|]. apply IH; [exact H|]. now rewrite <- app_assoc.
Qed.
Lemma releases_last (i : u16) qd x : ~ In (Release i) qd -> forall a z, qd ++ [x] = a ++ Release i :: z -> z = [].
Proof.
  clear. intros H a z E. destruct z as [|y z _] using rev_ind; [reflexivity|]. exfalso. apply H.
  replace (a ++ Release i :: z ++ [y]) with ((a ++ Release i :: z) ++ [y]) in E by now rewrite <- app_assoc.
  apply app_inj_tail in E as (-> & _). apply in_or_app. right. now left.
Qed.

Definition decided (b : board) (i : u16) (key : taphold_key ref) (x : tap_or_hold) (k : ckeymap) (inq : list input_event) (k' : ckeymap) : Prop :=
  exists m, means d (bd_on b) (bd_default b) (tap_hold_key key x) m
  /\ bstate (map (cancel_entry i) (sc_scheduled (km_sched k))) (switch n (at_press m) (set_down b (bd_down b ++ [inl (i, m)]))) k'
  /\ frame (set_inq k inq) k' /\ sc_pending (km_sched k') = []
  /\ km_calls k' = km_calls k ++ filter_map (lm_get (km_callbacks k)) (asks m).
Local Notation fuel7 f := (S (S (S (S (S (S (S (height + f)))))))).

Lemma pending_decides b i q key qd st (x : tap_or_hold) f (k k' : ckeymap) : bstate (sc_scheduled (km_sched k)) b (set_pending k None) -> existsb (this_key i) (bd_down b) = false ->
  (exists r, stands_for b height r q key) -> km_pending k = Some (mkPending i (RTapHold q) st (map EvInput qd)) ->
  ~ In (Press i) qd -> (forall a z, qd = a ++ Release i :: z -> z = []) -> sc_pending (km_sched k) = [] ->
  exec conf (S (S (S (S (S (height + f)))))) (JPendingLoop (NpkKey (tap_hold_key key x))) k = Ok k' ->
  decided b i key x k (qd ++ km_inq k) k'.
Proof.
  intros Hb Hi (r & _ & Ht & Hh & _) Hp Hq1 Hq2 Hs E.
  assert (Hk : board_key n d height (tap_hold_key key x)) by (destruct x; assumption).
  pose proof (pending_board i st qd height _ Hk Hq1 Hq2 b k _ f _ Hb Hi Hp Hs) as X. rewrite E in X.
  destruct ((_ <? _)%nat && _); [|discriminate]. destruct X as (m & k1 & M & E1 & B & F & P & C). injection E1 as <-.
  exists m. auto.
Qed.
(** Taking an input while a key is undecided. *)
Lemma process_pending b i q key qd f (k k' : ckeymap) ie : let ir := thc_interrupt (thx_config (cx_tap_hold (km_ctx k))) in
  undecided_at ir b i q key qd k -> sc_pending (km_sched k) = [] -> ie <> Press i ->
  exec conf (fuel7 f) (JProcessInput ie) k = Ok k' ->
  match tap_hold_rule ir i (map EvInput qd) (EvInput ie) with
  | None => k' = set_pending k (Some (waits_for i q (qd ++ [ie]))) /\ undecided_at ir b i q key (qd ++ [ie]) k'
  | Some x => decided b i key x k ((qd ++ [ie]) ++ km_inq k) k'
  end.
Proof.
  intros ir (Hp & Hb & Hi & (r & Er & Hst) & Hnp & Hfd) Hs Hne E.
  change (exec conf (fuel7 f) (JProcessInput ie) k) with (step_process_input conf (exec conf (S (S (S (S (S (S (height + f)))))))) ie k) in E.
  unfold step_process_input in E. rewrite Hp in E. unfold waits_for in E. cbn [pd_queued pd_index pd_ref pd_state] in E. inv_bind E. inv_bind E0.
  unfold push_cap in E1. destruct (_ <? _)%nat; [|discriminate]. injection E1 as <-.
  match type of E0 with exec conf (S ?f0) (JUpdatePending ?ev) ?x = _ => change (exec conf (S f0) (JUpdatePending ev) x) with (step_update_pending conf (exec conf f0) ev x) in E0 end.
  unfold step_update_pending in E0. cbn [km_pending set_pending pd_state pd_index pd_ref pd_queued kc_sys cconf composite sys_update_pending_state km_ctx] in E0.
  destruct Hst as (Hkey & Hst). rewrite (tap_hold_step d i (km_ctx k) q key Hkey (map EvInput qd) (EvInput ie) (mkTHPks (latest_press (map EvInput qd))) eq_refl) in E0. fold ir in E0.
  destruct (tap_hold_rule ir i (map EvInput qd) (EvInput ie)) as [x|] eqn:Ex; cbn [bind] in E0; unfold schedule_all, sched_all in E0; cbn [fold_res bind] in E0.
  - destruct (first_decision (tap_hold_rule ir i) [] (map EvInput qd)) eqn:Y; [discriminate Hfd|]. pose proof (undecided_release _ _ _ _ Y) as Hnr.
    eapply (pending_decides b i q key (qd ++ [ie])) in E0.
    + assert (k' = a) as ->; [|exact E0]. destruct E0 as (m & _ & _ & _ & P & _). rewrite drain0 in E by exact P. now injection E as <-.
    + exact Hb.
    + exact Hi.
    + exists r. split; [exact Hkey|exact Hst].
    + cbn [km_pending set_sched set_pending]. now rewrite map_app.
    + intros X. apply in_app_or in X as [X|[X|[]]]; [contradiction|congruence].
    + now apply releases_last.
    + exact Hs.
  - injection E0 as <-. rewrite drain0 in E by exact Hs. injection E as <-.
    assert (Ew : waits_for i q (qd ++ [ie]) = mkPending i (RTapHold q) (PksTapHold (mkTHPks (latest_press (map EvInput qd ++ [EvInput ie])))) (map EvInput qd ++ [EvInput ie])) by (unfold waits_for; now rewrite map_app).
    rewrite Ew. split; [reflexivity|]. split; [cbn; now rewrite Ew|]. split; [exact Hb|]. split; [exact Hi|]. split; [exists r; split; [exact Er|split; [exact Hkey|exact Hst]]|].
    split; [intros X; apply in_app_or in X as [X|[X|[]]]; [contradiction|congruence]|]. now apply first_snoc.
Qed.
(** The time passes. *)
Lemma process_timer ir b i q key qd f (k k' : ckeymap) j : undecided_at ir b i q key qd k -> sc_pending (km_sched k) = [] ->
  exec conf (fuel7 f) (JHandleEvent (timer j)) k = Ok k' ->
  decided b i key IsHold k (qd ++ km_inq k) k'.
Proof.
  intros (Hp & Hb & Hi & (r & Er & Hst) & Hnp & Hfd) Hs E. pose proof (undecided_release _ _ _ _ Hfd) as Hnr.
  change (exec conf (fuel7 f) (JHandleEvent (timer j)) k) with (step_handle_event conf (exec conf (S (S (S (S (S (S (height + f)))))))) (timer j) k) in E.
  unfold step_handle_event in E. cbn [run_callback timer] in E. inv_bind E.
  match type of E0 with exec conf (S ?f0) (JUpdatePending ?ev) ?x = _ => change (exec conf (S f0) (JUpdatePending ev) x) with (step_update_pending conf (exec conf f0) ev x) in E0 end.
  unfold step_update_pending in E0. rewrite Hp in E0. unfold waits_for in E0. cbn [km_pending set_pending pd_state pd_index pd_ref pd_queued kc_sys cconf composite sys_update_pending_state km_ctx] in E0.
  destruct Hst as (Hkey & Hst). rewrite (tap_hold_step d i (km_ctx k) q key Hkey (map EvInput qd) (timer j) (mkTHPks (latest_press (map EvInput qd))) eq_refl) in E0.
  cbn [tap_hold_rule timer bind] in E0. unfold schedule_all, sched_all in E0; cbn [fold_res bind] in E0.
  eapply (pending_decides b i q key qd) in E0.
  - destruct E0 as (m & M & B & F & P & C). rewrite (update_pressed_board refs d pos dbg n _ a) in E by (try apply B; discriminate). cbn [bind] in E.
    unfold update_context, timer in E. cbn [kc_sys cconf composite sys_ctx_handle_event] in E. rewrite tap_hold_ctx in E by apply B. cbn [bind] in E.
    unfold schedule_all, sched_all in E. cbn [fold_res bind] in E. rewrite set_sched_id in E. injection E as <-. exists m. auto 10.
  - exact Hb.
  - exact Hi.
  - exists r. split; [exact Hkey|exact Hst].
  - reflexivity.
  - exact Hnp.
  - intros a0 z X. exfalso. apply Hnr. rewrite X. apply in_or_app. right. now left.
  - exact Hs.
Qed.

(** ** The runs *)
Lemma tap_step_shape ir T before later b ie xs b' cs : tap_step n refs d ir T before later b ie xs b' cs -> shape b' = down_step (shape b) ie.
Proof.
  clear. destruct 1 as [i r x m Hi _ _ _|ie b' _ H]; [|eapply step_shape; exact H].
  unfold shape. cbn [down_step]. rewrite this_forget, Hi, switch_down. cbn. now rewrite map_app.
Qed.
Lemma tap_run_shape ir T h later xs b cs : tap_run n refs d ir T h later xs b cs -> shape b = down_after h.
Proof. clear. induction 1 as [|h ie later xs b cs xs' b' cs' _ IH H]; [reflexivity|]. rewrite (tap_step_shape _ _ _ _ _ _ _ _ _ H), IH, down_snoc. reflexivity. Qed.
Lemma agrees_mono ir (T T' : list input_event -> u16 -> decision -> list input_event -> Prop) more before i later x :
  (forall be i x s, T be i x s -> T' be i x s) -> agrees ir T before i later x -> agrees ir T' before i (later ++ more) x.
Proof.
  clear. intros HT. destruct x; cbn; [apply HT| | |].
  1,2: intros (s & l & r & -> & A & B & C); exists s, l, (r ++ more); (split; [now rewrite <- app_assoc|]); auto.
  intros (s & r & -> & A & B). exists s, (r ++ more). split; [now rewrite <- app_assoc|]. auto.
Qed.
Lemma tap_run_mono ir (T T' : list input_event -> u16 -> decision -> list input_event -> Prop) more h later xs b cs :
  (forall be i x s, T be i x s -> T' be i x s) ->
  tap_run n refs d ir T h later xs b cs -> tap_run n refs d ir T' h (later ++ more) xs b cs.
Proof.
  clear. intros HT. induction 1 as [|h ie later xs b cs xs' b' cs' _ IH H]; [constructor|]. econstructor; [exact IH|].
  destruct H as [i r x m Hi Hr Hm Ha|ie b' Hno H]; [|now constructor]. econstructor; try eassumption. intros y Hy. eapply agrees_mono; [exact HT|now apply Ha].
Qed.
Lemma still_down i qd : ~ In (Release i) qd -> forall l, existsb (is_key i) l = true -> existsb (is_key i) (fold_left down_step qd l) = true.
Proof.
  clear. induction qd as [|x qd IH]; intros Hn l Hl; [exact Hl|]. cbn [fold_left]. apply IH; [intros X; apply Hn; now right|].
  destruct x as [j|j|ko|ko]; cbn [down_step].
  - destruct (existsb (is_key j) l); [exact Hl|]. rewrite existsb_app, Hl. reflexivity.
  - assert (Hj : j <> i) by (intros ->; apply Hn; now left). clear -Hl Hj. induction l as [|[a|a] l IH]; cbn in *; [discriminate| |].
    + destruct (N.eqb_spec j a) as [->|Ha]; cbn.
      * destruct (N.eqb_spec i a) as [->|]; [congruence|exact Hl].
      * apply orb_true_iff in Hl as [Hl|Hl]; [now rewrite Hl|]. rewrite IH by exact Hl. apply orb_true_r.
    + apply IH. exact Hl.
  - rewrite existsb_app, Hl. reflexivity.
  - clear -Hl. induction l as [|[a|a] l IH]; cbn in *; [discriminate| |].
    + apply orb_true_iff in Hl as [Hl|Hl]; [now rewrite Hl|]. rewrite IH by exact Hl. apply orb_true_r.
    + destruct (ko_eqb ko a); cbn; [exact Hl|now apply IH].
Qed.
Lemma not_again h i qd w : in_turn (h ++ Press i :: qd ++ w) -> ~ In (Release i) qd -> forall j w', w = Press j :: w' -> j <> i.
Proof.
  clear. intros Ht Hn j w' -> ->. specialize (Ht (h ++ Press i :: qd) i w'). rewrite <- app_assoc in Ht. specialize (Ht eq_refl).
  assert (X : existsb (is_key i) (down_after (h ++ Press i :: qd)) = true).
  { unfold down_after. rewrite fold_left_app. cbn [fold_left]. apply still_down; [exact Hn|]. cbn [down_step]. destruct (existsb (is_key i) (fold_left down_step h [])) eqn:E; [exact E|].
    rewrite existsb_app. cbn. rewrite N.eqb_refl. now rewrite orb_true_r. }
  congruence.
Qed.

Variables (L : list (callback * callback_fn)) (tc : taphold_config).
Local Notation ir := (thc_interrupt tc).
(** [dues]: when the timer of the key pressed after some inputs is due. *)
Definition core (T : list input_event -> u16 -> decision -> list input_event -> Prop) (dues : list input_event -> u16 -> N -> Prop)
    (Tr : list input_event -> chorded_ctx -> Prop) (acc : list input_event) (k : ckeymap) : Prop :=
  sc_pending (km_sched k) = [] /\ km_callbacks k = L /\ Forall (fun e => exists h i, dues h i (en_time e)) (sc_scheduled (km_sched k))
  /\ exists h b xs cs, km_calls k = filter_map (lm_get L) cs /\
  ((acc = h ++ km_inq k /\ tap_run n refs d ir T h (km_inq k) xs b cs /\ bstate (sc_scheduled (km_sched k)) b k /\ Tr h (cx_chorded (km_ctx k))
    /\ Forall (fun e => en_live e = false) (sc_scheduled (km_sched k)))
   \/ (exists i q key qd due, acc = h ++ Press i :: qd ++ km_inq k /\ tap_run n refs d ir T h (Press i :: qd ++ km_inq k) xs b cs
       /\ undecided_at ir b i q key qd k /\ Tr (h ++ [Press i]) (cx_chorded (km_ctx k)) /\ dues h i due
       /\ Forall (fun e => en_live e = true -> en_event e = timer i /\ due <= en_time e) (sc_scheduled (km_sched k)))).
Lemma core_mono (T T' : list input_event -> u16 -> decision -> list input_event -> Prop) (S1 S' : list input_event -> u16 -> N -> Prop)
    (Tr Tr' : list input_event -> chorded_ctx -> Prop) acc (k : ckeymap) :
  (forall be i x s, T be i x s -> T' be i x s) -> (forall be i t, S1 be i t -> S' be i t) -> (forall h c, Tr h c -> Tr' h c) -> core T S1 Tr acc k -> core T' S' Tr' acc k.
Proof.
  intros HT HS HTr (A & B & W & h & b & xs & cs & C & X). split; [exact A|]. split; [exact B|].
  split; [eapply Forall_impl; [|exact W]; intros e (h' & i' & H'); exists h', i'; now apply HS|]. exists h, b, xs, cs. split; [exact C|].
  destruct X as [(E & R & X & Y & Z)|(i & q & key & qd & due & E & R & U & Y & D & X)]; [left|right].
  - split; [exact E|]. split; [|split; [exact X|split; [now apply HTr|exact Z]]]. rewrite <- (app_nil_r (km_inq k)). eapply tap_run_mono; eassumption.
  - exists i, q, key, qd, due. split; [exact E|]. split; [|split; [exact U|split; [now apply HTr|split; [now apply HS|exact X]]]].
    rewrite <- (app_nil_r (Press i :: qd ++ km_inq k)). eapply tap_run_mono; eassumption.
Qed.
Lemma cancelled i l : Forall (fun e : sch_entry cev => en_live e = true -> en_event e = timer i) l -> Forall (fun e => en_live e = false) (map (cancel_entry i) l).
Proof.
  clear. induction 1 as [|e l He _ IH]; constructor; [|exact IH]. destruct e as [t ev [|]]; cbn in *.
  - rewrite (He eq_refl). unfold cancel_entry. cbn. now rewrite N.eqb_refl.
  - unfold cancel_entry. cbn. destruct ev as [|j ce|]; try reflexivity. now destruct (j =? i).
Qed.
Lemma cancelled_times i (l : list (sch_entry cev)) : map en_time (map (cancel_entry i) l) = map en_time l.
Proof. clear. rewrite map_map. apply map_ext. intros [t [| |] lv]; unfold cancel_entry; cbn; try reflexivity. now destruct (_ =? _). Qed.
Lemma times_forall (Q : N -> Prop) (l l' : list (sch_entry cev)) : map en_time l' = map en_time l -> Forall (fun e => Q (en_time e)) l -> Forall (fun e => Q (en_time e)) l'.
Proof. clear. intros E H. apply (proj1 (Forall_map en_time Q l')). rewrite E. now apply Forall_map. Qed.
Lemma insert_forall {A} (Q : A -> Prop) p x l : Q x -> Forall Q l -> Forall Q (insert_at p x l).
Proof.
  clear. intros Hx Hl. unfold insert_at. rewrite <- (firstn_skipn p l) in Hl. apply Forall_app in Hl as (A1 & A2). apply Forall_app. split; [exact A1|]. now constructor.
Qed.
(** A decision is taken. *)
Lemma decided_core (T : list input_event -> u16 -> decision -> list input_event -> Prop) dues (Tr : list input_event -> chorded_ctx -> Prop) acc h b xs cs i r q key qd w x y (k k' : ckeymap) inq :
  tap_run n refs d ir T h (Press i :: w) xs b cs -> acc = h ++ Press i :: w -> w = inq ->
  existsb (this_key i) (bd_down b) = false -> nth_error refs (N.to_nat i) = Some r -> stands_for b height r q key -> picks key y = tap_hold_key key x ->
  agrees ir T h i w y -> km_callbacks k = L -> km_calls k = filter_map (lm_get L) cs ->
  Forall (fun e : sch_entry cev => en_live e = true -> en_event e = timer i) (sc_scheduled (km_sched k)) ->
  Forall (fun e => exists h i, dues h i (en_time e)) (sc_scheduled (km_sched k)) -> Tr (h ++ [Press i]) (cx_chorded (km_ctx k)) ->
  decided b i key x k inq k' -> qd = w ->
  core T dues Tr acc k' /\ km_pending k' = None /\ km_inq k' = w /\ map en_time (sc_scheduled (km_sched k')) = map en_time (sc_scheduled (km_sched k)).
Proof.
  intros Hr -> <- Hi Er Hst Hy Ha HL Hc Hl HW HTr (m & M & B & F & P & C) ->. destruct F as (F1 & _ & _ & _ & _ & F6 & F7). cbn [set_inq km_inq km_callbacks km_ctx] in F1, F6, F7.
  assert (Et : map en_time (sc_scheduled (km_sched k')) = map en_time (sc_scheduled (km_sched k))).
  { assert (Es : sc_scheduled (km_sched k') = map (cancel_entry i) (sc_scheduled (km_sched k))) by apply B. rewrite Es. apply cancelled_times. }
  split; [|split; [apply B|split; [exact F1|exact Et]]]. split; [exact P|]. split; [congruence|].
  split; [exact (times_forall (fun t => exists h i, dues h i t) _ _ Et HW)|].
  exists (h ++ [Press i]), (switch n (at_press m) (set_down b (bd_down b ++ [inl (i, m)]))), (xs ++ [y]), (cs ++ asks m).
  split; [now rewrite C, HL, Hc, filter_map_app|]. left. rewrite F1. split; [now rewrite <- app_assoc|].
  assert (Es : sc_scheduled (km_sched k') = map (cancel_entry i) (sc_scheduled (km_sched k))) by apply B. rewrite Es. split; [|split; [exact B|split; [now rewrite F6|now apply cancelled]]].
  eapply tr_input; [exact Hr|]. change [y] with (match Some y with Some y => [y] | None => [] end). apply (ts_press n refs d ir T h w b i r (Some y) m); try assumption.
  - apply Hst. rewrite Hy. exact M.
  - intros y0 X. injection X as <-. exact Ha.
Qed.

Lemma core_take (T : list input_event -> u16 -> decision -> list input_event -> Prop) (dues : list input_event -> u16 -> N -> Prop)
    (Tr : list input_event -> chorded_ctx -> Prop) f acc (k k' : ckeymap) x w :
  core T dues Tr acc k -> km_inq k = x :: w -> in_turn acc -> thx_config (cx_tap_hold (km_ctx k)) = tc ->
  (forall h ch ch', acc = h ++ x :: w -> Tr h ch -> step_chorded ch (EvInput x) = Ok ch' -> Tr (h ++ [x]) ch') ->
  (forall h i, acc = h ++ Press i :: w -> x = Press i -> km_pending k = None -> soon (km_ctx k) -> T h i Hurried []) ->
  (forall h i, acc = h ++ Press i :: w -> x = Press i -> km_pending k = None -> ~ soon (km_ctx k) -> dues h i (sc_counter (km_sched k) + thc_timeout tc)) ->
  (forall h i t y s, dues h i t -> y = Tapped \/ y = Interrupted -> T h i y s) ->
  exec conf (fuel7 f) (JProcessInput x) (set_inq k w) = Ok k' ->
  core T dues Tr acc k' /\ (km_pending k' <> None -> km_inq k' = w)
  /\ km_ms_per_tick k' = km_ms_per_tick k /\ sc_counter (km_sched k') = sc_counter (km_sched k)
  /\ (km_pending k = None -> km_inq k' = w /\ forall p, km_pending k' = Some p -> pd_queued p = [])
  /\ (map en_time (sc_scheduled (km_sched k')) = map en_time (sc_scheduled (km_sched k))
      \/ exists i, sched_after pos (km_sched k) (thc_timeout tc) (timer i) = Ok (km_sched k'))
  /\ (forall p, km_pending k = Some p -> map en_time (sc_scheduled (km_sched k')) = map en_time (sc_scheduled (km_sched k))
      /\ ((match km_pending k' with Some p' => length (pd_queued p') | None => 0 end) + length (km_inq k') = length (pd_queued p) + length (km_inq k))%nat).
Proof.
  intros (Hs & HL & HW & h & b & xs & cs & Hc & X) Hq Ht Htc HTr Hsoon Hdue Hlate E.
  destruct X as [(Ea & Hr & Hb & Hch & Hdead)|(i & q & key & qd & due & Ea & Hr & Hu & Hch & Hd & Hlive)].
  - rewrite Hq in *. subst acc. assert (Hnew : forall i, x = Press i -> existsb (this_key i) (bd_down b) = false).
    { intros i ->. rewrite <- this_forget. change (map forget (bd_down b)) with (shape b). rewrite (tap_run_shape _ _ _ _ _ _ _ Hr). exact (Ht h i w eq_refl). }
    assert (Hpn : km_pending k = None) by apply Hb.
    change (fuel7 f) with (S (S (S (S (S (S (S (height + f)))))))) in E.
    replace (S (S (S (S (S (S (S (height + f)))))))) with (fuel4 (3 + f)) in E by lia.
    destruct (process_tap (sc_scheduled (km_sched k)) (3 + f) b (set_inq k w) k' x Hb Hs Hnew E) as (g & Eg & P & (F1 & F2 & F3 & F4 & F5 & F6 & F7) & X).
    cbn [set_inq km_inq km_sched km_ms_per_tick km_callbacks km_ctx km_calls] in *. specialize (HTr h _ g eq_refl Hch Eg).
    destruct X as [(i & r & y & m & -> & Er & Hy & M & B & C)|[(Hno & b' & Hst & B & C)|(So & i & r & q & key & s & -> & Er & Hst & Es & Hp & Hks & B & C)]].
    + assert (Es : sc_scheduled (km_sched k') = sc_scheduled (km_sched k)) by apply B.
      assert (Hn : km_pending k' = None) by apply B.
      split; [|split; [intros X; now elim X|split; [exact F4|split; [exact F5|split; [intros _; split; [exact F1|intros p X; congruence]|split; [left; now rewrite Es|intros p X; congruence]]]]]]. split; [exact P|]. split; [congruence|].
      split; [now rewrite Es|].
      exists (h ++ [Press i]), (switch n (at_press m) (set_down b (bd_down b ++ [inl (i, m)]))), (xs ++ match y with Some y => [y] | None => [] end), (cs ++ asks m).
      split; [now rewrite C, HL, Hc, filter_map_app|]. left. rewrite F1. split; [now rewrite <- app_assoc|].
      rewrite Es. split; [|split; [exact B|split; [now rewrite F6|exact Hdead]]].
      eapply tr_input; [exact Hr|]. apply (ts_press n refs d ir T h w b i r y m); try assumption; [now apply Hnew|].
      intros z ->. destruct Hy as [Hy|(Hy & So)]; [discriminate|]. injection Hy as ->. cbn. now apply Hsoon.
    + assert (Es : sc_scheduled (km_sched k') = sc_scheduled (km_sched k)) by apply B.
      assert (Hn : km_pending k' = None) by apply B.
      split; [|split; [intros X; now elim X|split; [exact F4|split; [exact F5|split; [intros _; split; [exact F1|intros p X; congruence]|split; [left; now rewrite Es|intros p X; congruence]]]]]]. split; [exact P|]. split; [congruence|].
      split; [now rewrite Es|].
      exists (h ++ [x]), b', (xs ++ []), (cs ++ []). split; [now rewrite C, Hc, app_nil_r|]. left. rewrite F1. split; [now rewrite <- app_assoc|].
      rewrite Es. split; [|split; [exact B|split; [now rewrite F6|exact Hdead]]].
      eapply tr_input; [exact Hr|]. now apply ts_other.
    + assert (Hdue1 : dues h i (sc_counter (km_sched k) + thc_timeout tc)) by now apply Hdue.
      rewrite Htc in Es.
      split; [|split; [intros _; exact F1|split; [exact F4|split; [exact F5|split; [intros _; split; [exact F1|intros p X; rewrite Hp in X; now injection X as <-]|split; [right; exists i; now rewrite Hks|intros p X; congruence]]]]]].
      pose proof (sched_after_ok _ _ _ _ _ Es) as (_ & _ & Ei & _).
      split; [exact P|]. split; [congruence|].
      split; [rewrite Hks, Ei; apply insert_forall; [exists h, i; exact Hdue1|exact HW]|].
      exists h, b, xs, cs. split; [now rewrite C|]. right. exists i, q, key, [], (sc_counter (km_sched k) + thc_timeout tc). rewrite F1. cbn [app].
      split; [reflexivity|]. split; [exact Hr|]. split; [|split; [now rewrite F6|split; [exact Hdue1|]]].
      * split; [exact Hp|]. split; [rewrite Hks; exact B|]. split; [now apply Hnew|]. split; [exists r; auto|]. split; [intros []|reflexivity].
      * rewrite Hks, Ei. apply insert_forall; [cbn; intros _; split; [reflexivity|apply N.le_refl]|].
        eapply Forall_impl; [|exact Hdead]. intros e He X. congruence.
  - rewrite Hq in *. pose proof Hu as (Hp & Hb & Hi & (r & Er & Hst) & Hnp & Hfd). pose proof (undecided_release _ _ _ _ Hfd) as Hnr.
    assert (Hne : x <> Press i). { intros ->. subst acc. exact (not_again _ _ _ _ Ht Hnr i w eq_refl eq_refl). }
    assert (Hl1 : Forall (fun e : sch_entry cev => en_live e = true -> en_event e = timer i) (sc_scheduled (km_sched k))).
    { eapply Forall_impl; [|exact Hlive]. intros e He X. now apply He. }
    pose proof (process_pending b i q key qd f (set_inq k w) k' x) as PP. cbv zeta in PP. cbn [set_inq km_ctx] in PP. rewrite Htc in PP. specialize (PP Hu Hs Hne E).
    destruct (tap_hold_rule ir i (map EvInput qd) (EvInput x)) as [o|] eqn:Eo.
    + pose proof PP as (m & _ & _ & (F1 & F2 & F3 & F4 & F5 & F6 & F7) & _). cbn [set_inq km_inq km_sched km_ms_per_tick km_callbacks km_ctx km_calls] in *.
      set (y := match o with IsTap => Tapped | IsHold => Interrupted end).
      destruct (decided_core T dues Tr acc h b xs cs i r q key (qd ++ x :: w) (qd ++ x :: w) o y (set_inq k w) k' ((qd ++ [x]) ++ w)) as (C & Cp & Cq & Ct); try assumption; try reflexivity.
      * now rewrite <- app_assoc.
      * unfold y. now destruct o.
      * assert (Ty : T h i y (qd ++ [x])) by (eapply Hlate; [exact Hd|unfold y; destruct o; auto]).
        assert (Ag : exists seen last rest, qd ++ x :: w = seen ++ last :: rest /\ first_decision (tap_hold_rule ir i) [] (map EvInput seen) = None
          /\ tap_hold_rule ir i (map EvInput seen) (EvInput last) = Some o /\ T h i y (seen ++ [last])) by (exists qd, x, w; auto).
        unfold y in *. destruct o; exact Ag.
      * split; [exact C|]. split; [intros X; now elim X|]. split; [exact F4|]. split; [exact F5|]. split; [intros X; congruence|split; [left; exact Ct|intros p Ep; split; [exact Ct|]]]. rewrite Hp in Ep. injection Ep as <-. rewrite Cp, Cq. cbn. rewrite map_length, app_length. reflexivity.
    + destruct PP as (-> & Hu'). split; [|split; [intros _; reflexivity|split; [reflexivity|split; [reflexivity|split; [intros X; congruence|split; [left; reflexivity|]]]]]]. 
      2:{ intros p Ep. split; [reflexivity|]. rewrite Hp in Ep. injection Ep as <-. cbn. rewrite !map_length, app_length. cbn. lia. }
      split; [exact Hs|]. split; [exact HL|]. split; [exact HW|].
      exists h, b, xs, cs. split; [exact Hc|]. right. exists i, q, key, (qd ++ [x]), due. cbn [set_inq set_pending km_inq km_sched km_ctx]. rewrite <- app_assoc. cbn [app].
      split; [exact Ea|]. split; [exact Hr|]. split; [exact Hu'|]. split; [exact Hch|]. split; [exact Hd|exact Hlive].
Qed.
Definition anyT (_ : list input_event) (_ : u16) (_ : decision) (_ : list input_event) : Prop := True.
Definition anyD (_ : list input_event) (_ : u16) (_ : N) : Prop := True.
Definition anyTr (_ : list input_event) (_ : chorded_ctx) : Prop := True.
Lemma core_any T dues Tr acc k : core T dues Tr acc k -> core anyT anyD anyTr acc k.
Proof. apply core_mono; intros; exact Logic.I. Qed.
Lemma take_any f acc (k k' : ckeymap) x w : core anyT anyD anyTr acc k -> km_inq k = x :: w -> in_turn acc -> thx_config (cx_tap_hold (km_ctx k)) = tc ->
  km_pending k = None -> exec conf (fuel7 f) (JProcessInput x) (set_inq k w) = Ok k' ->
  core anyT anyD anyTr acc k' /\ km_inq k' = w /\ forall p, km_pending k' = Some p -> pd_queued p = [].
Proof.
  intros Hc Hq Ht Htc Hp E.
  destruct (core_take anyT anyD anyTr f acc k k' x w Hc Hq Ht Htc) as (C & _ & _ & _ & X & _); try (intros; exact Logic.I); [exact E|]. split; [exact C|]. now apply X.
Qed.
Lemma removelast_forall {A} (Q : A -> Prop) l : Forall Q l -> Forall Q (removelast l).
Proof. clear. induction 1 as [|x l Hx Hl IH]; [constructor|]. cbn. destruct l; [constructor|]. now constructor. Qed.
Lemma last_opt_forall {A} (Q : A -> Prop) l x : Forall Q l -> last_opt l = Some x -> Q x.
Proof. clear. induction 1 as [|y l Hy Hl IH]; [discriminate|]. cbn. destruct l; [intros E; now injection E as <-|exact IH]. Qed.

Lemma core_timer (T : list input_event -> u16 -> decision -> list input_event -> Prop) (dues : list input_event -> u16 -> N -> Prop)
    (Tr : list input_event -> chorded_ctx -> Prop) f acc (k k' : ckeymap) s :
  core T dues Tr acc k -> sched_tick (km_sched k) (km_ms_per_tick k) = Ok s ->
  (forall h i t qd, dues h i t -> km_pending k <> None -> acc = h ++ Press i :: qd ++ km_inq k -> t <= sc_counter (km_sched k) + km_ms_per_tick k -> T h i TimedOut qd) ->
  exec conf (S (fuel7 f)) JHandlePending (set_sched k s) = Ok k' ->
  core T dues Tr acc k' /\ ((forall p, km_pending k = Some p -> pd_queued p = []) -> km_inq k' = km_inq k)
  /\ map en_time (sc_scheduled (km_sched k')) = map en_time (sc_scheduled s)
  /\ (km_pending k' = km_pending k /\ km_inq k' = km_inq k
      \/ exists p, km_pending k = Some p /\ km_pending k' = None /\ length (km_inq k') = (length (pd_queued p) + length (km_inq k))%nat).
Proof.
  intros (Hs & HL & HW & h & b & xs & cs & Hc & X) Et Hdue E.
  unfold sched_tick in Et. inv_bind Et. unfold u32_add in E0. destruct (_ <=? u32_max); [|discriminate]. injection E0 as <-.
  assert (Keep : forall sch, (sch = sc_scheduled (km_sched k) \/ sch = removelast (sc_scheduled (km_sched k))) ->
    forall c, core T dues Tr acc (set_sched k (mkSched [] sch c))).
  { intros sch Hsch c. split; [reflexivity|]. split; [exact HL|].
    split; [cbn [set_sched km_sched sc_scheduled]; destruct Hsch as [->| ->]; [exact HW|now apply removelast_forall]|].
    exists h, b, xs, cs. split; [exact Hc|].
    destruct X as [(Ea & Hr & Hb & Hch & Hdead)|(i & q & key & qd & due & Ea & Hr & Hu & Hch & Hd & Hlive)]; [left|right].
    - split; [exact Ea|]. split; [exact Hr|]. cbn [set_sched km_sched sc_scheduled]. destruct Hb as (A1 & A2 & A3 & A4 & A5 & A6).
      split; [split; [exact A1|split; [exact A2|split; [exact A3|split; [exact A4|split; [reflexivity|exact A6]]]]]|]. split; [exact Hch|]. destruct Hsch as [->| ->]; [exact Hdead|now apply removelast_forall].
    - exists i, q, key, qd, due. split; [exact Ea|]. split; [exact Hr|]. split; [|split; [exact Hch|split; [exact Hd|]]].
      + destruct Hu as (U1 & (A1 & A2 & A3 & A4 & A5 & A6) & U3). split; [exact U1|]. split; [|exact U3].
        split; [exact A1|split; [exact A2|split; [exact A3|split; [exact A4|split; [reflexivity|exact A6]]]]].
      + cbn [set_sched km_sched sc_scheduled]. destruct Hsch as [->| ->]; [exact Hlive|now apply removelast_forall]. }
  destruct (last_opt (sc_scheduled (km_sched k))) as [en|] eqn:El.
  2:{ injection Et as <-. rewrite drain0 in E by exact Hs. injection E as <-. rewrite Hs. split; [apply Keep; now left|]. split; [intros _; reflexivity|]. split; [reflexivity|left; auto]. }
  destruct (N.leb_spec (en_time en) (sc_counter (km_sched k) + km_ms_per_tick k)) as [Hle|_].
  2:{ injection Et as <-. rewrite drain0 in E by exact Hs. injection E as <-. rewrite Hs. split; [apply Keep; now left|]. split; [intros _; reflexivity|]. split; [reflexivity|left; auto]. }
  rewrite Hs in Et. unfold push_cap in Et. change (length (@nil (option (event cev))) <? PENDING_CAPACITY)%nat with true in Et. cbn [bind app] in Et. injection Et as <-.
  specialize (Keep (removelast (sc_scheduled (km_sched k))) (or_intror eq_refl) (sc_counter (km_sched k) + km_ms_per_tick k)).
  destruct (en_live en) eqn:Eli.
  2:{ cbn [exec step] in E. unfold step_handle_pending, sched_dequeue in E. cbn in E. injection E as <-. split; [exact Keep|]. split; [intros _; reflexivity|]. split; [reflexivity|left; auto]. }
  destruct X as [(Ea & Hr & Hb & _ & Hdead)|(i & q & key & qd & due & Ea & Hr & Hu & Hch & Hd & Hlive)].
  { pose proof (last_opt_forall _ _ _ Hdead El) as Z. cbn in Z. congruence. }
  pose proof (last_opt_forall _ _ _ Hlive El) as Z. cbn in Z. destruct (Z Eli) as (Ev & Htime).
  change (exec conf (S (fuel7 f)) JHandlePending ?x) with (step_handle_pending (exec conf (fuel7 f)) x) in E.
  unfold step_handle_pending, sched_dequeue in E. cbn [km_sched set_sched sc_pending sc_scheduled sc_counter] in E. rewrite Ev in E. inv_bind E.
  set (k1 := set_sched k (mkSched [] (removelast (sc_scheduled (km_sched k))) (sc_counter (km_sched k) + km_ms_per_tick k))) in *.
  change (exec conf (fuel7 f) (JHandleEvent (timer i)) k1 = Ok a) in E0.
  assert (Hu1 : undecided_at ir b i q key qd k1).
  { destruct Hu as (U1 & (A1 & A2 & A3 & A4 & A5 & A6) & U3). split; [exact U1|]. split; [|exact U3].
    split; [exact A1|split; [exact A2|split; [exact A3|split; [exact A4|split; [reflexivity|exact A6]]]]]. }
  pose proof (process_timer _ _ _ _ _ _ _ _ _ _ Hu1 eq_refl E0) as D.
  pose proof Hu1 as (Hp & _ & Hi & (r & Er & Hst) & _ & Hfd).
  destruct (decided_core T dues Tr acc h b xs cs i r q key (qd ++ km_inq k) (qd ++ km_inq k) IsHold TimedOut k1 a (qd ++ km_inq k)) as (C & Cp & Cq & Ct); try assumption; try reflexivity.
  - exists qd, (km_inq k). split; [reflexivity|]. split; [exact Hfd|]. eapply Hdue; [exact Hd| |exact Ea|lia]. destruct Hu as (U1 & _). congruence.
  - cbn. apply removelast_forall. eapply Forall_impl; [|exact Hlive]. intros e He Y. now apply He.
  - cbn. now apply removelast_forall.
  - pose proof C as (Ps & _). rewrite drain0 in E by exact Ps. injection E as <-. split; [exact C|]. split; [|split; [exact Ct|]].
    2:{ right. destruct Hu as (U1 & _). eexists. split; [exact U1|]. split; [exact Cp|]. rewrite Cq, app_length. cbn. now rewrite map_length. }
    intros Y. destruct Hu as (U1 & _). specialize (Y _ U1). cbn in Y. apply map_eq_nil in Y. subst qd. exact Cq.
Qed.
End TapBoard.

Section TapRun.
Variables (refs : list ref) (d : key_data) (pos : position_fn) (dbg : bool) (cf : config) (height f : nat).
Hypothesis Hrefs : Forall (tap_board_key (cf_layer_count cf) d height) refs.
Variable L : list (callback * callback_fn).
Local Notation conf := (cconf refs d pos dbg).
Local Notation tc := (cf_tap_hold cf).
Local Notation k0 := (set_callbacks (km_new (ctx_from_config cf)) L).
Local Notation fuel := (S (S (S (S (S (S (S (S (height + f))))))))).
Local Notation let_in ops := (let_in conf fuel ops k0).
Definition dues_of (ops : list op) (h : list input_event) (i : u16) (t : N) : Prop :=
  exists a o z, ops = a ++ o :: z /\ taken_by conf fuel k0 a o h i
  /\ ~ too_soon (thc_required_idle tc) (idle_seen (a ++ [o])) /\ t = ck_now (clocks_run a) + thc_timeout tc.
Definition tcore (ops : list op) := core refs d (cf_layer_count cf) height L tc (run_timing conf fuel tc k0 ops) (dues_of ops).

Lemma let_in_snoc ops o : forall (k k' : ckeymap), run_ops conf fuel ops k = Ok k' ->
  SpecTapBoard.let_in conf fuel (ops ++ [o]) k = SpecTapBoard.let_in conf fuel ops k
    ++ match o with OpInput ie => if (length (km_inq k') <? 31)%nat then [ie] else [] | _ => [] end.
Proof.
  clear. unfold run_ops. induction ops as [|p ops IH]; intros k k' H; cbn [app SpecTapBoard.let_in fold_res] in *.
  - injection H as <-. destruct (run_op conf fuel k o); now rewrite app_nil_r.
  - inv_bind H. rewrite E, (IH _ _ H). now rewrite app_assoc.
Qed.
Lemma run_timing_more ops o be i x s : run_timing conf fuel tc k0 ops be i x s -> run_timing conf fuel tc k0 (ops ++ [o]) be i x s.
Proof.
  clear. intros (a & p & z & -> & E & H & T). exists a, p, (z ++ [o]). split; [now rewrite <- app_assoc|]. split; [exact E|]. split; [exact H|].
  intros X. destruct (T X) as (a' & z' & k & m & E1 & T1). exists a', (z' ++ [o]), k, m. split; [|exact T1].
  rewrite E1, <- app_assoc. reflexivity.
Qed.
Lemma dues_more ops o h i t : dues_of ops h i t -> dues_of (ops ++ [o]) h i t.
Proof. clear. intros (a & p & z & -> & H). exists a, p, (z ++ [o]). split; [now rewrite <- app_assoc|exact H]. Qed.
Lemma core_fields T S1 Tr acc acc' (k k' : ckeymap) more : core refs d (cf_layer_count cf) height L tc T S1 Tr acc k -> acc' = acc ++ more ->
  km_inq k' = km_inq k ++ more -> km_pressed k' = km_pressed k -> km_sched k' = km_sched k -> km_pending k' = km_pending k ->
  km_callbacks k' = km_callbacks k -> km_calls k' = km_calls k -> (forall b, bstate d (cf_layer_count cf) (sc_scheduled (km_sched k)) b (set_pending k None) ->
    calm (km_ctx k') /\ layers_of (cf_layer_count cf) (km_ctx k') b) -> (forall h, Tr h (cx_chorded (km_ctx k)) -> Tr h (cx_chorded (km_ctx k'))) ->
  core refs d (cf_layer_count cf) height L tc T S1 Tr acc' k'.
Proof.
  clear. intros (Hs & HL & HW & h & b & xs & cs & Hc & X) -> Hq Hp Hk Hpe Hcb Hcl Hctx Hch. split; [now rewrite Hk|]. split; [congruence|]. split; [now rewrite Hk|].
  exists h, b, xs, cs. split; [congruence|]. rewrite Hk, Hq.
  destruct X as [(Ea & Hr & (A1 & A2 & A3 & A4 & A5 & A6) & Htr & Hdead)|(i & q & key & qd & due & Ea & Hr & (U1 & (A1 & A2 & A3 & A4 & A5 & A6) & U3) & Htr & Hd & Hlive)]; [left|right].
  - destruct (Hctx b) as (C1 & C2); [split; [exact A1|split; [exact A2|split; [exact A3|split; [exact A4|split; [exact A5|reflexivity]]]]]|].
    split; [rewrite Ea; now rewrite <- app_assoc|]. split; [eapply tap_run_mono; [|exact Hr]; auto|]. split; [|split; [now apply Hch|exact Hdead]].
    split; [exact C1|]. split; [exact C2|]. split; [now rewrite Hp|]. split; [exact A4|]. split; [now rewrite Hk|now rewrite Hpe].
  - destruct (Hctx b) as (C1 & C2); [split; [exact A1|split; [exact A2|split; [exact A3|split; [exact A4|split; [exact A5|reflexivity]]]]]|].
    exists i, q, key, qd, due. split; [rewrite Ea; rewrite <- app_assoc; cbn; now rewrite <- app_assoc|].
    split; [replace (Press i :: qd ++ km_inq k ++ more) with ((Press i :: qd ++ km_inq k) ++ more) by (cbn; now rewrite <- app_assoc); eapply tap_run_mono; [|exact Hr]; auto|].
    split; [|split; [now apply Hch|split; [exact Hd|exact Hlive]]]. split; [now rewrite Hpe|]. split; [|exact U3].
    split; [exact C1|]. split; [exact C2|]. cbn. rewrite Hp, Hk. auto.
Qed.
Lemma bctx d0 sch b (k : ckeymap) : bstate d0 (cf_layer_count cf) sch b k -> calm (km_ctx k) /\ layers_of (cf_layer_count cf) (km_ctx k) b.
Proof. clear. intros (A & B & _). auto. Qed.
Lemma in_turn_app h x : in_turn (h ++ x) -> in_turn h.
Proof. clear. intros H a i z ->. apply (H a i (z ++ x)). now rewrite <- app_assoc. Qed.
Lemma plain_basic ops : Forall (fun o => plain_op o = true) ops -> Forall basic_op ops /\ Forall (fun o => timed_op o = true) ops.
Proof. clear. induction 1 as [|o l Ho _ (A & B)]; [split; constructor|]. destruct o; try discriminate; (split; (constructor; [exact Logic.I || reflexivity|assumption])). Qed.

Lemma tick_step fuel' (k : ckeymap) : km_tick conf fuel' k =
  let k1 := set_ctx k (sys_ctx_set_keymap_context (kc_sys conf) (km_ctx k) (sc_counter (km_sched k)) (km_idle k)) in
  let! a := match km_inq k with
    | x :: w => if km_delay k =? 0 then let! a := exec conf fuel' (JProcessInput x) (set_inq k1 w) in Ok (set_delay a INPUT_QUEUE_TICK_DELAY) else Ok k1
    | [] => Ok k1 end in
  let k2 := if 0 <? km_delay a then set_delay a (km_delay a - 1) else a in
  let! s := sched_tick (km_sched k2) (km_ms_per_tick k2) in
  let! k3 := exec conf fuel' JHandlePending (set_sched k2 s) in
  let! idle := u32_add (km_idle k3) (km_ms_per_tick k3) in Ok (set_idle k3 idle).
Proof. reflexivity. Qed.
Lemma core_same T S1 Tr acc (k k' : ckeymap) : core refs d (cf_layer_count cf) height L tc T S1 Tr acc k ->
  km_inq k' = km_inq k -> km_pressed k' = km_pressed k -> km_sched k' = km_sched k -> km_pending k' = km_pending k ->
  km_callbacks k' = km_callbacks k -> km_calls k' = km_calls k ->
  (forall h, Tr h (cx_chorded (km_ctx k)) -> Tr h (cx_chorded (km_ctx k'))) -> (calm (km_ctx k) -> calm (km_ctx k')) -> cx_layered (km_ctx k') = cx_layered (km_ctx k) ->
  core refs d (cf_layer_count cf) height L tc T S1 Tr acc k'.
Proof.
  clear. intros H E1 E2 E3 E4 E5 E6 E7 E8 E9. eapply (core_fields _ _ _ _ _ k _ []); try eassumption; [now rewrite app_nil_r|now rewrite app_nil_r|].
  intros b (A & B & _). split; [now apply E8|]. unfold layers_of in *. now rewrite E9.
Qed.
Definition slowed (k : ckeymap) : ckeymap := if 0 <? km_delay k then set_delay k (km_delay k - 1) else k.
Lemma core_slowed T S1 Tr acc k : core refs d (cf_layer_count cf) height L tc T S1 Tr acc k -> core refs d (cf_layer_count cf) height L tc T S1 Tr acc (slowed k).
Proof. clear. intros H. unfold slowed. destruct (0 <? km_delay k); [|exact H]. eapply core_same; [exact H|..]; try reflexivity; auto. Qed.

Lemma op_core Tr ops (k k' : ckeymap) o : Forall (fun o => plain_op o = true) (ops ++ [o]) -> run_ops conf fuel ops k0 = Ok k ->
  tcore ops Tr (let_in ops) k -> in_turn (let_in (ops ++ [o])) ->
  (forall h x w ch ch', let_in (ops ++ [o]) = h ++ x :: w -> Tr h ch -> step_chorded ch (EvInput x) = Ok ch' -> Tr (h ++ [x]) ch') ->
  (forall h ch ch', chx_config ch' = chx_config ch -> chx_pressed_indices ch' = chx_pressed_indices ch -> chx_pressed_chords ch' = chx_pressed_chords ch ->
    chx_latest ch' = chx_latest ch -> Tr h ch -> Tr h ch') ->
  run_op conf fuel k o = Ok k' -> tcore (ops ++ [o]) Tr (let_in (ops ++ [o])) k'.
Proof.
  intros Hops Hrun Hc Ht HTr HTr2 H. pose proof H as H0. apply Forall_app in Hops as (Hops & Ho). inversion Ho as [|? ? Hop _]; subst. clear Ho.
  pose proof (plain_basic _ Hops) as (Hba & Hti).
  assert (Hcf : thx_config (cx_tap_hold (km_ctx k)) = tc) by (pose proof (run_ops_config _ _ _ _ _ _ _ _ Hrun) as (A & _); exact A).
  assert (Hsee : fold_left idle_step ops (1, 0, 0) = (km_ms_per_tick k, km_idle k, thx_idle (cx_tap_hold (km_ctx k)))).
  { destruct (run_ops_sees refs d pos dbg fuel ops Hba (1, 0, 0) k0 k) as (A & _); [split; reflexivity|exact Hrun|exact A]. }
  assert (Hck : clocks_run ops = mkClocks (sc_counter (km_sched k)) (km_idle k) (km_ms_per_tick k)).
  { symmetry. exact (run_ops_clock _ fuel ops Hti _ _ Hrun). }
  assert (Hc1 : core refs d (cf_layer_count cf) height L tc (run_timing conf fuel tc k0 (ops ++ [o])) (dues_of (ops ++ [o])) Tr (let_in ops) k).
  { eapply core_mono; [| | |exact Hc]; [intros; now apply run_timing_more|intros; now apply dues_more|auto]. }
  clear Hc. pose proof (let_in_snoc ops o _ _ Hrun) as El.
  (* what a take needs *)
  assert (Hlate : forall h i t y s, dues_of (ops ++ [o]) h i t -> y = Tapped \/ y = Interrupted -> run_timing conf fuel tc k0 (ops ++ [o]) h i y s).
  { intros h i t y s (a & p & z & E & A & B & _) Hy. exists a, p, z. split; [exact E|]. split; [exact A|].
    split; [split; [intros ->; destruct Hy; discriminate|intros X; contradiction]|]. intros ->. destruct Hy; discriminate. }
  assert (Htaken : forall h i w, let_in (ops ++ [o]) = h ++ Press i :: w -> km_pending k = None -> km_inq k ++ SpecTapBoard.let_in conf fuel [o] k = Press i :: w ->
    km_inq k' = w -> taken_by conf fuel k0 ops o h i).
  { intros h i w E Hp Eq Eq'. exists k, k', w. unfold undecided. rewrite Hp. auto 10. }
  assert (Hhurry : forall h i, taken_by conf fuel k0 ops o h i -> too_soon (thc_required_idle tc) (idle_seen (ops ++ [o])) ->
    run_timing conf fuel tc k0 (ops ++ [o]) h i Hurried []).
  { intros h i E So. exists ops, o, []. split; [reflexivity|]. split; [exact E|]. split; [split; [intros _; exact So|reflexivity]|discriminate]. }
  assert (Hwait : forall h i, taken_by conf fuel k0 ops o h i -> ~ too_soon (thc_required_idle tc) (idle_seen (ops ++ [o])) ->
    dues_of (ops ++ [o]) h i (sc_counter (km_sched k) + thc_timeout tc)).
  { intros h i E So. exists ops, o, []. split; [reflexivity|]. split; [exact E|]. split; [exact So|]. rewrite Hck. reflexivity. }
  unfold tcore. destruct o as [ev| |dd ev| | | |ms|c g]; try discriminate Hop; cbn [run_op] in *.
  - (* an input *)
    assert (Hidle : idle_seen (ops ++ [OpInput ev]) = thx_idle (cx_tap_hold (km_ctx k))).
    { unfold idle_seen. rewrite fold_left_app, Hsee. reflexivity. }
    assert (Elet : SpecTapBoard.let_in conf fuel [OpInput ev] k = if (length (km_inq k) <? 31)%nat then [ev] else []).
    { cbn [SpecTapBoard.let_in run_op]. rewrite H0. apply app_nil_r. }
    unfold km_handle_input in H. cbn zeta in H. change (km_inq (set_idle k 0)) with (km_inq k) in H. change INPUT_QUEUE_CAPACITY with 31%nat in H.
    destruct (length (km_inq k) <? 31)%nat.
    2:{ injection H as <-. rewrite El, app_nil_r. eapply core_same; [exact Hc1|..]; try reflexivity; auto. }
    set (k1 := set_inq (set_idle k 0) (km_inq k ++ [ev])) in *.
    assert (Hc2 : core refs d (cf_layer_count cf) height L tc (run_timing conf fuel tc k0 (ops ++ [OpInput ev])) (dues_of (ops ++ [OpInput ev])) Tr (let_in (ops ++ [OpInput ev])) k1).
    { eapply (core_fields _ _ _ _ _ k _ [ev]); [exact Hc1|exact El|..]; try reflexivity; [|auto]. intros b Hb. exact (bctx _ _ _ _ Hb). }
    destruct (km_delay k1 =? 0); [|injection H as <-; exact Hc2].
    destruct (km_inq k1) as [|x w] eqn:Eq; [discriminate|]. inv_bind H. injection H as <-.
    assert (Ex : exec conf (S (S (S (S (S (S (S (height + (1 + f))))))))) (JProcessInput x) (set_inq k1 w) = Ok a).
    { replace (height + (1 + f))%nat with (S (height + f)) by lia. exact E. }
    assert (Htk : forall h i, let_in (ops ++ [OpInput ev]) = h ++ Press i :: w -> x = Press i -> km_pending k1 = None -> taken_by conf fuel k0 ops (OpInput ev) h i).
    { intros h i E' -> Hp. destruct (take_any refs d pos dbg (cf_layer_count cf) height Hrefs L tc (1 + f) _ k1 a (Press i) w (core_any _ _ _ _ _ _ _ _ _ _ _ Hc2) Eq Ht Hcf Hp Ex) as (_ & Q & _).
      apply (Htaken h i w E' Hp); [rewrite Elet; exact Eq|exact Q]. }
    destruct (core_take refs d pos dbg (cf_layer_count cf) height Hrefs L tc _ _ Tr (1 + f) _ k1 a x w Hc2 Eq Ht Hcf) as (C & _).
    + intros h ch ch' E'. exact (HTr h x w ch ch' E').
    + intros h i E' Hx Hp So. apply Hhurry; [now apply Htk|]. rewrite Hidle, <- Hcf. exact So.
    + intros h i E' Hx Hp So. apply Hwait; [now apply Htk|]. rewrite Hidle, <- Hcf. exact So.
    + exact Hlate.
    + exact Ex.
    + eapply core_same; [exact C|..]; try reflexivity; auto.
  - (* a tick *)
    rewrite app_nil_r in El. rewrite El in *.
    assert (Hidle : idle_seen (ops ++ [OpTick]) = km_idle k).
    { unfold idle_seen. rewrite fold_left_app, Hsee. reflexivity. }
    assert (Elet : SpecTapBoard.let_in conf fuel [OpTick] k = []).
    { cbn [SpecTapBoard.let_in run_op]. now rewrite H0. }
    rewrite tick_step in H. cbn zeta in H. set (k1 := set_ctx k _) in H.
    assert (Hc2 : core refs d (cf_layer_count cf) height L tc (run_timing conf fuel tc k0 (ops ++ [OpTick])) (dues_of (ops ++ [OpTick])) Tr (let_in ops) k1).
    { eapply core_same; [exact Hc1|..]; try reflexivity; [intros h; now apply HTr2|]. intros (A & B & C & D). repeat split; assumption. }
    inv_bind H. change (if 0 <? km_delay a then set_delay a (km_delay a - 1) else a) with (slowed a) in H. inv_bind H. inv_bind H. inv_bind H. injection H as <-.
    assert (S2 : km_inq (slowed a) = km_inq a /\ km_pending (slowed a) = km_pending a /\ km_ms_per_tick (slowed a) = km_ms_per_tick a /\ km_sched (slowed a) = km_sched a).
    { unfold slowed. destruct (0 <? km_delay a); auto. }
    destruct S2 as (Q2 & P2 & M2 & S2).
    assert (X : core refs d (cf_layer_count cf) height L tc (run_timing conf fuel tc k0 (ops ++ [OpTick])) (dues_of (ops ++ [OpTick])) Tr (let_in ops) a
      /\ (km_pending a <> None -> exists m, (m <= 1)%nat /\ km_inq a = skipn m (km_inq k)) /\ km_ms_per_tick a = km_ms_per_tick k /\ sc_counter (km_sched a) = sc_counter (km_sched k)).
    { assert (Same : core refs d (cf_layer_count cf) height L tc (run_timing conf fuel tc k0 (ops ++ [OpTick])) (dues_of (ops ++ [OpTick])) Tr (let_in ops) k1
        /\ (km_pending k1 <> None -> exists m, (m <= 1)%nat /\ km_inq k1 = skipn m (km_inq k)) /\ km_ms_per_tick k1 = km_ms_per_tick k /\ sc_counter (km_sched k1) = sc_counter (km_sched k)).
      { split; [exact Hc2|]. split; [intros _; exists 0%nat; split; [lia|reflexivity]|split; reflexivity]. }
      destruct (km_inq k) as [|x w] eqn:Eq; [injection E as <-; exact Same|]. destruct (km_delay k =? 0); [|injection E as <-; exact Same]. clear Same.
      inv_bind E. injection E as <-.
      assert (Ex : exec conf (S (S (S (S (S (S (S (height + (1 + f))))))))) (JProcessInput x) (set_inq k1 w) = Ok a3).
      { replace (height + (1 + f))%nat with (S (height + f)) by lia. exact E3. }
      assert (Htk : forall h i, let_in ops = h ++ Press i :: w -> x = Press i -> km_pending k1 = None -> taken_by conf fuel k0 ops OpTick h i).
      { intros h i E' -> Hp. destruct (take_any refs d pos dbg (cf_layer_count cf) height Hrefs L tc (1 + f) _ k1 a3 (Press i) w (core_any _ _ _ _ _ _ _ _ _ _ _ Hc2) Eq Ht Hcf Hp Ex) as (Ca & Q & Qp).
        apply (Htaken h i w E' Hp); [rewrite Elet; apply app_nil_r|].
        assert (Ca' : core refs d (cf_layer_count cf) height L tc anyT anyD anyTr (let_in ops) (slowed (set_delay a3 INPUT_QUEUE_TICK_DELAY))).
        { apply core_slowed. eapply core_same; [exact Ca|..]; try reflexivity; auto. }
        destruct (core_timer refs d pos dbg (cf_layer_count cf) height L tc anyT anyD anyTr f _ _ a1 _ Ca' E0) as (_ & Y & _); [intros; exact Logic.I|exact E1|].
        cbn [km_inq set_idle]. rewrite Y; [rewrite Q2; exact Q|]. intros p Z. rewrite P2 in Z. now apply Qp. }
      destruct (core_take refs d pos dbg (cf_layer_count cf) height Hrefs L tc _ _ Tr (1 + f) _ k1 a3 x w Hc2 Eq Ht Hcf) as (C & Cq & Cm & Cn & _).
      + intros h ch ch' E'. exact (HTr h x w ch ch' E').
      + intros h i E' Hx Hp So. apply Hhurry; [now apply Htk|]. rewrite Hidle, <- Hcf. exact So.
      + intros h i E' Hx Hp So. apply Hwait; [now apply Htk|]. rewrite Hidle, <- Hcf. exact So.
      + exact Hlate.
      + exact Ex.
      + split; [|split; [|split; [exact Cm|exact Cn]]].
        * eapply core_same; [exact C|..]; try reflexivity; auto.
        * intros Hp. exists 1%nat. split; [lia|]. exact (Cq Hp). }
    destruct X as (C & Cq & Cm & Cn).
    apply (core_same _ _ _ _ a1); [|reflexivity|reflexivity|reflexivity|reflexivity|reflexivity|reflexivity|auto|auto|reflexivity].
    eapply (core_timer refs d pos dbg (cf_layer_count cf) height L tc _ _ _ f); [apply core_slowed; exact C|exact E0| |exact E1].
    intros h i t qd (a' & p & z & Ez & A & B & ->) Hp Ea Hle. rewrite P2 in Hp. destruct (Cq Hp) as (m & Hm & Em).
    exists a', p, z. split; [exact Ez|]. split; [exact A|]. split; [split; [discriminate|intros X; contradiction]|]. intros _.
    exists ops, [], k, m. split; [reflexivity|].
    assert (Hlen : (length a' <= length ops)%nat).
    { apply (f_equal (@length op)) in Ez. rewrite !app_length in Ez. cbn in Ez. lia. }
    split; [exact Hlen|]. split; [exact Hrun|]. split; [exact Hm|]. split; [rewrite Ea, Q2, Em; reflexivity|].
    unfold clocks_run in *. rewrite (fold_left_app _ ops). rewrite Hck. cbn [fold_left clocks_step ck_now ck_ms]. rewrite S2, M2, Cm, Cn in Hle. exact Hle.
  - (* a report *)
    rewrite app_nil_r in El. rewrite El. unfold km_report_output in H. inv_bind H. inv_bind E. injection E as <-. injection H as <-.
    eapply core_same; [exact Hc1|..]; try reflexivity; auto.
  - rewrite app_nil_r in El. rewrite El. injection H as <-.
    eapply core_same; [exact Hc1|..]; try reflexivity; auto.
Qed.
Lemma core_new T S1 (Tr : list input_event -> chorded_ctx -> Prop) : Tr [] (cx_chorded (ctx_from_config cf)) ->
  core refs d (cf_layer_count cf) height L tc T S1 Tr [] k0.
Proof.
  clear. intros HTr. split; [reflexivity|]. split; [reflexivity|]. split; [constructor|]. exists [], board_new, [], []. split; [reflexivity|]. left.
  split; [reflexivity|]. split; [constructor|]. split; [|split; [exact HTr|constructor]].
  split; [apply calm_new|]. split; [|split; [constructor|split; [constructor|split; reflexivity]]]. unfold layers_of. cbn. rewrite repeat_length. split; [reflexivity|].
  split; [intros x; apply is_on_new|]. split; [reflexivity|discriminate].
Qed.
Lemma run_core ops k : Forall (fun o => plain_op o = true) ops -> run_ops conf fuel ops k0 = Ok k -> in_turn (let_in ops) -> tcore ops anyTr (let_in ops) k.
Proof.
  revert k. induction ops as [|o ops IH] using rev_ind; intros k Ho H Ht.
  - injection H as <-. apply core_new. exact Logic.I.
  - rewrite run_ops_app in H. inv_bind H. unfold run_ops in H. cbn [fold_res] in H. inv_bind H. injection H as <-.
    eapply op_core; [exact Ho|exact E| |exact Ht|intros; exact Logic.I|intros; exact Logic.I|exact E0]. apply IH; [now apply Forall_app in Ho|exact E|].
    rewrite (let_in_snoc _ _ _ _ E) in Ht. now apply in_turn_app in Ht.
Qed.
End TapRun.

(** ** The board is determined by the inputs and the decisions *)
Lemma may_mean_fun d on on' def r x m : (forall l, on l = on' l) -> may_mean d on def r x m ->
  forall y m', may_mean d on' def r y m' -> (x = None <-> y = None) /\ (x = y -> m = m').
Proof.
  intros He. induction 1 as [r m Hm|i k x m Hk Hm|i k r x m Hk Ha Hm IH]; intros y m' H'.
  - inversion H' as [r' m1 Hm1|i1 k1 x1 m1 Hk1 Hm1|i1 k1 r1 x1 m1 Hk1 Ha1 Hm1]; subst.
    + split; [tauto|]. intros _. eapply means_fun; eassumption.
    + exfalso. inversion Hm; subst; contradiction.
    + inversion Hm as [? ? Hp| | |i2 k2 r2 m2 Hk2 Ha2 Hm2]; subst; [contradiction|].
      assert (k2 = k1) as -> by congruence. assert (r2 = r1) as -> by (eapply acts_as_fun; [exact Ha2|]; eapply acts_as_ext; [|exact Ha1]; intros l; cbn; rewrite He; reflexivity).
      clear H' Ha1 Ha2 Hk1 Hk2 Hm. revert m Hm2. induction Hm1 as [r' m1 Hm1|i3 k3 x1 m1 Hk1 Hm1|i3 k3 r3 x1 m1 Hk1 Ha1 Hm1 IH]; intros m Hm2.
      * split; [tauto|]. intros _. eapply means_fun; eassumption.
      * exfalso. inversion Hm2; subst; contradiction.
      * inversion Hm2 as [? ? Hp| | |i4 k2 r2 m2 Hk2 Ha2 Hm3]; subst; [contradiction|].
        assert (k2 = k3) as -> by congruence. assert (r2 = r3) as -> by (eapply acts_as_fun; [exact Ha2|]; eapply acts_as_ext; [|exact Ha1]; intros l; cbn; rewrite He; reflexivity).
        now apply IH.
  - inversion H' as [r' m1 Hm1|i1 k1 x1 m1 Hk1 Hm1|]; subst.
    + exfalso. inversion Hm1; subst; contradiction.
    + split; [split; discriminate|]. intros E. injection E as <-. assert (k1 = k) as -> by congruence. eapply means_fun; eassumption.
  - assert (X : may_mean d on' def r y m').
    { inversion H' as [r' m1 Hm1|i1 k1 x1 m1 Hk1 Hm1|i1 k1 r1 x1 m1 Hk1 Ha1 Hm1]; subst.
      - inversion Hm1 as [? ? Hp| | |i2 k2 r2 m2 Hk2 Ha2 Hm2]; subst; [contradiction|]. constructor.
        assert (k2 = k) as -> by congruence. assert (r2 = r) as <- by (eapply acts_as_fun; [exact Ha2|]; eapply acts_as_ext; [|exact Ha]; intros l; cbn; rewrite He; reflexivity). exact Hm2.
      - assert (k1 = k) as -> by congruence. assert (r1 = r) as <- by (eapply acts_as_fun; [exact Ha1|]; eapply acts_as_ext; [|exact Ha]; intros l; cbn; rewrite He; reflexivity). exact Hm1. }
    now apply IH.
Qed.
Lemma tap_run_fun n refs d ir ir' T T' h later xs b cs : tap_run n refs d ir T h later xs b cs ->
  forall later' ys b' cs' s t, tap_run n refs d ir' T' h later' ys b' cs' -> xs ++ s = ys ++ t -> same_board b b' /\ cs = cs' /\ xs = ys.
Proof.
  induction 1 as [later|h ie later xs b cs xs' b1 cs1 Hr IH Hs]; intros later' ys b' cs' s t H2 E.
  - inversion H2 as [|h0 ie0 l0 xs0 b0 cs0 xs1 b1 cs1 Hr0 Hs0 E0]; subst; [split; [split; auto|auto]|]. destruct h0; discriminate.
  - inversion H2 as [|h0 ie0 l0 ys0 b0 cs0 ys1 b2 cs2 Hr0 Hs0 E0]; subst; [destruct h; discriminate|]. apply app_inj_tail in E0 as (-> & ->).
    rewrite <- !app_assoc in E. destruct (IH _ _ _ _ _ _ Hr0 E) as (Hb & -> & ->). apply app_inv_head in E.
    destruct Hs as [i r x m Hi Er Hm Ha|ie b1 Hno Hst].
    + inversion Hs0 as [i' r' y m' Hi' Er' Hm' Ha'|ie' b'' Hno' Hst']; subst; [|now elim (Hno' i)].
      assert (r' = r) as -> by congruence. pose proof Hb as (B1 & B2 & B3). rewrite <- B3 in Hm'. destruct (may_mean_fun _ _ _ _ _ _ _ B2 Hm _ _ Hm') as (N1 & N2).
      assert (Exy : x = y).
      { destruct x as [x|], y as [y|]; [cbn in E; injection E as -> _; reflexivity|now destruct N1 as (_ & N1); discriminate N1|now destruct N1 as (N1 & _); discriminate N1|reflexivity]. }
      subst y. rewrite (N2 eq_refl). split; [|split; reflexivity]. apply switch_same. split; [cbn; now rewrite B1|]. split; assumption.
    + inversion Hs0 as [i' r' y m' Hi' Er' Hm' Ha'|ie' b'' Hno' Hst']; subst; [now elim (Hno i')|].
      split; [|split; reflexivity]. eapply step_fun; [exact Hb| |exact Hst|exact Hst'].
      rewrite (tap_run_shape _ _ _ _ _ _ _ _ _ _ Hr). apply down_nodup.
Qed.

(** ** What the inputs after the press must be like *)
Lemma first_some ir i seen : forall hist, first_decision (tap_hold_rule ir i) hist (map EvInput seen) = None ->
  forall a x z, seen = a ++ x :: z -> tap_hold_rule ir i (hist ++ map EvInput a) (EvInput x) = None.
Proof.
  induction seen as [|y seen IH]; intros hist H a x z E; [destruct a; discriminate|]. cbn [map first_decision] in H.
  destruct (tap_hold_rule ir i hist (EvInput y)) eqn:Ey; [discriminate|]. destruct a as [|y' a]; cbn in E; injection E as -> ->.
  - cbn. now rewrite app_nil_r.
  - cbn [map]. replace (hist ++ EvInput y' :: map EvInput a) with ((hist ++ [EvInput y']) ++ map EvInput a) by (now rewrite <- app_assoc). eapply IH; [exact H|reflexivity].
Qed.
Lemma last_press_split (s : list input_event) j : latest_press (map (@EvInput cev) s) = Some j ->
  exists s1 s2, s = s1 ++ Press j :: s2 /\ forall j', ~ In (Press j') s2.
Proof.
  induction s as [|x s IH]; [discriminate|]. cbn [map latest_press]. destruct (latest_press (map EvInput s)) as [j'|] eqn:E.
  - intros X. injection X as ->. destruct (IH eq_refl) as (s1 & s2 & -> & H). exists (x :: s1), s2. auto.
  - destruct x as [y|y|ko|ko]; try discriminate. intros X. injection X as ->. exists [], s. split; [reflexivity|].
    intros j' Hin. clear -E Hin. induction s as [|x s IH]; [destruct Hin|]. cbn [map latest_press] in E. destruct (latest_press (map EvInput s)) eqn:E'; [discriminate|].
    destruct Hin as [->|Hin]; [discriminate|now apply IH].
Qed.

Lemma latest_app (l b : list input_event) : latest_press (map (@EvInput cev) (l ++ b))
  = match latest_press (map (@EvInput cev) b) with Some y => Some y | None => latest_press (map (@EvInput cev) l) end.
Proof.
  induction l as [|y l IH]; [cbn; now destruct (latest_press _)|]. cbn [app map latest_press]. rewrite IH. now destruct (latest_press (map EvInput b)).
Qed.

(** ** Nothing is dropped *)
Section Room.
Variables (refs : list ref) (d : key_data) (pos : position_fn) (dbg : bool) (cf : config) (height f : nat).
Hypothesis Hrefs : Forall (tap_board_key (cf_layer_count cf) d height) refs.
Variable L : list (callback * callback_fn).
Local Notation conf := (cconf refs d pos dbg).
Local Notation k0 := (set_callbacks (km_new (ctx_from_config cf)) L).
Local Notation fuel := (S (S (S (S (S (S (S (S (height + f))))))))).
Lemma all_let_in ops k : Forall (fun o => plain_op o = true) ops -> run_ops conf fuel ops k0 = Ok k -> in_turn (inputs ops) -> (length (inputs ops) <= 31)%nat ->
  let_in conf fuel ops k0 = inputs ops.
Proof.
  revert k. induction ops as [|o ops IH] using rev_ind; intros k Ho H Ht Hl; [reflexivity|].
  rewrite run_ops_app in H. inv_bind H. apply Forall_app in Ho as (Ho & _).
  assert (Ei : inputs (ops ++ [o]) = inputs ops ++ inputs [o]) by apply filter_map_app.
  rewrite Ei in *. rewrite app_length in Hl.
  assert (IH' : let_in conf fuel ops k0 = inputs ops) by (eapply IH; [exact Ho|exact E|now apply in_turn_app in Ht|lia]).
  rewrite (let_in_snoc refs d pos dbg height f ops o _ _ E), IH'. f_equal. destruct o as [ev| | | | | | |]; try reflexivity.
  assert (C : tcore refs d pos dbg cf height f L ops anyTr (let_in conf fuel ops k0) a).
  { apply run_core; try assumption. rewrite IH'. now apply in_turn_app in Ht. }
  destruct C as (_ & _ & _ & h & b & xs & cs & _ & X). rewrite IH' in X. cbn in Hl.
  assert (Hq : (length (km_inq a) < 31)%nat).
  { destruct X as [(Ea & _)|(i & q & key & qd & due & Ea & _)]; rewrite Ea in Hl; repeat (rewrite app_length in Hl; cbn [length] in Hl); lia. }
  apply Nat.ltb_lt in Hq. now rewrite Hq.
Qed.
End Room.
