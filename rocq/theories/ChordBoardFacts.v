(** Keyboards with layers and chords, computed (C71). *)
From Verif Require Import BaseFacts Output Types Scheduler Reporter Keymap SimpleKeys TapHold TapDance Sticky CapsWord
  Layered Automation Chorded Composite SpecKeymap KeymapHist KeymapQueue KeymapCalls KeymapApi SpecChord ChordFacts ChordHeld SpecPlain PlainFacts
  SpecLayer LayerFacts SpecTap TapFacts TapTime CtxFacts SpecDecide SpecBoard BoardFacts SpecScheduler SchedulerFacts SpecTapBoard TapBoardFacts SpecChordBoard.
Local Open Scope N_scope.

Definition resolved (i : u16) (x : option nat) : event cev := EvKey i (CeChorded (ChordResolved (resolution_of x))).
Definition ctimer (i : u16) : event cev := EvKey i (CeChorded ChTimeout).
Lemma chord_event_ctx c i e : calm c ->
  cctx_handle_event c (EvKey i (CeChorded e)) = (let! h := step_chorded (cx_chorded c) (EvKey i (CeChorded e)) in Ok (with_chorded c h, [])).
Proof.
  intros (Hw & Hl & Hs & Hp). unfold cctx_handle_event, step_automation, step_caps_word, step_layered, step_sticky.
  cbn [try_event auto_handle_event cw_handle_event bind ke_map map ke_extend fold_res as_automation as_caps_word as_layered as_sticky].
  destruct (step_chorded (cx_chorded c) (EvKey i (CeChorded e))) as [h| |]; reflexivity.
Qed.

Section ChordBoard.
Variables (refs : list ref) (d : key_data) (pos : position_fn) (dbg : bool) (n : nat) (cc : chorded_config).
Local Notation conf := (cconf refs d pos dbg).
Local Notation bstate := (bstate d n).
Local Notation held := (held d n).
Local Notation chords := (chc_chords cc).

Lemma with_chorded_state sch b (k : ckeymap) h : bstate sch b k -> bstate sch b (set_ctx k (with_chorded (km_ctx k) h)).
Proof. intros (A & B & C & D & E & F). split; [exact A|]. split; [exact B|]. split; [exact C|]. auto. Qed.
Lemma event_chord sch f b (k : ckeymap) i e : bstate sch b k ->
  exec conf (S (S f)) (JHandleEvent (EvKey i (CeChorded e))) k
  = (let! h := step_chorded (cx_chorded (km_ctx k)) (EvKey i (CeChorded e)) in Ok (set_ctx k (with_chorded (km_ctx k) h))).
Proof.
  intros H. pose proof H as (Hc & Hly & Hh & Hnd & Hs & Hp). cbn [exec step]. unfold step_handle_event. cbn [run_callback].
  cbn [exec step]. unfold step_update_pending. rewrite Hp. cbn [bind]. rewrite (update_pressed_board refs d pos dbg n b) by (try exact Hh; discriminate).
  cbn [bind]. unfold update_context. cbn [kc_sys cconf composite sys_ctx_handle_event]. rewrite chord_event_ctx by exact Hc.
  destruct (step_chorded _ _); reflexivity.
Qed.

Lemma pressed_in_app a b : pressed_in (a ++ b) = pressed_in a ++ pressed_in b.
Proof. clear. induction a as [|[[k|k|ko|ko]|ki ce|ke] a IH]; cbn; rewrite ?IH; reflexivity. Qed.
(** What a decided key does when it is pressed. *)
Definition cleaf (i : u16) (r : ref) (ks : cks) (m : meaning) : Prop :=
  leaf d n i r ks m \/ (exists q, r = RChorded q) /\ ks = KsNoOp /\ m = Nothing.
Lemma cleaf_held i r ks m : cleaf i r ks m -> held (PiKey i r ks) (inl (i, m)).
Proof. intros [H|((q & ->) & -> & ->)]; [now apply leaf_held|]. cbn. split; [reflexivity|]. now exists q. Qed.
Lemma cleaf_output i r ks m : cleaf i r ks m -> c_key_output d r ks = Ok (match m with Sends ko => Some ko | _ => None end).
Proof. intros [H|((q & ->) & -> & ->)]; [eapply leaf_output; exact H|reflexivity]. Qed.
Lemma cleaf_events i r ks m : cleaf i r ks m -> forall b (k : ckeymap) sch, bstate sch b k -> sc_pending (km_sched k) = press_events i m ->
  forall f, exists k', exec conf (S (S (S f))) JHandlePending k = Ok k' /\ bstate sch (switch n (at_press m) b) k' /\ frame k k'
    /\ sc_pending (km_sched k') = [] /\ km_calls k' = km_calls k ++ filter_map (lm_get (km_callbacks k)) (asks m).
Proof.
  intros [H|((q & ->) & -> & ->)]; [eapply leaf_events; exact H|]. intros b k sch Hb Hs f. exists k. cbn [press_events] in Hs. rewrite drain0 by exact Hs.
  split; [reflexivity|]. split; [exact Hb|]. split; [apply frame_refl|]. split; [exact Hs|]. cbn. now rewrite app_nil_r.
Qed.

(** Resolving an undecided key of a chord. *)
Lemma resolve_chord i r ks m st qd x : cleaf i r ks m -> ~ In (Press i) qd -> (forall a z, qd = a ++ Release i :: z -> z = []) ->
  forall b (k k' : ckeymap) sch f, bstate sch b (set_pending k None) -> existsb (this_key i) (bd_down b) = false ->
  km_pending k = Some (mkPending i r st (map EvInput qd)) -> sc_pending (km_sched k) = Some (resolved i x) :: press_events i m ->
  exec conf (S (S (S (S (S f))))) (JResolve ks) k = Ok k' ->
  exists h, step_chorded (cx_chorded (km_ctx k)) (resolved i x) = Ok h
    /\ bstate (map (cancel_entry i) sch) (switch n (at_press m) (set_down b (bd_down b ++ [inl (i, m)]))) k'
    /\ framed (set_inq k (qd ++ km_inq k)) k' h /\ sc_pending (km_sched k') = []
    /\ km_calls k' = km_calls k ++ filter_map (lm_get (km_callbacks k)) (asks m).
Proof.
  intros Hl Hq1 Hq2 b k k' sch f Hb Hi Hp Hs E. pose proof Hb as (_ & _ & Hh & _ & Hsc & _).
  change (exec conf (S (S (S (S (S f))))) (JResolve ks) k) with (step_resolve conf (exec conf (S (S (S (S f))))) ks k) in E.
  unfold step_resolve in E. rewrite Hp in E. cbn [pd_index pd_ref pd_queued] in E. inv_bind E. apply push_cap_ok in E0 as (-> & _).
  rewrite (queued_again i qd Hq1 Hq2), requeue_all in E by (cbn; lia). cbn [length Nat.add app] in E.
  destruct (Nat.leb_spec (length qd) 31) as [L2|L2]; cbn [bind] in E; [|discriminate]. rewrite push_all_dec in E by exact L2.
  destruct (_ <=? _)%nat; [|discriminate]. cbn [bind] in E. cbn [km_inq set_pressed set_sched set_pending] in E.
  match type of E with context [exec conf _ JHandlePending ?x] => set (k2 := x) in E end.
  inv_bind E. change (exec conf (S (S (S (S f)))) JHandlePending k2) with (step_handle_pending (exec conf (S (S (S f)))) k2) in E0.
  unfold step_handle_pending in E0.
  assert (Ed : sched_dequeue (km_sched k2) = (mkSched (press_events i m) (map (cancel_entry i) sch) (sc_counter (km_sched k)), Some (resolved i x))).
  { unfold sched_dequeue, k2. cbn [km_sched set_inq set_sched]. unfold sched_cancel. cbn [sc_pending sc_scheduled sc_counter]. rewrite Hs. now rewrite <- Hsc. }
  rewrite Ed in E0. inv_bind E0.
  set (k3 := set_sched k2 (mkSched (press_events i m) (map (cancel_entry i) sch) (sc_counter (km_sched k)))) in *.
  assert (B3 : bstate (map (cancel_entry i) sch) (set_down b (bd_down b ++ [inl (i, m)])) k3).
  { assert (X := bstate_push d n sch b (set_pending k None) i r ks m Hb Hi (cleaf_held _ _ _ _ Hl)).
    destruct X as (A1 & A2 & A3 & A4 & A5 & A6). split; [exact A1|]. split; [exact A2|]. split; [exact A3|]. split; [exact A4|]. split; reflexivity. }
  unfold resolved in E1. rewrite (event_chord _ _ _ _ _ _ B3) in E1. inv_bind E1. injection E1 as <-.
  exists a1. change (cx_chorded (km_ctx k3)) with (cx_chorded (km_ctx k)) in E2. split; [exact E2|].
  pose proof (with_chorded_state _ _ _ a1 B3) as B4.
  destruct (cleaf_events i r ks m Hl _ _ _ B4 eq_refl f) as (k5 & E5 & B5 & F5 & P5 & C5).
  change (exec conf (S (S (S f))) JHandlePending (set_ctx k3 (with_chorded (km_ctx k3) a1)) = Ok a) in E0. rewrite E5 in E0. injection E0 as <-.
  destruct F5 as (G1 & G2 & G3 & G4 & G5 & G6 & G7). cbn in G1, G2, G3, G4, G5, G6, G7, C5.
  unfold emit_resolved in E. cbn [kc_sys cconf composite sys_key_output] in E. rewrite (cleaf_output _ _ _ _ Hl) in E. cbn [bind] in E.
  assert (Done : bstate (map (cancel_entry i) sch) (switch n (at_press m) (set_down b (bd_down b ++ [inl (i, m)]))) k5
    /\ framed (set_inq k (qd ++ km_inq k)) k5 a1 /\ sc_pending (km_sched k5) = []
    /\ km_calls k5 = km_calls k ++ filter_map (lm_get (km_callbacks k)) (asks m)).
  { split; [exact B5|]. split; [unfold framed; cbn; auto 10|]. split; [exact P5|exact C5]. }
  destruct m as [ko|lm|cb|]; try (injection E as <-; exact Done). clear Done.
  destruct (event_board refs d pos dbg n _ (S (S f)) _ k5 (EvKeymap (KmResolvedKeyOutput i ko)) None B5 I) as (k6 & E6 & B6 & F6 & S6 & C6).
  rewrite E6 in E. injection E as <-. destruct F6 as (I1 & I2 & I3 & I4 & I5 & I6 & I7).
  split; [exact B6|]. split; [unfold framed; cbn; repeat split; congruence|]. split; [now rewrite S6|]. rewrite C6, C5. cbn. now rewrite !app_nil_r.
Qed.

(** What the key a press becomes means. *)
Definition npk_means (on : N -> bool) (df : option N) (npk : new_pressed_key ref) (m : meaning) : Prop :=
  match npk with NpkKey r => means d on df r m | NpkNoOp => m = Nothing end.

(** The undecided key becomes a decided key. *)
Definition decides (i : u16) (x : option nat) (qd : list input_event) (npk : new_pressed_key ref) (sch : list (sch_entry cev)) (b : board) (k k' : ckeymap) : Prop :=
  exists m g, npk_means (bd_on b) (bd_default b) npk m /\ step_chorded (cx_chorded (km_ctx k)) (resolved i x) = Ok g
    /\ bstate (map (cancel_entry i) sch) (switch n (at_press m) (set_down b (bd_down b ++ [inl (i, m)]))) k'
    /\ framed (set_inq k (qd ++ km_inq k)) k' g /\ sc_pending (km_sched k') = []
    /\ km_calls k' = km_calls k ++ filter_map (lm_get (km_callbacks k)) (asks m).
Definition waiting_key (i : u16) (r0 : ref) (st : cpks) (qd : list input_event) (x : option nat) (sch : list (sch_entry cev)) (b : board) (k : ckeymap) : Prop :=
  bstate sch b (set_pending k None) /\ km_pending k = Some (mkPending i r0 st (map EvInput qd)) /\ sc_pending (km_sched k) = [Some (resolved i x)].
Lemma decides_from i x qd npk npk' sch b (k k1 k' : ckeymap) : frame k k1 -> km_calls k1 = km_calls k ->
  (forall m, npk_means (bd_on b) (bd_default b) npk' m -> npk_means (bd_on b) (bd_default b) npk m) ->
  decides i x qd npk' sch b k1 k' -> decides i x qd npk sch b k k'.
Proof.
  intros (G1 & G2 & G3 & G4 & G5 & G6 & G7) C1 Hm (m & g & M & Eg & B & (F1 & F2 & F3 & F4 & F5 & F6 & F7) & P & C).
  exists m, g. split; [now apply Hm|]. split; [now rewrite <- G6|]. split; [exact B|]. split; [|split; [exact P|now rewrite C, C1, G7]].
  cbn in F1, F2, F3, F4, F5, F7. unfold framed. cbn. rewrite G1 in F1. repeat split; congruence.
Qed.
Section Decide.
Variables (i : u16) (st : cpks) (qd : list input_event) (x : option nat).
Hypothesis Hq1 : ~ In (Press i) qd.
Hypothesis Hq2 : forall a z, qd = a ++ Release i :: z -> z = [].
Lemma pending_nothing b (k k' : ckeymap) sch f q0 : waiting_key i (RChorded q0) st qd x sch b k -> existsb (this_key i) (bd_down b) = false ->
  exec conf (S (S (S (S (S (S f)))))) (JPendingLoop NpkNoOp) k = Ok k' -> decides i x qd NpkNoOp sch b k k'.
Proof.
  intros (Hb & Hp & Hs) Hi E.
  assert (E' : exec conf (S (S (S (S (S f))))) (JResolve KsNoOp) k = Ok k').
  { rewrite <- E. change (exec conf (S (S (S (S (S (S f)))))) (JPendingLoop NpkNoOp) k) with (step_pending_loop conf (exec conf (S (S (S (S (S f)))))) NpkNoOp k).
    unfold step_pending_loop. rewrite Hp. reflexivity. }
  destruct (resolve_chord i (RChorded q0) KsNoOp Nothing st qd x (or_intror (conj (ex_intro _ q0 eq_refl) (conj eq_refl eq_refl))) Hq1 Hq2 b k k' sch f Hb Hi Hp Hs E') as (g & X).
  exists Nothing, g. split; [reflexivity|exact X].
Qed.
Lemma pending_leaf r ks m : leaf d n i r ks m ->
  forall b (k : ckeymap) r0 sch f, waiting_key i r0 st qd x sch b k ->
  exists k1, exec conf (S f) (JPendingLoop (NpkKey r)) k = exec conf f (JResolve ks) k1
    /\ bstate sch b (set_pending k1 None) /\ km_pending k1 = Some (mkPending i r st (map EvInput qd)) /\ sc_pending (km_sched k1) = Some (resolved i x) :: press_events i m
    /\ frame k k1 /\ km_calls k1 = km_calls k.
Proof.
  intros Hl b k r0 sch f (Hb & Hp & Hs).
  change (exec conf (S f) (JPendingLoop (NpkKey r)) k) with (step_pending_loop conf (exec conf f) (NpkKey r) k).
  unfold step_pending_loop. rewrite Hp. cbn [pd_index pd_ref pd_state pd_queued kc_sys cconf composite sys_new_pressed_key].
  pose proof Hb as (A1 & A2 & A3 & A4 & A5 & A6).
  destruct Hl as [r ko H|q lm Hlm Hok|q cb H].
  - rewrite (plain_new d _ _ i (km_ctx k) H). cbn [bind]. unfold schedule_all, sched_all. cbn [fold_res bind].
    eexists. split; [reflexivity|]. split; [split; [exact A1|split; [exact A2|split; [exact A3|split; [exact A4|split; [exact A5|reflexivity]]]]]|].
    split; [reflexivity|]. split; [exact Hs|]. split; [unfold frame; cbn; auto 10|reflexivity].
  - cbn [c_new_pressed_key ly_new_pressed_key]. unfold index. rewrite Hlm. cbn [bind].
    assert (Ee : lm_new_pressed_key lm = (BhRegular, press_effect lm)) by (destruct lm; cbn in *; try contradiction; reflexivity). rewrite Ee. cbn [bind].
    unfold schedule_all, sched_all. cbn [ke_map map map_sched immediate se_schedule se_event map_event fold_res sched_event_in km_sched set_pending]. unfold sched_enqueue, push_cap. rewrite Hs.
    change (length [Some (resolved i x)] <? PENDING_CAPACITY)%nat with true. cbn [bind app map_pkr].
    eexists. split; [reflexivity|]. split; [split; [exact A1|split; [exact A2|split; [exact A3|split; [exact A4|split; [exact A5|reflexivity]]]]]|].
    split; [reflexivity|]. split; [reflexivity|]. split; [unfold frame; cbn; auto 10|reflexivity].
  - cbn [c_new_pressed_key]. unfold callback_new_pressed_key, index. rewrite H. cbn [bind].
    unfold schedule_all, sched_all. cbn [immediate se_schedule se_event fold_res sched_event_in km_sched set_pending]. unfold sched_enqueue, push_cap. rewrite Hs.
    change (length [Some (resolved i x)] <? PENDING_CAPACITY)%nat with true. cbn [bind app].
    eexists. split; [reflexivity|]. split; [split; [exact A1|split; [exact A2|split; [exact A3|split; [exact A4|split; [exact A5|reflexivity]]]]]|].
    split; [reflexivity|]. split; [reflexivity|]. split; [unfold frame; cbn; auto 10|reflexivity].
Qed.
Lemma pending_decided r ks m : leaf d n i r ks m -> (forall on df, means d on df r m) ->
  forall b (k : ckeymap) r0 k' sch f, waiting_key i r0 st qd x sch b k -> existsb (this_key i) (bd_down b) = false ->
  exec conf (S (S (S (S (S (S f)))))) (JPendingLoop (NpkKey r)) k = Ok k' -> decides i x qd (NpkKey r) sch b k k'.
Proof.
  intros Hl Hm b k r0 k' sch f Hw Hi E. destruct (pending_leaf r ks m Hl b k r0 sch (S (S (S (S (S f))))) Hw) as (k1 & E1 & B1 & P1 & S1 & F1 & C1).
  rewrite E1 in E.
  destruct (resolve_chord i r ks m st qd x (or_introl Hl) Hq1 Hq2 b k1 k' sch f B1 Hi P1 S1 E) as (g & X).
  apply (decides_from i x qd (NpkKey r) (NpkKey r) sch b k k1 k' F1 C1); [auto|]. exists m, g. split; [apply Hm|exact X].
Qed.
Lemma pending_key h r : board_key n d h r -> forall b (k : ckeymap) r0 k' sch f, waiting_key i r0 st qd x sch b k -> existsb (this_key i) (bd_down b) = false ->
  exec conf (S (S (S (S (S (S (h + f))))))) (JPendingLoop (NpkKey r)) k = Ok k' -> decides i x qd (NpkKey r) sch b k k'.
Proof.
  induction 1 as [h r ko Hk|h q lm Hm Hok|h q cb Hcb|h q lk Hk Hlen _ IHb _ IHl]; intros b k r0 k' sch f Hw Hi E.
  - eapply (pending_decided r _ (Sends ko)); [now constructor|intros; now constructor|exact Hw|exact Hi|exact E].
  - eapply (pending_decided _ _ (Switches lm)); [now constructor|intros; now constructor|exact Hw|exact Hi|exact E].
  - eapply (pending_decided _ _ (Calls cb)); [now constructor|intros; now constructor|exact Hw|exact Hi|exact E].
  - destruct Hw as (Hb & Hp & Hs). pose proof Hb as (A1 & (Ln & Lo & Ld & Lr) & A3 & A4 & A5 & A6). cbn [km_ctx set_pending] in *.
    destruct (layered_total lk (cx_layered (km_ctx k))) as (r' & Er); [congruence| |].
    { rewrite Ld, Ln. exact Lr. }
    assert (Ha : acts_as lk (fun l => bd_on b l = true) (bd_default b) r').
    { apply layered_lookup in Er. rewrite <- Ld. eapply acts_as_ext; [|exact Er]. intros l. rewrite layer_on_is_on, Lo. reflexivity. }
    assert (Y : exists k1, exec conf (S (S (S (S (S (S (S h + f))))))) (JPendingLoop (NpkKey (RLayered (LyLayered q)))) k = exec conf (S (S (S (S (S (S (h + f))))))) (JPendingLoop (NpkKey r')) k1
      /\ waiting_key i (RLayered (LyLayered q)) st qd x sch b k1 /\ frame k k1 /\ km_calls k1 = km_calls k).
    { change (S h + f)%nat with (S (h + f)). generalize (S (S (S (S (S (S (h + f)))))))%nat. intros f0.
      change (exec conf (S f0) (JPendingLoop (NpkKey (RLayered (LyLayered q)))) k) with (step_pending_loop conf (exec conf f0) (NpkKey (RLayered (LyLayered q))) k).
      unfold step_pending_loop. rewrite Hp. cbn [pd_index pd_ref pd_state pd_queued kc_sys cconf composite sys_new_pressed_key].
      cbn [c_new_pressed_key ly_new_pressed_key]. unfold index. rewrite Hk. cbn [bind].
      rewrite Er. cbn [bind map_pkr ke_map map]. unfold schedule_all, sched_all. cbn [fold_res bind].
      eexists. split; [reflexivity|]. split; [|split; [unfold frame; cbn; auto 10|reflexivity]].
      split; [|split; [reflexivity|exact Hs]].
      split; [exact A1|split; [split; [exact Ln|split; [exact Lo|split; [exact Ld|exact Lr]]]|split; [exact A3|split; [exact A4|split; [exact A5|reflexivity]]]]]. }
    destruct Y as (k1 & E1 & W1 & F1 & C1). rewrite E1 in E.
    apply (decides_from i x qd _ (NpkKey r') sch b k k1 k' F1 C1).
    { intros m M. eapply means_layered; eassumption. }
    destruct (acts_as_entry _ _ _ _ Ha) as [->|Hin]; [eapply IHb; eassumption|eapply (IHl r' Hin); eassumption].
Qed.
End Decide.

(** ** What a key of a chord becomes *)
Definition resolves (q : chorded_ref) (i : u16) (x : option nat) (npk : new_pressed_key ref) : Prop :=
  match q with
  | ChChorded j => exists keys pass, nth_error (kd_chorded d) (N.to_nat j) = Some (mkChordedKey keys pass)
      /\ match x with
         | None => npk = NpkKey pass
         | Some id => exists first rest, nth_error chords id = Some (first :: rest)
             /\ if first =? i then exists r, option_map snd (find (fun e => fst e =? N.of_nat id) keys) = Some r /\ npk = NpkKey r else npk = NpkNoOp
         end
  | ChAuxiliary j => exists pass, nth_error (kd_chorded_aux d) (N.to_nat j) = Some (mkChordedAux pass)
      /\ npk = match x with None => NpkKey pass | Some _ => NpkNoOp end
  end.
Lemma resolves_mean on df q i x npk y m : resolves q i x npk -> part y = x -> npk_means on df npk m -> chord_mean d chords on df i (RChorded q) (Some y) m.
Proof.
  intros H Hy Hm. destruct q as [j|j]; cbn in H.
  - destruct H as (keys & pass & Hk & H). destruct x as [id|].
    + destruct H as (first & rest & Hc & H). destruct (N.eqb_spec first i) as [->|Hne].
      * destruct H as (r & Hr & ->). eapply cm_first; eassumption.
      * subst npk. cbn in Hm. subst m. eapply cm_other; eassumption.
    + subst npk. eapply cm_own; [exact Hk|exact Hy|exact Hm].
  - destruct H as (pass & Hk & ->). destruct x as [id|].
    + cbn in Hm. subst m. eapply cm_auxiliary; eassumption.
    + eapply (cm_own _ _ _ _ _ _ []); [split; [exact Hk|reflexivity]|exact Hy|exact Hm].
Qed.
Lemma find_in {A} (f : chord_id * A -> bool) l r : option_map snd (find f l) = Some r -> exists id, In (id, r) l.
Proof. clear. destruct (find f l) as [[id r']|] eqn:E; [|discriminate]. cbn. intros X. injection X as ->. apply find_some in E as (E & _). now exists id. Qed.
Lemma resolves_key h q keys pass i x npk r : chord_member d q keys pass -> board_key n d h pass -> (forall id r, In (id, r) keys -> board_key n d h r) ->
  resolves q i x npk -> npk = NpkKey r -> board_key n d h r.
Proof.
  intros Hm Hp Hk H ->. destruct q as [j|j]; cbn in H, Hm.
  - destruct H as (keys' & pass' & E & H). rewrite Hm in E. injection E as <- <-. destruct x as [id|].
    + destruct H as (first & rest & _ & H). destruct (first =? i); [|discriminate]. destruct H as (r' & Hr & E). injection E as <-.
      apply find_in in Hr as (id' & Hr). eapply Hk. exact Hr.
    + injection H as ->. exact Hp.
  - destruct H as (pass' & E & H). destruct Hm as (Hm & _). rewrite Hm in E. injection E as <-. destruct x; [discriminate|]. injection H as ->. exact Hp.
Qed.
Lemma chk_resolves j keys pass (g : chorded_ctx) i x npk : nth_error (kd_chorded d) (N.to_nat j) = Some (mkChordedKey keys pass) -> chx_config g = cc ->
  chk_resolve (mkChordedKey keys pass) g i (resolution_of x) = Ok npk -> resolves (ChChorded j) i x npk.
Proof.
  intros Hk Hc H. exists keys, pass. split; [exact Hk|]. destruct x as [id|]; cbn in H; [|now injection H as <-].
  rewrite Hc, Nat2N.id in H. inv_bind H. apply index_ok in E. inv_bind H. destruct a as [|first rest]; [discriminate E0|]. injection E0 as ->.
  exists a0, rest. split; [exact E|]. destruct (a0 =? i); [|now injection H as <-]. inv_bind H. injection H as <-. exists a. split; [|reflexivity].
  rewrite find_chord_key_spec in E0. unfold unwrap in E0. match type of E0 with (match ?o with _ => _ end) = _ => destruct o; [|discriminate] end. now injection E0 as ->.
Qed.

Definition chord_ctx (c : cboard) (g : chorded_ctx) : Prop :=
  chx_config g = cc /\ (forall id, nth id (chx_pressed_chords g) false = cb_active c id) /\ chx_latest g = option_map N.of_nat (cb_latest c).
Definition hasty (g : chorded_ctx) : Prop := too_soon (chc_required_idle cc) (chx_idle g).
Hypothesis Hfew : (length chords <= 256)%nat.
Local Notation cands c i := (offered chords (cb_active c) i).

Lemma offered_few c i id ch : In (id, ch) (cands c i) -> (id < 256)%nat.
Proof. intros H. apply filter_In in H as (H & _). apply numbered_In in H. assert (id < length chords)%nat by (apply nth_error_Some; congruence). lia. Qed.
(** Feeding an undecided key. *)
Lemma chord_update q keys pass (c : cctx) b i hist ev p o kes e : chord_member d q keys pass -> chx_config (cx_chorded c) = cc ->
  try_event as_chorded ev = Some e -> (length (pressed_in hist) < chc_max_chord_size cc)%nat ->
  c_update_pending d (PksChorded (pks_of i (cands b i) (pressed_in hist))) i c (RChorded q) ev = Ok (p, o, kes) ->
  match chord_rule (cands b i) i hist ev with
  | None => o = None /\ kes = [] /\ p = PksChorded (pks_of i (cands b i) (pressed_in (hist ++ [ev]))) /\ (length (pressed_in (hist ++ [ev])) < chc_max_chord_size cc)%nat
  | Some x => exists npk, o = Some npk /\ kes = [resolution_event i x] /\ resolves q i x npk
  end.
Proof.
  intros Hm Hc He Hl H. cbn [c_update_pending] in H. rewrite He in H. inv_bind H. destruct a as [[p2 n2] kes2]. injection H as <- <- <-.
  assert (Hp : exists q2 r, chp_handle_event (chc_max_chord_size cc) (pks_of i (cands b i) (pressed_in hist)) i e = Ok (q2, r)
    /\ p2 = q2 /\ match r with
       | None => n2 = None /\ kes2 = []
       | Some r => exists npk, n2 = Some npk /\ kes2 = [immediate (EvKey i (ChordResolved r))] /\ forall x, r = resolution_of x -> resolves q i x npk
       end).
  { unfold ch_update_pending in E. destruct q as [j|j]; cbn in Hm.
    - unfold index in E. rewrite Hm in E. cbn [bind] in E. unfold chk_update_pending in E. rewrite Hc in E. inv_bind E. destruct a as [q2 r].
      exists q2, r. split; [exact E0|]. destruct r as [r|]; [|injection E as <- <- <-; auto]. inv_bind E. injection E as <- <- <-. split; [reflexivity|].
      exists a. split; [reflexivity|]. split; [reflexivity|]. intros x ->. eapply chk_resolves; eassumption.
    - destruct Hm as (Hm & _). unfold index in E. rewrite Hm in E. cbn [bind] in E. unfold cha_update_pending in E. rewrite Hc in E. inv_bind E. destruct a as [q2 r].
      exists q2, r. split; [exact E0|]. destruct r as [r|]; [|injection E as <- <- <-; auto]. injection E as <- <- <-. split; [reflexivity|].
      eexists. split; [reflexivity|]. split; [reflexivity|]. intros x ->. exists pass. split; [exact Hm|]. now destruct x. }
  destruct Hp as (q2 & r & Hp & -> & Hr).
  assert (Hlen : (length (pressed_in (hist ++ [ev])) < chc_max_chord_size cc)%nat).
  { destruct ev as [[k|k|ko|ko]|ki ce|ke]; try (rewrite pressed_in_app; cbn; rewrite app_nil_r; exact Hl).
    cbn in He. injection He as <-. cbn [chp_handle_event] in Hp. inv_bind Hp. unfold chp_press in E0. inv_bind E0. apply push_cap_ok in E1 as (_ & E1).
    rewrite pressed_in_app, app_length. cbn in *. lia. }
  rewrite (chp_handle_spec _ _ _ _ _ _ (offered_few b i) Hlen He) in Hp. injection Hp as <- <-.
  destruct (chord_rule (cands b i) i hist ev) as [x|]; cbn [option_map] in Hr.
  - destruct Hr as (npk & -> & -> & Hr). exists npk. split; [reflexivity|]. split; [now destruct x|]. now apply Hr.
  - destruct Hr as (-> & ->). split; [reflexivity|]. split; [reflexivity|]. split; [|exact Hlen]. f_equal.
    destruct ev as [[k|k|ko|ko]|ki ce|ke]; try reflexivity; (rewrite pressed_in_app; cbn; now rewrite app_nil_r).
Qed.

(** ** Pressing a key that may belong to chords *)
Definition at_once (g : chorded_ctx) (c : cboard) (i : u16) (z : outcome) : Prop :=
  match z with
  | Joins id => option_map fst (find (fun '(id, ch) => cb_active c id && member i ch) (numbered chords)) = Some id
  | Own => in_active chords (cb_active c) i = false /\ (cands c i = [] \/ ~ of_latest chords c i /\ hasty g)
  | _ => False
  end.
Definition may_wait (g : chorded_ctx) (c : cboard) (i : u16) : Prop :=
  in_active chords (cb_active c) i = false /\ cands c i <> [] /\ (of_latest chords c i \/ ~ hasty g).
Lemma hasty_dec g : hasty g \/ ~ hasty g.
Proof.
  unfold hasty, too_soon. destruct (chc_required_idle cc) as [r|]; [|right; intros (r & E & _); discriminate].
  destruct (N.lt_ge_cases (chx_idle g) r) as [H|H]; [left; exists r; auto|right]. intros (r' & E & X). injection E as <-. lia.
Qed.
Lemma in_active_find c i : in_active chords (cb_active c) i = false <-> find (fun '(id, ch) => cb_active c id && member i ch) (numbered chords) = None.
Proof.
  clear. unfold in_active. induction (numbered chords) as [|[id ch] l IH]; cbn; [tauto|]. destruct (cb_active c id && member i ch); cbn; [split; discriminate|exact IH].
Qed.
Lemma in_active_spec c i : in_active chords (cb_active c) i = true <-> exists id ch, nth_error chords id = Some ch /\ In i ch /\ cb_active c id = true.
Proof.
  clear. unfold in_active. rewrite existsb_exists. split.
  - intros ([id ch] & Hin & H). apply andb_true_iff in H as (H1 & H2). exists id, ch. split; [now apply numbered_In|]. split; [|exact H1].
    apply existsb_exists in H2 as (x & Hx & Hj). apply N.eqb_eq in Hj. now subst.
  - intros (id & ch & A & B & C). exists (id, ch). split; [now apply numbered_In|]. rewrite C. cbn. apply existsb_exists. exists i. split; [exact B|apply N.eqb_refl].
Qed.
Lemma of_latest_spec c i : of_latest chords c i <-> exists id ch, nth_error chords id = Some ch /\ In i ch /\ cb_latest c = Some id.
Proof.
  clear. unfold of_latest, belongs. split.
  - intros (id & El & H). destruct (nth_error chords id) as [ch|] eqn:Ec; [|discriminate]. exists id, ch. split; [exact Ec|]. split; [|exact El].
    apply existsb_exists in H as (x & Hx & Hj). apply N.eqb_eq in Hj. now subst.
  - intros (id & ch & A & B & C). exists id. split; [exact C|]. rewrite A. apply existsb_exists. exists i. split; [exact B|apply N.eqb_refl].
Qed.
Lemma enough_time c g g' i : chord_ctx c g -> step_chorded g (EvInput (Press i)) = Ok g' ->
  chord_ctx c g' /\ (sufficient_idle_time g' = true <-> in_active chords (cb_active c) i = true \/ of_latest chords c i \/ ~ hasty g).
Proof.
  intros (H1 & H2 & H3) E. destruct (exempt_ignore _ _ _ E) as (X & Y1 & Y2 & Y3).
  assert (Y4 : chx_latest g' = chx_latest g).
  { unfold step_chorded in E. cbn [try_event ch_handle_event] in E. inv_bind E. inv_bind E. inv_bind E. now injection E as <-. }
  split; [split; [congruence|]; split; [intros id; now rewrite Y3|congruence]|].
  unfold sufficient_idle_time. rewrite Y1, Y2, H1, orb_true_iff, X, in_active_spec, of_latest_spec. unfold exempt. rewrite H1, H3.
  assert (Z : (match chc_required_idle cc with Some r => r | None => 0 end <=? chx_idle g) = true <-> ~ hasty g).
  { unfold hasty, too_soon. rewrite N.leb_le. split.
    - intros Hle (r & Er & Hlt). rewrite Er in Hle. lia.
    - intros Hn. destruct (chc_required_idle cc) as [r|]; [|apply N.le_0_l]. destruct (N.le_gt_cases r (chx_idle g)) as [|Hlt]; [assumption|]. elim Hn. exists r. auto. }
  rewrite Z. clear Z. split.
  - intros [Z|(id & ch & A & B & [C|C])]; [auto| |].
    + left. exists id, ch. rewrite <- H2. auto.
    + right. left. exists id, ch. split; [exact A|]. split; [exact B|]. destruct (cb_latest c) as [j|]; [|discriminate]. cbn in C. injection C as C. apply Nat2N.inj in C. now subst.
  - intros [(id & ch & A & B & C)|[(id & ch & A & B & C)|Z]]; [right| |auto].
    + exists id, ch. rewrite H2. auto.
    + right. exists id, ch. rewrite C. cbn. auto.
Qed.
Lemma chord_new q keys pass (c : cctx) cb g i pr kes : chord_member d q keys pass -> chord_ctx cb g -> step_chorded g (EvInput (Press i)) = Ok (cx_chorded c) ->
  c_new_pressed_key d i c (RChorded q) = Ok (pr, kes) ->
  (exists z npk, at_once g cb i z /\ resolves q i (part z) npk /\ pr = PkNewPressedKey npk /\ kes = [])
  \/ (may_wait g cb i /\ pr = PkPending (PksChorded (pks_of i (cands cb i) [])) /\ kes = [mkSE (After (chc_timeout cc)) (ctimer i)] /\ (0 < chc_max_chord_size cc)%nat).
Proof.
  intros Hm Hg Eg H. destruct (enough_time cb g _ i Hg Eg) as ((G1 & G2 & G3) & Hsuf).
  cbn [c_new_pressed_key] in H. inv_bind H. destruct a as [p ke]. injection H as <- <-.
  assert (K : exists l, chords_for_keymap_index (cx_chorded c) i = Ok l /\ (0 < chc_max_chord_size cc)%nat
    /\ ((exists rr, ch_initial_resolution (cx_chorded c) (mkChPks [i] l) = PcResolved rr /\ ke = []
           /\ exists npk, p = PkNewPressedKey npk /\ (forall x, rr = resolution_of x -> resolves q i x npk))
        \/ (exists o, ch_initial_resolution (cx_chorded c) (mkChPks [i] l) = PcPending o
           /\ p = PkPending (mkChPks [i] l) /\ ke = [after (chc_timeout cc) (EvKey i ChTimeout)]))).
  { assert (Hnew : forall p0, ch_pks_new (cx_chorded c) i = Ok p0 -> exists l, chords_for_keymap_index (cx_chorded c) i = Ok l /\ (0 < chc_max_chord_size cc)%nat /\ p0 = mkChPks [i] l).
    { unfold ch_pks_new. intros p0 H. inv_bind H. inv_bind H. injection H as <-. apply push_cap_ok in E0 as [-> Hlt]. rewrite G1 in Hlt. eauto. }
    unfold ch_new_pressed_key in E. destruct q as [j|j]; cbn in Hm.
    - unfold index in E. rewrite Hm in E. cbn [bind] in E. unfold chk_new_pressed_key in E. inv_bind E.
      apply Hnew in E0 as (l & El & Hlt & ->). exists l. split; [exact El|]. split; [exact Hlt|].
      destruct (ch_initial_resolution _ _) as [rr|o] eqn:Ei.
      + inv_bind E. injection E as <- <-. left. exists rr. split; [reflexivity|]. split; [reflexivity|]. exists a. split; [reflexivity|].
        intros x ->. eapply chk_resolves; eassumption.
      + injection E as <- <-. right. exists o. rewrite G1. auto.
    - destruct Hm as [Hm _]. unfold index in E. rewrite Hm in E. cbn [bind] in E. unfold cha_new_pressed_key in E. inv_bind E.
      apply Hnew in E0 as (l & El & Hlt & ->). exists l. split; [exact El|]. split; [exact Hlt|].
      destruct (ch_initial_resolution _ _) as [rr|o] eqn:Ei.
      + injection E as <- <-. left. exists rr. split; [reflexivity|]. split; [reflexivity|]. eexists. split; [reflexivity|].
        intros x ->. exists pass. split; [exact Hm|]. now destruct x.
      + injection E as <- <-. right. exists o. rewrite G1. auto. }
  destruct K as (l & El & Hlt & K). apply chords_for_spec with (active := cb_active cb) in El; [|exact G2]. rewrite G1 in El.
  unfold ch_initial_resolution in K. destruct (sufficient_idle_time (cx_chorded c)).
  2:{ destruct K as [(rr & Hrr & -> & npk & -> & Hb)|(o & Ho & _)]; [|discriminate]. injection Hrr as <-. left. exists Own, npk.
      assert (Hno : ~ (in_active chords (cb_active cb) i = true \/ of_latest chords cb i \/ ~ hasty g)) by (rewrite <- Hsuf; discriminate).
      split; [|split; [now apply Hb|split; reflexivity]]. cbn. split; [destruct (in_active _ _ i); [now elim Hno; left|reflexivity]|]. right.
      split; [intros X; apply Hno; auto|]. destruct (hasty_dec g) as [X|X]; [exact X|]. elim Hno. auto. }
  destruct (find _ _) as [[id ch]|] eqn:Ef.
  - subst l. cbn [check_resolution chp_possible cs_satisfied cs_index] in K.
    destruct K as [(rr & Hrr & -> & npk & -> & Hb)|(o & Ho & _)]; [|discriminate]. left. exists (Joins id), npk. split; [cbn; now rewrite Ef|].
    split; [|split; reflexivity]. apply Hb. injection Hrr as <-. cbn. f_equal. unfold as_chord_id. apply N.mod_small.
    apply find_some in Ef as [Ef _]. apply numbered_In in Ef. assert (id < length chords)%nat by (apply nth_error_Some; congruence). lia.
  - apply in_active_find in Ef. subst l. destruct (cands cb i) as [|[id ch] t] eqn:Eo.
    + destruct K as [(rr & Hrr & -> & npk & -> & Hb)|(o & Ho & _)]; [|discriminate]. injection Hrr as <-. left. exists Own, npk.
      split; [split; [exact Ef|left; exact Eo]|]. split; [now apply Hb|split; reflexivity].
    + right. assert (Hw : may_wait g cb i).
      { split; [exact Ef|]. split; [rewrite Eo; discriminate|]. destruct (proj1 Hsuf eq_refl) as [X|X]; [congruence|exact X]. }
      assert (Kp : exists o, p = PkPending (mkChPks [i] (map (fun '(id, ch) => mkChordState id ch false) ((id, ch) :: t))) /\ ke = [after (chc_timeout cc) (EvKey i ChTimeout)] /\ o = 0).
      { destruct K as [(rr & Hrr & _)|(o & Ho & Hp & Hk)]; [|exists 0; auto]. exfalso. destruct t as [|[id2 ch2] t]; cbn in Hrr; discriminate. }
      destruct Kp as (_ & -> & -> & _). split; [exact Hw|]. split; [|split; [reflexivity|exact Hlt]].
      cbn [map_pkr]. f_equal. f_equal. unfold pks_of. f_equal.
      assert (Ep : possible ((id, ch) :: t) [] = (id, ch) :: t).
      { clear. unfold possible. induction ((id, ch) :: t) as [|[a b] l IH]; [reflexivity|]. cbn [filter forallb]. f_equal. exact IH. }
      rewrite Ep. reflexivity.
Qed.

Definition stands (b : board) (h : nat) (r : ref) (q : chorded_ref) (i : u16) : Prop :=
  (exists keys pass, chord_member d q keys pass)
  /\ (forall x npk r', resolves q i x npk -> npk = NpkKey r' -> board_key n d h r')
  /\ (forall y m, chord_mean d chords (bd_on b) (bd_default b) i (RChorded q) y m -> chord_mean d chords (bd_on b) (bd_default b) i r y m).
Definition pressed_at_once (g : chorded_ctx) (c : cboard) (i : u16) (r : ref) sch (k k' : ckeymap) : Prop :=
  exists y m, chord_mean d chords (bd_on (cb_board c)) (bd_default (cb_board c)) i r y m /\ (forall z, y = Some z -> at_once g c i z)
    /\ bstate sch (set_down (cb_board c) (bd_down (cb_board c) ++ [inl (i, m)])) k' /\ frame k k' /\ sc_pending (km_sched k') = press_events i m
    /\ km_calls k' = km_calls k /\ (forall lm, m = Switches lm -> modifier_ok n lm).
Definition pressed_later (g : chorded_ctx) (c : cboard) (i : u16) (h : nat) (r : ref) (k k' : ckeymap) : Prop :=
  may_wait g c i /\ (0 < chc_max_chord_size cc)%nat /\ exists q s, stands (cb_board c) h r q i
    /\ sched_after pos (km_sched k) (chc_timeout cc) (ctimer i) = Ok s
    /\ k' = set_pending (set_sched k s) (Some (mkPending i (RChorded q) (PksChorded (pks_of i (cands c i) [])) [])).
Lemma press_chord h r : chord_board_key d n h r -> forall sch f i c g (k k' : ckeymap), bstate sch (cb_board c) k -> sc_pending (km_sched k) = [] ->
  existsb (this_key i) (bd_down (cb_board c)) = false -> chord_ctx c g -> step_chorded g (EvInput (Press i)) = Ok (cx_chorded (km_ctx k)) ->
  exec conf (S (S (S (h + f)))) (JPressLoop i r) k = Ok k' ->
  pressed_at_once g c i r sch k k' \/ pressed_later g c i h r k k'.
Proof.
  induction 1 as [h r Hk|h q keys pass Hk Hp Hks|h q lk Hk Hlen _ IHb _ IHl]; intros sch f i c g k k' Hb Hs Hi Hg Eg E.
  - left. pose proof (press_board refs d pos dbg n h r Hk sch f i (cb_board c) k Hb Hs Hi) as X. rewrite E in X.
    destruct (_ <? _)%nat; [|discriminate]. destruct X as (m & k1 & M & E1 & X). injection E1 as <-. exists None, m. split; [now constructor|]. split; [discriminate|exact X].
  - change (exec conf (S (S (S (S h + f)))) (JPressLoop i (RChorded q)) k) with (step_press_loop conf (exec conf (S (S (S (h + f))))) i (RChorded q) k) in E.
    unfold step_press_loop in E. cbn [kc_sys cconf composite sys_new_pressed_key sys_no_op] in E.
    destruct (c_new_pressed_key d i (km_ctx k) (RChorded q)) as [[pr kes]| |] eqn:En; try discriminate E. cbn [bind] in E.
    destruct (chord_new q keys pass (km_ctx k) c g i pr kes Hk Hg Eg En) as [(z & npk & Hz & Hr & -> & ->)|(Hw & -> & -> & Hlt)].
    + left. unfold schedule_all, sched_all in E. cbn [fold_res bind] in E. rewrite set_sched_id in E. destruct npk as [r|].
      * assert (Hr' : board_key n d h r) by (eapply resolves_key; [exact Hk|exact Hp|exact Hks|exact Hr|reflexivity]).
        pose proof (press_board refs d pos dbg n h r Hr' sch f i (cb_board c) k Hb Hs Hi) as X. rewrite E in X.
        destruct (_ <? _)%nat; [|discriminate]. destruct X as (m & k1 & M & E1 & X). injection E1 as <-. exists (Some z), m.
        split; [eapply resolves_mean; [exact Hr|reflexivity|exact M]|]. split; [intros z' Ez; injection Ez as <-; exact Hz|exact X].
      * inv_bind E. injection E as <-. apply push_cap_ok in E0 as (-> & _). exists (Some z), Nothing.
        split; [eapply resolves_mean; [exact Hr|reflexivity|reflexivity]|]. split; [intros z' Ez; injection Ez as <-; exact Hz|].
        split; [apply bstate_push; [exact Hb|exact Hi|cbn; split; [reflexivity|now exists q]]|]. split; [unfold frame; cbn; auto 10|]. split; [exact Hs|]. split; [reflexivity|discriminate].
    + right. unfold schedule_all, sched_all in E. cbn [fold_res] in E.
      change (sched_event_in (kc_pos conf) (km_sched k) _) with (sched_after pos (km_sched k) (chc_timeout cc) (ctimer i)) in E.
      destruct (sched_after pos (km_sched k) _ _) as [s| |] eqn:Es; try discriminate E. cbn [bind] in E. injection E as <-.
      split; [exact Hw|]. split; [exact Hlt|]. exists q, s. split; [|split; [exact Es|reflexivity]].
      split; [exists keys, pass; exact Hk|]. split; [|auto]. intros x npk r' Hr Er. apply board_key_up. eapply resolves_key; eassumption.
  - change (exec conf (S (S (S (S h + f)))) (JPressLoop i (RLayered (LyLayered q))) k) with (step_press_loop conf (exec conf (S (S (S (h + f))))) i (RLayered (LyLayered q)) k) in E.
    unfold step_press_loop in E. cbn [kc_sys cconf composite sys_new_pressed_key c_new_pressed_key ly_new_pressed_key] in E. unfold index in E. rewrite Hk in E. cbn [bind] in E.
    pose proof Hb as (_ & (Ln & Lo & Ld & Lr) & _). destruct (layered_total lk (cx_layered (km_ctx k))) as (r' & Er); [congruence| |].
    { rewrite Ld, Ln. exact Lr. }
    rewrite Er in E. cbn [bind map_pkr ke_map map] in E. unfold schedule_all, sched_all in E. cbn [fold_res bind] in E. rewrite set_sched_id in E.
    assert (Ha : acts_as lk (fun l => bd_on (cb_board c) l = true) (bd_default (cb_board c)) r').
    { apply layered_lookup in Er. rewrite <- Ld. eapply acts_as_ext; [|exact Er]. intros l. rewrite layer_on_is_on, Lo. reflexivity. }
    assert (IH : pressed_at_once g c i r' sch k k' \/ pressed_later g c i h r' k k').
    { destruct (acts_as_entry _ _ _ _ Ha) as [->|Hin]; [eapply IHb; eassumption|eapply (IHl r' Hin); eassumption]. }
    destruct IH as [(y & m & M & X)|(Hw & Hlt & q' & s & (S1 & S2 & S3) & X)].
    + left. exists y, m. split; [eapply cm_layered; eassumption|exact X].
    + right. split; [exact Hw|]. split; [exact Hlt|]. exists q', s. split; [|exact X]. split; [exact S1|]. split; [|intros y m M; eapply cm_layered; [exact Hk|exact Ha|now apply S3]].
      intros x npk r2 Hr E2. apply board_key_up. eapply S2; eassumption.
Qed.

Variable height : nat.
Hypothesis Hrefs : Forall (chord_board_key d n height) refs.
Local Notation fuel4 f := (S (S (S (S (height + f))))).
Local Notation chorded_of k := (cx_chorded (km_ctx k)).

(** Taking an input while no key is undecided. *)
Lemma process_chord sch f c (k k' : ckeymap) ie : bstate sch (cb_board c) k -> chord_ctx c (chorded_of k) -> sc_pending (km_sched k) = [] ->
  (forall i, ie = Press i -> existsb (this_key i) (bd_down (cb_board c)) = false) ->
  exec conf (fuel4 f) (JProcessInput ie) k = Ok k' ->
  exists h, step_chorded (chorded_of k) (EvInput ie) = Ok h /\ sc_pending (km_sched k') = []
  /\ framed k k' h /\
  ((exists i r y m, ie = Press i /\ nth_error refs (N.to_nat i) = Some r
        /\ chord_mean d chords (bd_on (cb_board c)) (bd_default (cb_board c)) i r y m /\ (forall z, y = Some z -> at_once (chorded_of k) c i z)
        /\ bstate sch (switch n (at_press m) (set_down (cb_board c) (bd_down (cb_board c) ++ [inl (i, m)]))) k'
        /\ km_calls k' = km_calls k ++ filter_map (lm_get (km_callbacks k)) (asks m))
     \/ ((forall i, ie <> Press i) /\ exists b', board_step n refs d (cb_board c) ie b' /\ bstate sch b' k' /\ km_calls k' = km_calls k)
     \/ (exists i r q s, ie = Press i /\ nth_error refs (N.to_nat i) = Some r /\ may_wait (chorded_of k) c i /\ (0 < chc_max_chord_size cc)%nat
          /\ stands (cb_board c) height r q i
          /\ sched_after pos (km_sched k) (chc_timeout cc) (ctimer i) = Ok s
          /\ km_pending k' = Some (mkPending i (RChorded q) (PksChorded (pks_of i (cands c i) [])) []) /\ km_sched k' = s
          /\ bstate (sc_scheduled s) (cb_board c) (set_pending k' None) /\ km_calls k' = km_calls k)).
Proof.
  intros H Hg Hs Hnew E. pose proof H as (Hc & Hly & Hh & Hnd & Hsc & Hp).
  assert (Hone : (forall i, ie <> Press i) \/ exists i, ie = Press i) by (destruct ie as [i|i|ko|ko]; [right; exists i; reflexivity|left; discriminate..]).
  destruct Hone as [Hno|(i & ->)].
  - assert (Hv : forall i r, ie = Press i -> nth_error refs (N.to_nat i) = Some r -> board_key n d height r) by (intros i r X; now apply Hno in X).
    pose proof (process_board refs d pos dbg n height sch f (cb_board c) k ie H Hs Hv) as X.
    destruct (step_chorded (chorded_of k) (EvInput ie)) as [h| |]; [|rewrite E in X; discriminate..].
    destruct (board_input_ok refs (cb_board c) ie); [|congruence]. destruct X as (b' & cs & k1 & Hst & Hcs & E1 & B1 & F1 & P1 & C1). rewrite E in E1. injection E1 as <-.
    exists h. split; [reflexivity|]. split; [exact P1|]. split; [exact F1|]. right. left. split; [exact Hno|].
    exists b'. split; [exact Hst|]. split; [exact B1|]. rewrite C1. replace cs with (@nil callback); [apply app_nil_r|].
    inversion Hcs; subst; try reflexivity. now elim (Hno i).
  - specialize (Hnew i eq_refl).
    change (exec conf (fuel4 f) (JProcessInput (Press i)) k) with (step_process_input conf (exec conf (S (S (S (height + f))))) (Press i) k) in E.
    unfold step_process_input in E. rewrite Hp in E. rewrite (update_pressed_board refs d pos dbg n (cb_board c)) in E by (try exact Hh; discriminate). cbn [bind] in E.
    unfold update_context in E. cbn [kc_sys cconf composite sys_ctx_handle_event] in E. rewrite calm_input in E by exact Hc.
    destruct (step_chorded (chorded_of k) (EvInput (Press i))) as [h| |] eqn:Eh; cbn [bind] in E; try discriminate.
    exists h. split; [reflexivity|]. unfold schedule_all, sched_all in E. cbn [fold_res bind] in E. rewrite set_sched_id in E.
    set (k2 := set_ctx k (with_chorded (km_ctx k) h)) in E.
    assert (B2 : bstate sch (cb_board c) k2) by now apply with_chorded_state.
    assert (Fin : forall k', frame k2 k' -> framed k k' h).
    { intros k3 (A & B & C & D & E' & G & J). unfold framed. repeat split; [exact A|exact B|exact C|exact D|exact E'|exact G|exact J]. }
    cbn [step_input_dispatch] in E. unfold has_pressed in E. change (km_pressed k2) with (km_pressed k) in E. rewrite (has_held _ _ _ _ _ Hh), Hnew in E.
    unfold index in E. cbn [kc_refs cconf] in E. destruct (nth_error refs (N.to_nat i)) as [r|] eqn:Er; [|discriminate E]. cbn [bind] in E.
    assert (Hbk : chord_board_key d n height r) by (eapply Forall_forall; [exact Hrefs|eapply nth_error_In; exact Er]).
    inv_bind E.
    destruct (press_chord height r Hbk sch f i c (chorded_of k) k2 a B2 Hs Hnew Hg Eh E0) as [(y & m & M & Hz & B3 & F3 & P3 & C3 & Hok)|(Hw & Hlt & q & s & St & Es & ->)].
    + destruct (drain_board refs d pos dbg n sch (height + f) _ a _ (at_press m) B3 P3) as (k4 & E4 & B4 & F4 & P4 & C4).
      { destruct m as [ko|lm|cb|]; try (left; split; reflexivity); right; eexists; (split; [reflexivity|]); cbn.
        - split; [reflexivity|]. destruct (modifier_events n lm (Hok lm eq_refl)) as [X _]. exact X.
        - exact I. }
      rewrite E4 in E. injection E as <-. split; [exact P4|]. split; [apply Fin; eapply frame_trans; eassumption|]. left.
      exists i, r, y, m. split; [reflexivity|]. split; [exact Er|]. split; [exact M|]. split; [exact Hz|]. split; [exact B4|].
      assert (L3 : km_callbacks a = km_callbacks k) by (destruct F3 as (_ & _ & _ & _ & _ & _ & G); rewrite G; reflexivity).
      rewrite C4, C3. f_equal. destruct m as [ko|lm|cb|]; try reflexivity. cbn [press_events flat_map called asks]. now rewrite L3, app_nil_r.
    + change (km_sched k2) with (km_sched k) in Es.
      assert (Ps : sc_pending s = [] /\ sc_counter s = sc_counter (km_sched k)).
      { unfold sched_after in Es. inv_bind Es. destruct (_ <? _)%nat; [|discriminate]. destruct (_ <=? _)%nat; [|discriminate]. injection Es as <-. split; [exact Hs|reflexivity]. }
      destruct Ps as (Ps & Pc). rewrite drain0 in E by exact Ps. injection E as <-. split; [exact Ps|]. split; [unfold framed; cbn; auto 10|]. right. right.
      exists i, r, q, s. split; [reflexivity|]. split; [exact Er|]. split; [exact Hw|]. split; [exact Hlt|]. split; [exact St|]. split; [exact Es|]. split; [reflexivity|]. split; [reflexivity|].
      split; [|reflexivity]. destruct B2 as (A1 & A2 & A3 & A4 & _ & _). split; [exact A1|]. split; [exact A2|]. split; [exact A3|]. split; [exact A4|]. split; reflexivity.
Qed.

(** ** An undecided key *)
Lemma decided_none {A} (rule : list (event cev) -> event cev -> option A) qd : forall hist, first_decision rule hist (map EvInput qd) = None ->
  forall a x z, qd = a ++ x :: z -> rule (hist ++ map EvInput a) (EvInput x) = None.
Proof.
  clear. induction qd as [|y qd IH]; intros hist H a x z E; [destruct a; discriminate|]. cbn [map first_decision] in H.
  destruct (rule hist (EvInput y)) eqn:Ey; [discriminate|]. destruct a as [|y' a]; cbn in E; injection E as -> ->.
  - cbn. now rewrite app_nil_r.
  - cbn [map]. replace (hist ++ EvInput y' :: map EvInput a) with ((hist ++ [EvInput y']) ++ map EvInput a) by (now rewrite <- app_assoc). eapply IH; [exact H|reflexivity].
Qed.
Lemma decided_snoc {A} (rule : list (event cev) -> event cev -> option A) qd x : forall hist, first_decision rule hist (map EvInput qd) = None ->
  rule (hist ++ map EvInput qd) (EvInput x) = None -> first_decision rule hist (map EvInput (qd ++ [x])) = None.
Proof.
  clear. induction qd as [|y qd IH]; intros hist H E; cbn [map first_decision app] in *; [rewrite app_nil_r in E; now rewrite E|].
  destruct (rule hist (EvInput y)); [discriminate|]. apply IH; [exact H|]. now rewrite <- app_assoc.
Qed.
Lemma waiting_release cs i qd : first_decision (chord_rule cs i) [] (map EvInput qd) = None -> ~ In (Release i) qd.
Proof. clear. intros H X. apply in_split in X as (a & z & ->). pose proof (decided_none _ _ _ H a (Release i) z eq_refl) as Y. cbn in Y. rewrite N.eqb_refl in Y. discriminate. Qed.

Definition cwaits (c : cboard) (i : u16) (q : chorded_ref) (qd : list input_event) : pending_state ref cev cpks :=
  mkPending i (RChorded q) (PksChorded (pks_of i (cands c i) (pressed_in (map (@EvInput cev) qd)))) (map EvInput qd).
Definition cundecided (c : cboard) (i : u16) (q : chorded_ref) (qd : list input_event) (k : ckeymap) : Prop :=
  km_pending k = Some (cwaits c i q qd) /\ bstate (sc_scheduled (km_sched k)) (cb_board c) (set_pending k None)
  /\ existsb (this_key i) (bd_down (cb_board c)) = false /\ (exists r, nth_error refs (N.to_nat i) = Some r /\ stands (cb_board c) height r q i)
  /\ ~ In (Press i) qd /\ first_decision (chord_rule (cands c i) i) [] (map EvInput qd) = None
  /\ (length (pressed_in (map EvInput qd)) < chc_max_chord_size cc)%nat.
Definition cdecided (c : cboard) (i : u16) (q : chorded_ref) (x : option nat) (qd : list input_event) (k k' : ckeymap) : Prop :=
  exists npk, resolves q i x npk /\ decides i x qd npk (sc_scheduled (km_sched k)) (cb_board c) k k'.
Local Notation fuel8 f := (S (S (S (S (S (S (S (S (height + f))))))))).

Lemma chord_decides c i q qd st x npk f (k k' : ckeymap) : bstate (sc_scheduled (km_sched k)) (cb_board c) (set_pending k None) -> existsb (this_key i) (bd_down (cb_board c)) = false ->
  (exists r, stands (cb_board c) height r q i) -> resolves q i x npk -> km_pending k = Some (mkPending i (RChorded q) st (map EvInput qd)) ->
  ~ In (Press i) qd -> (forall a z, qd = a ++ Release i :: z -> z = []) -> sc_pending (km_sched k) = [Some (resolved i x)] ->
  exec conf (S (S (S (S (S (S (height + f))))))) (JPendingLoop npk) k = Ok k' -> cdecided c i q x qd k k'.
Proof.
  intros Hb Hi (r & _ & Hk & _) Hr Hp Hq1 Hq2 Hs E. exists npk. split; [exact Hr|]. destruct npk as [r'|].
  - eapply pending_key; [exact Hq1|exact Hq2|eapply Hk; [exact Hr|reflexivity]|split; [exact Hb|split; [exact Hp|exact Hs]]|exact Hi|exact E].
  - eapply pending_nothing; [exact Hq1|exact Hq2|split; [exact Hb|split; [exact Hp|exact Hs]]|exact Hi|exact E].
Qed.
(** Taking an input while a key is undecided. *)
Lemma process_waiting c i q qd f (k k' : ckeymap) ie : cundecided c i q qd k -> chx_config (chorded_of k) = cc -> sc_pending (km_sched k) = [] -> ie <> Press i ->
  exec conf (fuel8 f) (JProcessInput ie) k = Ok k' ->
  match chord_rule (cands c i) i (map EvInput qd) (EvInput ie) with
  | None => k' = set_pending k (Some (cwaits c i q (qd ++ [ie]))) /\ cundecided c i q (qd ++ [ie]) k'
  | Some x => cdecided c i q x (qd ++ [ie]) k k'
  end.
Proof.
  intros (Hp & Hb & Hi & (r & Er & Hst) & Hnp & Hfd & Hlen) Hcf Hs Hne E.
  change (exec conf (fuel8 f) (JProcessInput ie) k) with (step_process_input conf (exec conf (S (S (S (S (S (S (S (height + f))))))))) ie k) in E.
  unfold step_process_input in E. rewrite Hp in E. unfold cwaits in E. cbn [pd_queued pd_index pd_ref pd_state] in E. inv_bind E. inv_bind E0.
  apply push_cap_ok in E1 as (-> & _).
  match type of E0 with exec conf (S ?f0) (JUpdatePending ?ev) ?x = _ => change (exec conf (S f0) (JUpdatePending ev) x) with (step_update_pending conf (exec conf f0) ev x) in E0 end.
  unfold step_update_pending in E0. cbn [km_pending set_pending pd_state pd_index pd_ref pd_queued kc_sys cconf composite sys_update_pending_state km_ctx] in E0.
  destruct (c_update_pending d _ i (km_ctx k) (RChorded q) (EvInput ie)) as [[[p o] kes]| |] eqn:Eu; try discriminate E0. cbn [bind] in E0.
  pose proof Hst as ((keys & pass & Hm) & _).
  pose proof (chord_update q keys pass (km_ctx k) c i (map EvInput qd) (EvInput ie) p o kes (EvInput ie) Hm Hcf eq_refl Hlen Eu) as X.
  pose proof (waiting_release _ _ _ Hfd) as Hnr.
  destruct (chord_rule (cands c i) i (map EvInput qd) (EvInput ie)) as [x|] eqn:Ex.
  - destruct X as (npk & -> & -> & Hr). unfold schedule_all, sched_all in E0. cbn [fold_res sched_event_in resolution_event se_schedule se_event km_sched set_pending] in E0.
    unfold sched_enqueue, push_cap in E0. rewrite Hs in E0. change (length (@nil (option (event cev))) <? PENDING_CAPACITY)%nat with true in E0. cbn [bind app] in E0.
    eapply (chord_decides c i q (qd ++ [ie]) p x npk f) in E0.
    + assert (Ps : sc_pending (km_sched a) = []) by (destruct E0 as (npk' & _ & m & g & _ & _ & _ & _ & P & _); exact P).
      rewrite drain0 in E by exact Ps. injection E as <-. exact E0.
    + exact Hb.
    + exact Hi.
    + exists r. exact Hst.
    + exact Hr.
    + cbn [km_pending set_sched set_pending]. now rewrite map_app.
    + intros Y. apply in_app_or in Y as [Y|[Y|[]]]; [contradiction|congruence].
    + now apply releases_last.
    + cbn. destruct x; reflexivity.
  - destruct X as (-> & -> & -> & Hlen'). unfold schedule_all, sched_all in E0. cbn [fold_res bind] in E0. injection E0 as <-. rewrite drain0 in E by exact Hs. injection E as <-.
    assert (Ew : cwaits c i q (qd ++ [ie]) = mkPending i (RChorded q) (PksChorded (pks_of i (cands c i) (pressed_in (map EvInput qd ++ [EvInput ie])))) (map EvInput qd ++ [EvInput ie])) by (unfold cwaits; now rewrite map_app).
    rewrite Ew. split; [reflexivity|]. split; [cbn; now rewrite Ew|]. split; [exact Hb|]. split; [exact Hi|]. split; [exists r; split; [exact Er|exact Hst]|].
    split; [intros Y; apply in_app_or in Y as [Y|[Y|[]]]; [contradiction|congruence]|]. split; [now apply decided_snoc|]. rewrite map_app. exact Hlen'.
Qed.
(** The time passes. *)
Lemma process_timeout c i q qd f (k k' : ckeymap) j : cundecided c i q qd k -> chx_config (chorded_of k) = cc -> sc_pending (km_sched k) = [] ->
  exec conf (fuel8 f) (JHandleEvent (ctimer j)) k = Ok k' ->
  cdecided c i q (best (cands c i) i (pressed_in (map EvInput qd))) qd k k'.
Proof.
  intros (Hp & Hb & Hi & (r & Er & Hst) & Hnp & Hfd & Hlen) Hcf Hs E. pose proof (waiting_release _ _ _ Hfd) as Hnr.
  change (exec conf (fuel8 f) (JHandleEvent (ctimer j)) k) with (step_handle_event conf (exec conf (S (S (S (S (S (S (S (height + f))))))))) (ctimer j) k) in E.
  unfold step_handle_event, ctimer in E. cbn [run_callback] in E. inv_bind E.
  match type of E0 with exec conf (S ?f0) (JUpdatePending ?ev) ?x = _ => change (exec conf (S f0) (JUpdatePending ev) x) with (step_update_pending conf (exec conf f0) ev x) in E0 end.
  unfold step_update_pending in E0. rewrite Hp in E0. unfold cwaits in E0. cbn [km_pending set_pending pd_state pd_index pd_ref pd_queued kc_sys cconf composite sys_update_pending_state km_ctx] in E0.
  destruct (c_update_pending d _ i (km_ctx k) (RChorded q) _) as [[[p o] kes]| |] eqn:Eu; try discriminate E0. cbn [bind] in E0.
  pose proof Hst as ((keys & pass & Hm) & _).
  pose proof (chord_update q keys pass (km_ctx k) c i (map EvInput qd) (ctimer j) p o kes (EvKey j ChTimeout) Hm Hcf eq_refl Hlen Eu) as X. cbn [chord_rule ctimer] in X.
  destruct X as (npk & -> & -> & Hr). unfold schedule_all, sched_all in E0. cbn [fold_res sched_event_in resolution_event se_schedule se_event km_sched set_pending] in E0.
  unfold sched_enqueue, push_cap in E0. rewrite Hs in E0. change (length (@nil (option (event cev))) <? PENDING_CAPACITY)%nat with true in E0. cbn [bind app] in E0.
  eapply (chord_decides c i q qd p _ npk f) in E0.
  - assert (X : exists b, bstate (sc_scheduled (km_sched a)) b a).
    { destruct E0 as (npk' & _ & m & g & _ & _ & B & _). assert (Es : sc_scheduled (km_sched a) = map (cancel_entry i) (sc_scheduled (km_sched k))) by apply B. eexists. rewrite Es. exact B. }
    destruct X as (b & B). rewrite (update_pressed_board refs d pos dbg n b a) in E by (try apply B; discriminate). cbn [bind] in E.
    unfold update_context in E. cbn [kc_sys cconf composite sys_ctx_handle_event] in E. rewrite chord_event_ctx in E by apply B. unfold step_chorded in E. cbn [try_event as_chorded ch_handle_event bind] in E.
    unfold schedule_all, sched_all in E. cbn [fold_res bind] in E. rewrite set_sched_id in E. injection E as <-.
    assert (Ea : set_ctx a (with_chorded (km_ctx a) (chorded_of a)) = a) by (clear; destruct a as [[] ? ? ? ? ? ? ? ? ? ?]; reflexivity).
    rewrite Ea. exact E0.
  - exact Hb.
  - exact Hi.
  - exists r. exact Hst.
  - exact Hr.
  - reflexivity.
  - exact Hnp.
  - intros a0 z Y. exfalso. apply Hnr. rewrite Y. apply in_or_app. right. now left.
  - cbn. destruct (best _ _ _); reflexivity.
Qed.

(** ** The chords that are down *)
Lemma ctx_press c g g' i : chord_ctx c g -> step_chorded g (EvInput (Press i)) = Ok g' -> chord_ctx c g'.
Proof. intros H E. now destruct (enough_time c g g' i H E). Qed.
Lemma ctx_release c b' g g' i : chord_ctx c g -> step_chorded g (EvInput (Release i)) = Ok g' -> chord_ctx (mkCBoard b' (comes_up chords i (cb_active c)) (cb_latest c)) g'.
Proof.
  clear. intros (H1 & H2 & H3) E. unfold step_chorded in E. cbn [try_event ch_handle_event] in E. injection E as <-. split; [exact H1|]. split; [|exact H3].
  cbn [chx_pressed_chords cb_active]. intros id. rewrite clear_chords_nth, H1, H2. unfold comes_up, belongs. destruct (nth_error chords id); reflexivity.
Qed.
Lemma ctx_virtual c b' g g' ie : (forall i, ie <> Press i /\ ie <> Release i) -> chord_ctx c g -> step_chorded g (EvInput ie) = Ok g' ->
  chord_ctx (mkCBoard b' (cb_active c) (cb_latest c)) g'.
Proof. clear. intros Hn H E. destruct ie as [i|i|ko|ko]; [now elim (proj1 (Hn i))|now elim (proj2 (Hn i))|..]; unfold step_chorded in E; cbn in E; now injection E as <-. Qed.
Lemma ctx_resolved c b' g g' i x : chord_ctx c g -> step_chorded g (resolved i x) = Ok g' ->
  chord_ctx (mkCBoard b' (goes_down x (cb_active c)) (newest x (cb_latest c))) g'.
Proof.
  clear. intros (H1 & H2 & H3) E. unfold step_chorded, resolved in E. destruct x as [id|]; cbn [resolution_of try_event as_chorded ch_handle_event] in E.
  - inv_bind E. injection E as <-. split; [exact H1|]. split; [|reflexivity]. cbn [chx_pressed_chords cb_active goes_down]. intros id'.
    unfold update_index in E0. rewrite Nat2N.id in E0. destruct (Nat.ltb_spec id (length (chx_pressed_chords g))) as [Hl|]; [|discriminate]. injection E0 as <-.
    rewrite set_nth_nth by exact Hl. now rewrite H2.
  - injection E as <-. now split.
Qed.

Definition clocked := list input_event -> u16 -> clock -> list input_event -> Prop.
Lemma chord_step_shape T before later c ie ys c' cs : chord_step d chords n refs T before later c ie ys c' cs -> shape (cb_board c') = down_step (shape (cb_board c)) ie.
Proof.
  clear. destruct 1 as [i r y m Hi _ _ _|i b' H|ie b' _ H]; [|eapply step_shape; exact H..].
  unfold shape. cbn [down_step cb_board]. rewrite this_forget, Hi, switch_down. cbn. now rewrite map_app.
Qed.
Lemma chord_run_shape T h later ys c cs : chord_run d chords n refs T h later ys c cs -> shape (cb_board c) = down_after h.
Proof. clear. induction 1 as [|h ie later ys c cs ys' c' cs' _ IH H]; [reflexivity|]. rewrite (chord_step_shape _ _ _ _ _ _ _ _ H), IH, down_snoc. reflexivity. Qed.
Lemma suits_mono (T T' : clocked) more before i later c y :
  (forall be i x s, T be i x s -> T' be i x s) -> suits chords T before i later c y -> suits chords T' before i (later ++ more) c y.
Proof.
  clear. intros HT. destruct y; cbn; [auto| | |].
  - intros (A & [B|(B & C)]); auto.
  - intros (A & B & C & s & l & r & -> & D). split; [exact A|]. split; [exact B|]. split; [destruct C; auto|]. exists s, l, (r ++ more). split; [now rewrite <- app_assoc|exact D].
  - intros (A & B & C & s & r & -> & D & E & F). split; [exact A|]. split; [exact B|]. split; [destruct C; auto|]. exists s, (r ++ more). split; [now rewrite <- app_assoc|]. auto.
Qed.
Lemma chord_run_mono (T T' : clocked) more h later ys c cs : (forall be i x s, T be i x s -> T' be i x s) ->
  chord_run d chords n refs T h later ys c cs -> chord_run d chords n refs T' h (later ++ more) ys c cs.
Proof.
  clear. intros HT. induction 1 as [|h ie later ys c cs ys' c' cs' _ IH H]; [constructor|]. econstructor; [exact IH|].
  destruct H as [i r y m Hi Hr Hm Ha|i b' H|ie b' Hno H]; [|now constructor..]. econstructor; try eassumption. intros z Hz. eapply suits_mono; [exact HT|now apply Ha].
Qed.

Variable L : list (callback * callback_fn).
Definition waits_on (T : clocked) (h : list input_event) (c : cboard) (i : u16) : Prop :=
  in_active chords (cb_active c) i = false /\ cands c i <> [] /\ (of_latest chords c i \/ T h i Rested []).
(** [dues]: when the timer of the key pressed after some inputs is due. *)
(** [Tr]: what is known of the chord context after some inputs. *)
Definition ccore (T : clocked) (dues : list input_event -> u16 -> N -> Prop) (Tr : list input_event -> chorded_ctx -> Prop) (acc : list input_event) (k : ckeymap) : Prop :=
  sc_pending (km_sched k) = [] /\ km_callbacks k = L
  /\ Forall (fun e => exists h i, dues h i (en_time e)) (sc_scheduled (km_sched k))
  /\ exists h c ys cs, km_calls k = filter_map (lm_get L) cs /\ chord_ctx c (chorded_of k) /\
  ((acc = h ++ km_inq k /\ chord_run d chords n refs T h (km_inq k) ys c cs /\ bstate (sc_scheduled (km_sched k)) (cb_board c) k
    /\ Tr h (chorded_of k) /\ Forall (fun e => en_live e = false) (sc_scheduled (km_sched k)))
   \/ (exists i q qd due, acc = h ++ Press i :: qd ++ km_inq k /\ chord_run d chords n refs T h (Press i :: qd ++ km_inq k) ys c cs
       /\ cundecided c i q qd k /\ waits_on T h c i /\ dues h i due /\ Tr (h ++ [Press i]) (chorded_of k)
       /\ Forall (fun e => en_live e = true -> en_event e = ctimer i /\ due <= en_time e) (sc_scheduled (km_sched k)))).
Lemma ccore_mono (T T' : clocked) (S1 S' : list input_event -> u16 -> N -> Prop) (Tr Tr' : list input_event -> chorded_ctx -> Prop) acc (k : ckeymap) :
  (forall be i x s, T be i x s -> T' be i x s) -> (forall be i t, S1 be i t -> S' be i t) -> (forall h ch, Tr h ch -> Tr' h ch) -> ccore T S1 Tr acc k -> ccore T' S' Tr' acc k.
Proof.
  clear. intros HT HS HR (A & B & W & h & c & ys & cs & C & G & X). split; [exact A|]. split; [exact B|].
  split; [eapply Forall_impl; [|exact W]; intros e (h0 & i0 & He); exists h0, i0; now apply HS|].
  exists h, c, ys, cs. split; [exact C|]. split; [exact G|].
  destruct X as [(E & R & X & V & Z)|(i & q & qd & due & E & R & U & (W1 & W2 & W3) & D & V & X)]; [left|right].
  - split; [exact E|]. split; [|split; [exact X|split; [now apply HR|exact Z]]]. rewrite <- (app_nil_r (km_inq k)). eapply chord_run_mono; eassumption.
  - exists i, q, qd, due. split; [exact E|]. split; [|split; [exact U|split; [|split; [now apply HS|split; [now apply HR|exact X]]]]].
    + rewrite <- (app_nil_r (Press i :: qd ++ km_inq k)). eapply chord_run_mono; eassumption.
    + split; [exact W1|]. split; [exact W2|]. destruct W3; auto.
Qed.
Lemma ccancelled i l : Forall (fun e : sch_entry cev => en_live e = true -> en_event e = ctimer i) l -> Forall (fun e => en_live e = false) (map (cancel_entry i) l).
Proof.
  clear. induction 1 as [|e l He _ IH]; constructor; [|exact IH]. destruct e as [t ev [|]]; cbn in *.
  - rewrite (He eq_refl). unfold cancel_entry. cbn. now rewrite N.eqb_refl.
  - unfold cancel_entry. cbn. destruct ev as [|j ce|]; try reflexivity. now destruct (j =? i).
Qed.
(** An outcome is decided. *)
Lemma decided_ccore (T : clocked) (dues : list input_event -> u16 -> N -> Prop) (Tr : list input_event -> chorded_ctx -> Prop) h c ys cs i r q w x y (k k' : ckeymap) qd :
  chord_run d chords n refs T h (Press i :: w) ys c cs -> w = qd ++ km_inq k -> chord_ctx c (chorded_of k) ->
  existsb (this_key i) (bd_down (cb_board c)) = false -> nth_error refs (N.to_nat i) = Some r -> stands (cb_board c) height r q i -> part y = x -> forms y = x ->
  suits chords T h i w c y -> km_callbacks k = L -> km_calls k = filter_map (lm_get L) cs ->
  Forall (fun e : sch_entry cev => en_live e = true -> en_event e = ctimer i) (sc_scheduled (km_sched k)) ->
  Forall (fun e => exists h i, dues h i (en_time e)) (sc_scheduled (km_sched k)) ->
  (forall g, step_chorded (chorded_of k) (resolved i x) = Ok g -> Tr (h ++ [Press i]) g) ->
  cdecided c i q x qd k k' ->
  ccore T dues Tr (h ++ Press i :: w) k' /\ km_pending k' = None /\ km_inq k' = w /\ km_ms_per_tick k' = km_ms_per_tick k /\ sc_counter (km_sched k') = sc_counter (km_sched k)
  /\ map en_time (sc_scheduled (km_sched k')) = map en_time (sc_scheduled (km_sched k)).
Proof.
  intros Hr -> Hg Hi Er (_ & _ & Hst) Hy1 Hy2 Ha HL Hc Hl HW HR (npk & Hre & m & g & M & Eg & B & (F1 & F2 & F3 & F4 & F5 & F6 & F7) & P & C).
  cbn [set_inq km_inq km_callbacks km_ctx km_ms_per_tick km_sched] in F1, F4, F5, F6, F7.
  assert (Es : sc_scheduled (km_sched k') = map (cancel_entry i) (sc_scheduled (km_sched k))) by apply B.
  split; [|split; [apply B|split; [exact F1|split; [exact F4|split; [exact F5|rewrite Es; apply cancelled_times]]]]]. split; [exact P|]. split; [congruence|].
  split; [rewrite Es; eapply (times_forall (fun t => exists h i, dues h i t)); [apply cancelled_times|exact HW]|].
  set (c' := mkCBoard (switch n (at_press m) (set_down (cb_board c) (bd_down (cb_board c) ++ [inl (i, m)]))) (goes_down x (cb_active c)) (newest x (cb_latest c))).
  exists (h ++ [Press i]), c', (ys ++ [y]), (cs ++ asks m).
  split; [now rewrite C, HL, Hc, filter_map_app|].
  split; [rewrite F6; cbn [cx_chorded with_chorded]; exact (ctx_resolved c _ _ _ i x Hg Eg)|].
  left. rewrite F1. split; [now rewrite <- app_assoc|].
  rewrite Es. split; [|split; [exact B|split; [rewrite F6; cbn [cx_chorded with_chorded]; now apply HR|now apply ccancelled]]].
  eapply cr_input; [exact Hr|]. change [y] with (match Some y with Some z => [z] | None => [] end).
  replace c' with (let o := match Some y with Some z => forms z | None => None end in
       mkCBoard (switch n (at_press m) (set_down (cb_board c) (bd_down (cb_board c) ++ [inl (i, m)])))
                (goes_down o (cb_active c)) (newest o (cb_latest c))) by (cbn zeta; rewrite Hy2; reflexivity).
  apply (ch_press d chords n refs T h (qd ++ km_inq k) c i r (Some y) m); try assumption.
  - apply Hst. eapply resolves_mean; eassumption.
  - intros y0 X. injection X as <-. exact Ha.
Qed.

(** Only chords there are go down. *)
Lemma best_few cs i ps id : best cs i ps = Some id -> exists ch, In (id, ch) cs.
Proof.
  clear. unfold best. destruct ps as [|p ps]; [discriminate|]. destruct (find _ _) as [[id' ch]|] eqn:E; [|discriminate]. cbn. intros X. injection X as <-.
  apply find_some in E as (E & _). apply filter_In in E as (E & _). now exists ch.
Qed.
Lemma rule_few c i hist ev x : chord_rule (cands c i) i hist ev = Some x -> forall id, x = Some id -> (id < length chords)%nat.
Proof.
  clear. intros H id ->. assert (X : exists ch, In (id, ch) (cands c i)).
  { unfold chord_rule in H. destruct ev as [[k|k|ko|ko]|ki [?|?|[r|]|?|?|?|?]|ke]; try discriminate H.
    - destruct (possible _ _) as [|[id' ch] [|? ?]] eqn:E; [| |discriminate H].
      + injection H as H. eapply best_few. exact H.
      + destruct (complete _ _ _); [|discriminate H]. injection H as ->. exists ch. assert (Y : In (id, ch) (possible (cands c i) (pressed_in hist ++ [k]))) by (rewrite E; now left).
        unfold possible in Y. apply filter_In in Y. apply Y.
    - destruct (k =? i); [|discriminate H]. injection H as H. eapply best_few. exact H.
    - injection H as H. eapply best_few. exact H. }
  destruct X as (ch & X). unfold offered in X. apply filter_In in X as (X & _). apply numbered_In in X. apply nth_error_Some. congruence.
Qed.

Lemma ccore_take (T : clocked) (dues : list input_event -> u16 -> N -> Prop) (Tr : list input_event -> chorded_ctx -> Prop) f acc (k k' : ckeymap) x w :
  ccore T dues Tr acc k -> km_inq k = x :: w -> in_turn acc ->
  (forall h ch ch', acc = h ++ x :: w -> Tr h ch -> step_chorded ch (EvInput x) = Ok ch' -> Tr (h ++ [x]) ch') ->
  (forall h ch ch' i o, (forall id, o = Some id -> (id < length chords)%nat) -> Tr h ch -> step_chorded ch (resolved i o) = Ok ch' -> Tr h ch') ->
  (forall h i, acc = h ++ Press i :: w -> x = Press i -> km_pending k = None -> hasty (chorded_of k) -> T h i Hasty []) ->
  (forall h i, acc = h ++ Press i :: w -> x = Press i -> km_pending k = None -> ~ hasty (chorded_of k) -> T h i Rested []) ->
  (forall h i, acc = h ++ Press i :: w -> x = Press i -> km_pending k = None -> dues h i (sc_counter (km_sched k) + chc_timeout cc)) ->
  exec conf (fuel8 f) (JProcessInput x) (set_inq k w) = Ok k' ->
  ccore T dues Tr acc k' /\ (km_pending k' <> None -> km_inq k' = w)
  /\ km_ms_per_tick k' = km_ms_per_tick k /\ sc_counter (km_sched k') = sc_counter (km_sched k)
  /\ (km_pending k = None -> km_inq k' = w /\ forall p, km_pending k' = Some p -> pd_queued p = [])
  /\ (map en_time (sc_scheduled (km_sched k')) = map en_time (sc_scheduled (km_sched k))
      \/ exists e, sched_after pos (km_sched k) (chc_timeout cc) e = Ok (km_sched k'))
  /\ (forall p, km_pending k = Some p -> map en_time (sc_scheduled (km_sched k')) = map en_time (sc_scheduled (km_sched k))
      /\ ((match km_pending k' with Some p' => length (pd_queued p') | None => 0 end) + length (km_inq k') = length (pd_queued p) + length (km_inq k))%nat).
Proof.
  intros (Hs & HL & HW & h & c & ys & cs & Hc & Hg & X) Hq Ht HTr HTs Hhas Hres Hdue E.
  destruct X as [(Ea & Hr & Hb & Hch & Hdead)|(i & q & qd & due & Ea & Hr & Hu & Hw & Hd & Hch & Hlive)].
  - rewrite Hq in *. subst acc. assert (Hnew : forall i, x = Press i -> existsb (this_key i) (bd_down (cb_board c)) = false).
    { intros i ->. rewrite <- this_forget. change (map forget (bd_down (cb_board c))) with (shape (cb_board c)). rewrite (chord_run_shape _ _ _ _ _ _ Hr). exact (Ht h i w eq_refl). }
    assert (Hpn : km_pending k = None) by apply Hb.
    replace (fuel8 f) with (fuel4 (4 + f)) in E by lia.
    destruct (process_chord (sc_scheduled (km_sched k)) (4 + f) c (set_inq k w) k' x Hb Hg Hs Hnew E) as (g & Eg & P & (F1 & F2 & F3 & F4 & F5 & F6 & F7) & X).
    cbn [set_inq km_inq km_sched km_ms_per_tick km_callbacks km_ctx km_calls] in *.
    assert (G6 : chorded_of k' = g) by now rewrite F6. specialize (HTr h _ g eq_refl Hch Eg).
    destruct X as [(i & r & y & m & -> & Er & M & Hy & B & C)|[(Hno & b' & Hst & B & C)|(i & r & q & s & -> & Er & Hmay & Hlt & Hst & Es & Hp & Hks & B & C)]].
    + assert (Es : sc_scheduled (km_sched k') = sc_scheduled (km_sched k)) by apply B.
      assert (Hn : km_pending k' = None) by apply B.
      split; [|split; [intros X; now elim X|split; [exact F4|split; [exact F5|split; [intros _; split; [exact F1|intros p X; congruence]|split; [left; now rewrite Es|intros p X; congruence]]]]]]. split; [exact P|]. split; [congruence|].
      split; [now rewrite Es|].
      assert (Hf : match y with Some z => forms z | None => None end = None).
      { destruct y as [z|]; [|reflexivity]. specialize (Hy z eq_refl). destruct z; try reflexivity; now elim Hy. }
      exists (h ++ [Press i]), (mkCBoard (switch n (at_press m) (set_down (cb_board c) (bd_down (cb_board c) ++ [inl (i, m)]))) (goes_down None (cb_active c)) (newest None (cb_latest c))),
        (ys ++ match y with Some y => [y] | None => [] end), (cs ++ asks m).
      split; [now rewrite C, HL, Hc, filter_map_app|]. split; [rewrite G6; exact (ctx_press c _ _ i Hg Eg)|]. left. rewrite F1. split; [now rewrite <- app_assoc|].
      rewrite Es. split; [|split; [exact B|split; [now rewrite G6|exact Hdead]]].
      eapply cr_input; [exact Hr|]. rewrite <- Hf. apply (ch_press d chords n refs T h w c i r y m); try assumption; [now apply Hnew|].
      intros z ->. specialize (Hy z eq_refl). destruct z as [id| |x|x]; cbn in *; [exact Hy| |contradiction..]. destruct Hy as (A & [Z|(Z1 & Z2)]); [auto|].
      split; [exact A|]. right. split; [exact Z1|]. now apply Hhas.
    + assert (Es : sc_scheduled (km_sched k') = sc_scheduled (km_sched k)) by apply B.
      assert (Hn : km_pending k' = None) by apply B.
      split; [|split; [intros X; now elim X|split; [exact F4|split; [exact F5|split; [intros _; split; [exact F1|intros p X; congruence]|split; [left; now rewrite Es|intros p X; congruence]]]]]]. split; [exact P|]. split; [congruence|].
      split; [now rewrite Es|].
      assert (Hcase : (exists i, x = Release i) \/ (forall i, x <> Press i /\ x <> Release i)).
      { destruct x as [i|i|ko|ko]; [now elim (Hno i)|left; exists i; reflexivity|right; intros i; split; discriminate..]. }
      destruct Hcase as [(i & ->)|Hv].
      * exists (h ++ [Release i]), (mkCBoard b' (comes_up chords i (cb_active c)) (cb_latest c)), (ys ++ []), (cs ++ []). split; [now rewrite C, Hc, app_nil_r|].
        split; [rewrite G6; exact (ctx_release c b' _ _ i Hg Eg)|]. left. rewrite F1. split; [now rewrite <- app_assoc|].
        rewrite Es. split; [|split; [exact B|split; [now rewrite G6|exact Hdead]]]. eapply cr_input; [exact Hr|]. now constructor.
      * exists (h ++ [x]), (mkCBoard b' (cb_active c) (cb_latest c)), (ys ++ []), (cs ++ []). split; [now rewrite C, Hc, app_nil_r|].
        split; [rewrite G6; exact (ctx_virtual c b' _ _ x Hv Hg Eg)|]. left. rewrite F1. split; [now rewrite <- app_assoc|].
        rewrite Es. split; [|split; [exact B|split; [now rewrite G6|exact Hdead]]]. eapply cr_input; [exact Hr|]. now constructor.
    + assert (Hdue1 : dues h i (sc_counter (km_sched k) + chc_timeout cc)) by now apply Hdue.
      split; [|split; [intros _; exact F1|split; [exact F4|split; [exact F5|split; [intros _; split; [exact F1|intros p X; rewrite Hp in X; now injection X as <-]|split; [right; exists (ctimer i); now rewrite Hks|intros p X; congruence]]]]]].
      pose proof (sched_after_ok _ _ _ _ _ Es) as (_ & _ & Ei & _).
      split; [exact P|]. split; [congruence|].
      split; [rewrite Hks, Ei; apply insert_forall; [exists h, i; exact Hdue1|exact HW]|].
      exists h, c, ys, cs. split; [now rewrite C|]. split; [rewrite G6; exact (ctx_press c _ _ i Hg Eg)|]. right. exists i, q, [], (sc_counter (km_sched k) + chc_timeout cc). rewrite F1. cbn [app].
      split; [reflexivity|]. split; [exact Hr|]. split; [|split; [|split; [exact Hdue1|split; [now rewrite G6|]]]].
      * split; [exact Hp|]. split; [rewrite Hks; exact B|]. split; [now apply Hnew|]. split; [exists r; auto|]. split; [intros []|]. split; [reflexivity|exact Hlt].
      * destruct Hmay as (M1 & M2 & M3). split; [exact M1|]. split; [exact M2|]. destruct M3 as [M3|M3]; [now left|right]. now apply Hres.
      * rewrite Hks, Ei. apply insert_forall; [cbn; intros _; split; [reflexivity|apply N.le_refl]|].
        eapply Forall_impl; [|exact Hdead]. intros e He X. congruence.
  - rewrite Hq in *. pose proof Hu as (Hp & Hb & Hi & (r & Er & Hst) & Hnp & Hfd & Hlen). pose proof (waiting_release _ _ _ Hfd) as Hnr.
    assert (Hne : x <> Press i). { intros ->. subst acc. exact (not_again _ _ _ _ Ht Hnr i w eq_refl eq_refl). }
    assert (Hl1 : Forall (fun e : sch_entry cev => en_live e = true -> en_event e = ctimer i) (sc_scheduled (km_sched k))).
    { eapply Forall_impl; [|exact Hlive]. intros e He X. now apply He. }
    pose proof (process_waiting c i q qd f (set_inq k w) k' x Hu (proj1 Hg) Hs Hne E) as PP.
    destruct (chord_rule (cands c i) i (map EvInput qd) (EvInput x)) as [o|] eqn:Eo.
    + destruct (decided_ccore T dues Tr h c ys cs i r q (qd ++ x :: w) o (Followed o) (set_inq k w) k' (qd ++ [x])) as (C & Cp & Cq & Cm & Cn & Ct); try assumption; try reflexivity.
      * cbn. now rewrite <- app_assoc.
      * destruct Hw as (W1 & W2 & W3). split; [exact W1|]. split; [exact W2|]. split; [exact W3|]. exists qd, x, w. auto.
      * intros g Eg. eapply HTs; [|exact Hch|exact Eg]. eapply rule_few. exact Eo.
      * subst acc. split; [exact C|]. split; [intros X; now elim X|]. split; [exact Cm|]. split; [exact Cn|]. split; [intros X; congruence|]. split; [left; exact Ct|].
        intros p Ep. split; [exact Ct|]. rewrite Hp in Ep. injection Ep as <-. rewrite Cp, Cq. cbn. rewrite map_length, app_length. reflexivity.
    + destruct PP as (-> & Hu'). split; [|split; [intros _; reflexivity|split; [reflexivity|split; [reflexivity|split; [intros X; congruence|split; [left; reflexivity|]]]]]].
      2:{ intros p Ep. split; [reflexivity|]. rewrite Hp in Ep. injection Ep as <-. cbn. rewrite !map_length, app_length. cbn. lia. }
      split; [exact Hs|]. split; [exact HL|]. split; [exact HW|].
      exists h, c, ys, cs. split; [exact Hc|]. split; [exact Hg|]. right. exists i, q, (qd ++ [x]), due. cbn [set_inq set_pending km_inq km_sched km_ctx]. rewrite <- app_assoc. cbn [app].
      split; [exact Ea|]. split; [exact Hr|]. split; [exact Hu'|]. split; [exact Hw|]. split; [exact Hd|]. split; [exact Hch|exact Hlive].
Qed.
Definition anyC : clocked := fun _ _ _ _ => True.
Lemma ccore_any T dues Tr acc k : ccore T dues Tr acc k -> ccore anyC anyD anyTr acc k.
Proof. apply ccore_mono; intros; exact Logic.I. Qed.
Lemma ctake_any f acc (k k' : ckeymap) x w : ccore anyC anyD anyTr acc k -> km_inq k = x :: w -> in_turn acc ->
  km_pending k = None -> exec conf (fuel8 f) (JProcessInput x) (set_inq k w) = Ok k' ->
  ccore anyC anyD anyTr acc k' /\ km_inq k' = w /\ forall p, km_pending k' = Some p -> pd_queued p = [].
Proof.
  intros Hc Hq Ht Hp E.
  destruct (ccore_take anyC anyD anyTr f acc k k' x w Hc Hq Ht) as (C & _ & _ & _ & X & _); try (intros; exact Logic.I); [exact E|]. split; [exact C|]. now apply X.
Qed.
Lemma ccore_timer (T : clocked) (dues : list input_event -> u16 -> N -> Prop) (Tr : list input_event -> chorded_ctx -> Prop) f acc (k k' : ckeymap) s :
  ccore T dues Tr acc k -> sched_tick (km_sched k) (km_ms_per_tick k) = Ok s ->
  (forall h ch ch' i o, (forall id, o = Some id -> (id < length chords)%nat) -> Tr h ch -> step_chorded ch (resolved i o) = Ok ch' -> Tr h ch') ->
  (forall h i t qd, dues h i t -> km_pending k <> None -> acc = h ++ Press i :: qd ++ km_inq k -> t <= sc_counter (km_sched k) + km_ms_per_tick k -> T h i Late qd) ->
  exec conf (S (fuel8 f)) JHandlePending (set_sched k s) = Ok k' ->
  ccore T dues Tr acc k' /\ ((forall p, km_pending k = Some p -> pd_queued p = []) -> km_inq k' = km_inq k)
  /\ map en_time (sc_scheduled (km_sched k')) = map en_time (sc_scheduled s)
  /\ (km_pending k' = km_pending k /\ km_inq k' = km_inq k
      \/ exists p, km_pending k = Some p /\ km_pending k' = None /\ length (km_inq k') = (length (pd_queued p) + length (km_inq k))%nat).
Proof.
  intros (Hs & HL & HW & h & c & ys & cs & Hc & Hg & X) Et HTs Hdue E.
  unfold sched_tick in Et. inv_bind Et. unfold u32_add in E0. destruct (_ <=? u32_max); [|discriminate]. injection E0 as <-.
  assert (Keep : forall sch, (sch = sc_scheduled (km_sched k) \/ sch = removelast (sc_scheduled (km_sched k))) ->
    forall cn, ccore T dues Tr acc (set_sched k (mkSched [] sch cn))).
  { intros sch Hsch cn. split; [reflexivity|]. split; [exact HL|].
    split; [cbn [set_sched km_sched sc_scheduled]; destruct Hsch as [->| ->]; [exact HW|now apply removelast_forall]|].
    exists h, c, ys, cs. split; [exact Hc|]. split; [exact Hg|].
    destruct X as [(Ea & Hr & Hb & Hch & Hdead)|(i & q & qd & due & Ea & Hr & Hu & Hw & Hd & Hch & Hlive)]; [left|right].
    - split; [exact Ea|]. split; [exact Hr|]. cbn [set_sched km_sched sc_scheduled]. destruct Hb as (A1 & A2 & A3 & A4 & A5 & A6).
      split; [split; [exact A1|split; [exact A2|split; [exact A3|split; [exact A4|split; [reflexivity|exact A6]]]]]|]. split; [exact Hch|]. destruct Hsch as [->| ->]; [exact Hdead|now apply removelast_forall].
    - exists i, q, qd, due. split; [exact Ea|]. split; [exact Hr|]. split; [|split; [exact Hw|split; [exact Hd|split; [exact Hch|]]]].
      + destruct Hu as (U1 & (A1 & A2 & A3 & A4 & A5 & A6) & U3). split; [exact U1|]. split; [|exact U3].
        split; [exact A1|split; [exact A2|split; [exact A3|split; [exact A4|split; [reflexivity|exact A6]]]]].
      + cbn [set_sched km_sched sc_scheduled]. destruct Hsch as [->| ->]; [exact Hlive|now apply removelast_forall]. }
  destruct (last_opt (sc_scheduled (km_sched k))) as [en|] eqn:El.
  2:{ injection Et as <-. rewrite drain0 in E by exact Hs. injection E as <-. rewrite Hs. split; [apply Keep; now left|]. split; [intros _; reflexivity|]. split; [reflexivity|left; auto]. }
  destruct (N.leb_spec (en_time en) (sc_counter (km_sched k) + km_ms_per_tick k)) as [Hle|_].
  2:{ injection Et as <-. rewrite drain0 in E by exact Hs. injection E as <-. rewrite Hs. split; [apply Keep; now left|]. split; [intros _; reflexivity|]. split; [reflexivity|left; auto]. }
  rewrite Hs in Et. unfold push_cap in Et. change (length (@nil (option (event cev))) <? PENDING_CAPACITY)%nat with true in Et. cbn [bind app] in Et. injection Et as <-.
  specialize (Keep (removelast (sc_scheduled (km_sched k))) (or_intror eq_refl) (sc_counter (km_sched k) + km_ms_per_tick k)).
  change (exec conf (S (fuel8 f)) JHandlePending ?x) with (step_handle_pending (exec conf (fuel8 f)) x) in E.
  destruct (en_live en) eqn:Eli.
  2:{ unfold step_handle_pending, sched_dequeue in E. cbn [km_sched set_sched sc_pending sc_scheduled sc_counter] in E.
      injection E as <-. split; [exact Keep|]. split; [intros _; reflexivity|]. split; [reflexivity|left; auto]. }
  destruct X as [(Ea & Hr & Hb & _ & Hdead)|(i & q & qd & due & Ea & Hr & Hu & Hw & Hd & Hch & Hlive)].
  { pose proof (last_opt_forall _ _ _ Hdead El) as Z. cbn in Z. congruence. }
  pose proof (last_opt_forall _ _ _ Hlive El) as Z. cbn in Z. destruct (Z Eli) as (Ev & Htime).
  unfold step_handle_pending, sched_dequeue in E. cbn [km_sched set_sched sc_pending sc_scheduled sc_counter] in E. rewrite Ev in E. inv_bind E.
  set (k1 := set_sched k (mkSched [] (removelast (sc_scheduled (km_sched k))) (sc_counter (km_sched k) + km_ms_per_tick k))) in *.
  change (exec conf (fuel8 f) (JHandleEvent (ctimer i)) k1 = Ok a) in E0.
  assert (Hu1 : cundecided c i q qd k1).
  { destruct Hu as (U1 & (A1 & A2 & A3 & A4 & A5 & A6) & U3). split; [exact U1|]. split; [|exact U3].
    split; [exact A1|split; [exact A2|split; [exact A3|split; [exact A4|split; [reflexivity|exact A6]]]]]. }
  pose proof (process_timeout _ _ _ _ _ _ _ _ Hu1 (proj1 Hg) eq_refl E0) as D.
  pose proof Hu1 as (Hp & _ & Hi & (r & Er & Hst) & _ & Hfd & _).
  set (x := best (cands c i) i (pressed_in (map EvInput qd))) in *.
  destruct (decided_ccore T dues Tr h c ys cs i r q (qd ++ km_inq k) x (Elapsed x) k1 a qd) as (C & Cp & Cq & _ & _ & Ct); try assumption; try reflexivity.
  - destruct Hw as (W1 & W2 & W3). split; [exact W1|]. split; [exact W2|]. split; [exact W3|].
    exists qd, (km_inq k). split; [reflexivity|]. split; [exact Hfd|]. split; [reflexivity|]. eapply Hdue; [exact Hd| |exact Ea|lia]. destruct Hu as (U1 & _). congruence.
  - cbn. apply removelast_forall. eapply Forall_impl; [|exact Hlive]. intros e He Y. now apply He.
  - cbn. now apply removelast_forall.
  - intros g Eg. eapply HTs; [|exact Hch|exact Eg]. eapply (rule_few c i (map EvInput qd) (ctimer i)). reflexivity.
  - pose proof C as (Ps & _). rewrite drain0 in E by exact Ps. injection E as <-. subst acc. split; [exact C|]. split; [|split; [exact Ct|]].
    2:{ right. destruct Hu as (U1 & _). eexists. split; [exact U1|]. split; [exact Cp|]. rewrite Cq, app_length. cbn. now rewrite map_length. }
    intros Y. destruct Hu as (U1 & _). specialize (Y _ U1). cbn in Y. apply map_eq_nil in Y. subst qd. exact Cq.
Qed.
End ChordBoard.

Section ChordRun.
Variables (refs : list ref) (d : key_data) (pos : position_fn) (dbg : bool) (cf : config) (height f : nat).
Hypothesis Hrefs : Forall (chord_board_key d (cf_layer_count cf) height) refs.
Hypothesis Hfew : (length (chc_chords (cf_chorded cf)) <= 256)%nat.
Variable L : list (callback * callback_fn).
Local Notation conf := (cconf refs d pos dbg).
Local Notation cc := (cf_chorded cf).
Local Notation chords := (chc_chords cc).
Local Notation n := (cf_layer_count cf).
Local Notation k0 := (set_callbacks (km_new (ctx_from_config cf)) L).
Local Notation fuel := (S (S (S (S (S (S (S (S (S (height + f)))))))))).
Local Notation let_in ops := (let_in conf fuel ops k0).
Definition cdues_of (ops : list op) (h : list input_event) (i : u16) (t : N) : Prop :=
  exists a o z, ops = a ++ o :: z /\ taken_by conf fuel k0 a o h i /\ t = ck_now (clocks_run a) + chc_timeout cc.
Definition ctcore (ops : list op) := ccore refs d n cc height L (chord_timing conf fuel cc k0 ops) (cdues_of ops).

Lemma clet_in_snoc fuel' ops o : forall (k k' : ckeymap), run_ops conf fuel' ops k = Ok k' ->
  SpecTapBoard.let_in conf fuel' (ops ++ [o]) k = SpecTapBoard.let_in conf fuel' ops k
    ++ match o with OpInput ie => if (length (km_inq k') <? 31)%nat then [ie] else [] | _ => [] end.
Proof.
  clear. unfold run_ops. induction ops as [|p ops IH]; intros k k' H; cbn [app SpecTapBoard.let_in fold_res] in *.
  - injection H as <-. destruct (run_op conf fuel' k o); now rewrite app_nil_r.
  - inv_bind H. rewrite E, (IH _ _ H). now rewrite app_assoc.
Qed.
Lemma chord_timing_more ops o be i x s : chord_timing conf fuel cc k0 ops be i x s -> chord_timing conf fuel cc k0 (ops ++ [o]) be i x s.
Proof.
  clear. intros (a & p & z & -> & E & H). exists a, p, (z ++ [o]). split; [now rewrite <- app_assoc|]. split; [exact E|]. destruct x; [exact H|exact H|].
  destruct H as (a' & z' & k & m & E1 & T1). exists a', (z' ++ [o]), k, m. split; [|exact T1].
  rewrite E1, <- app_assoc. reflexivity.
Qed.
Lemma cdues_more ops o h i t : cdues_of ops h i t -> cdues_of (ops ++ [o]) h i t.
Proof. clear. intros (a & p & z & -> & H). exists a, p, (z ++ [o]). split; [now rewrite <- app_assoc|exact H]. Qed.
Lemma ccore_fields T S1 Tr acc acc' (k k' : ckeymap) more : ccore refs d n cc height L T S1 Tr acc k -> acc' = acc ++ more ->
  km_inq k' = km_inq k ++ more -> km_pressed k' = km_pressed k -> km_sched k' = km_sched k -> km_pending k' = km_pending k ->
  km_callbacks k' = km_callbacks k -> km_calls k' = km_calls k -> (forall b, bstate d n (sc_scheduled (km_sched k)) b (set_pending k None) ->
    calm (km_ctx k') /\ layers_of n (km_ctx k') b) -> (forall c, chord_ctx cc c (cx_chorded (km_ctx k)) -> chord_ctx cc c (cx_chorded (km_ctx k'))) ->
  (forall h, Tr h (cx_chorded (km_ctx k)) -> Tr h (cx_chorded (km_ctx k'))) ->
  ccore refs d n cc height L T S1 Tr acc' k'.
Proof.
  clear. intros (Hs & HL & HW & h & c & ys & cs & Hc & Hg & X) -> Hq Hp Hk Hpe Hcb Hcl Hctx Hch HR. split; [now rewrite Hk|]. split; [congruence|]. split; [now rewrite Hk|].
  exists h, c, ys, cs. split; [congruence|]. split; [now apply Hch|]. rewrite Hk, Hq.
  destruct X as [(Ea & Hr & (A1 & A2 & A3 & A4 & A5 & A6) & V & Hdead)|(i & q & qd & due & Ea & Hr & (U1 & (A1 & A2 & A3 & A4 & A5 & A6) & U3) & Hw & Hd & V & Hlive)]; [left|right].
  - destruct (Hctx (cb_board c)) as (C1 & C2); [split; [exact A1|split; [exact A2|split; [exact A3|split; [exact A4|split; [exact A5|reflexivity]]]]]|].
    split; [rewrite Ea; now rewrite <- app_assoc|]. split; [eapply chord_run_mono; [|exact Hr]; auto|]. split; [|split; [now apply HR|exact Hdead]].
    split; [exact C1|]. split; [exact C2|]. split; [now rewrite Hp|]. split; [exact A4|]. split; [now rewrite Hk|now rewrite Hpe].
  - destruct (Hctx (cb_board c)) as (C1 & C2); [split; [exact A1|split; [exact A2|split; [exact A3|split; [exact A4|split; [exact A5|reflexivity]]]]]|].
    exists i, q, qd, due. split; [rewrite Ea; rewrite <- app_assoc; cbn; now rewrite <- app_assoc|].
    split; [replace (Press i :: qd ++ km_inq k ++ more) with ((Press i :: qd ++ km_inq k) ++ more) by (cbn; now rewrite <- app_assoc); eapply chord_run_mono; [|exact Hr]; auto|].
    split; [|split; [exact Hw|split; [exact Hd|split; [now apply HR|exact Hlive]]]]. split; [now rewrite Hpe|]. split; [|exact U3].
    split; [exact C1|]. split; [exact C2|]. cbn. rewrite Hp, Hk. auto.
Qed.
Lemma ccore_same T S1 (Tr : list input_event -> chorded_ctx -> Prop) acc (k k' : ckeymap) : ccore refs d n cc height L T S1 Tr acc k ->
  km_inq k' = km_inq k -> km_pressed k' = km_pressed k -> km_sched k' = km_sched k -> km_pending k' = km_pending k ->
  km_callbacks k' = km_callbacks k -> km_calls k' = km_calls k ->
  (forall c, chord_ctx cc c (cx_chorded (km_ctx k)) -> chord_ctx cc c (cx_chorded (km_ctx k'))) ->
  (forall h, Tr h (cx_chorded (km_ctx k)) -> Tr h (cx_chorded (km_ctx k'))) -> (calm (km_ctx k) -> calm (km_ctx k')) -> cx_layered (km_ctx k') = cx_layered (km_ctx k) ->
  ccore refs d n cc height L T S1 Tr acc k'.
Proof.
  clear. intros H E1 E2 E3 E4 E5 E6 E7 E10 E8 E9. eapply (ccore_fields _ _ _ _ _ k _ []); try eassumption; [now rewrite app_nil_r|now rewrite app_nil_r|].
  intros b (A & B & _). split; [now apply E8|]. unfold layers_of in *. now rewrite E9.
Qed.
Lemma ccore_slowed T S1 Tr acc k : ccore refs d n cc height L T S1 Tr acc k -> ccore refs d n cc height L T S1 Tr acc (slowed k).
Proof. clear. intros H. unfold slowed. destruct (0 <? km_delay k); [|exact H]. eapply ccore_same; [exact H|..]; try reflexivity; auto. Qed.

Lemma op_ccore Tr ops (k k' : ckeymap) o : Forall (fun o => plain_op o = true) (ops ++ [o]) -> run_ops conf fuel ops k0 = Ok k ->
  ctcore ops Tr (let_in ops) k -> in_turn (let_in (ops ++ [o])) ->
  (forall h x w ch ch', let_in (ops ++ [o]) = h ++ x :: w -> Tr h ch -> step_chorded ch (EvInput x) = Ok ch' -> Tr (h ++ [x]) ch') ->
  (forall h ch ch' i o, (forall id, o = Some id -> (id < length chords)%nat) -> Tr h ch -> step_chorded ch (resolved i o) = Ok ch' -> Tr h ch') ->
  (forall h ch ch', chx_config ch' = chx_config ch -> chx_pressed_indices ch' = chx_pressed_indices ch -> chx_pressed_chords ch' = chx_pressed_chords ch ->
    chx_latest ch' = chx_latest ch -> Tr h ch -> Tr h ch') ->
  run_op conf fuel k o = Ok k' -> ctcore (ops ++ [o]) Tr (let_in (ops ++ [o])) k'.
Proof.
  intros Hops Hrun Hc Ht HTr HTs HTr2 H. pose proof H as H0. apply Forall_app in Hops as (Hops & Ho). inversion Ho as [|? ? Hop _]; subst. clear Ho.
  pose proof (plain_basic _ Hops) as (Hba & Hti).
  assert (Hsee : fold_left idle_step ops (1, 0, 0) = (km_ms_per_tick k, km_idle k, chx_idle (cx_chorded (km_ctx k)))).
  { destruct (run_ops_sees refs d pos dbg fuel ops Hba (1, 0, 0) k0 k) as (A & B); [split; reflexivity|exact Hrun|now rewrite B]. }
  assert (Hck : clocks_run ops = mkClocks (sc_counter (km_sched k)) (km_idle k) (km_ms_per_tick k)).
  { symmetry. exact (run_ops_clock _ fuel ops Hti _ _ Hrun). }
  assert (Hc1 : ccore refs d n cc height L (chord_timing conf fuel cc k0 (ops ++ [o])) (cdues_of (ops ++ [o])) Tr (let_in ops) k).
  { eapply ccore_mono; [| | |exact Hc]; [intros; now apply chord_timing_more|intros; now apply cdues_more|auto]. }
  clear Hc. pose proof (clet_in_snoc _ ops o _ _ Hrun) as El.
  (* what a take needs *)
  assert (Htaken : forall h i w, let_in (ops ++ [o]) = h ++ Press i :: w -> km_pending k = None -> km_inq k ++ SpecTapBoard.let_in conf fuel [o] k = Press i :: w ->
    km_inq k' = w -> taken_by conf fuel k0 ops o h i).
  { intros h i w E Hp Eq Eq'. exists k, k', w. unfold undecided. rewrite Hp. auto 10. }
  assert (Hhurry : forall h i, taken_by conf fuel k0 ops o h i -> too_soon (chc_required_idle cc) (idle_seen (ops ++ [o])) ->
    chord_timing conf fuel cc k0 (ops ++ [o]) h i Hasty []).
  { intros h i E So. exists ops, o, []. split; [reflexivity|]. split; [exact E|exact So]. }
  assert (Hrest : forall h i, taken_by conf fuel k0 ops o h i -> ~ too_soon (chc_required_idle cc) (idle_seen (ops ++ [o])) ->
    chord_timing conf fuel cc k0 (ops ++ [o]) h i Rested []).
  { intros h i E So. exists ops, o, []. split; [reflexivity|]. split; [exact E|exact So]. }
  assert (Hwait : forall h i, taken_by conf fuel k0 ops o h i -> cdues_of (ops ++ [o]) h i (sc_counter (km_sched k) + chc_timeout cc)).
  { intros h i E. exists ops, o, []. split; [reflexivity|]. split; [exact E|]. rewrite Hck. reflexivity. }
  unfold ctcore. destruct o as [ev| |dd ev| | | |ms|c g]; try discriminate Hop; cbn [run_op] in *.
  - (* an input *)
    assert (Hidle : idle_seen (ops ++ [OpInput ev]) = chx_idle (cx_chorded (km_ctx k))).
    { unfold idle_seen. rewrite fold_left_app, Hsee. reflexivity. }
    assert (Elet : SpecTapBoard.let_in conf fuel [OpInput ev] k = if (length (km_inq k) <? 31)%nat then [ev] else []).
    { cbn [SpecTapBoard.let_in run_op]. rewrite H0. apply app_nil_r. }
    unfold km_handle_input in H. cbn zeta in H. change (km_inq (set_idle k 0)) with (km_inq k) in H. change INPUT_QUEUE_CAPACITY with 31%nat in H.
    destruct (length (km_inq k) <? 31)%nat.
    2:{ injection H as <-. rewrite El, app_nil_r. eapply ccore_same; [exact Hc1|..]; try reflexivity; auto. }
    set (k1 := set_inq (set_idle k 0) (km_inq k ++ [ev])) in *.
    assert (Hc2 : ccore refs d n cc height L (chord_timing conf fuel cc k0 (ops ++ [OpInput ev])) (cdues_of (ops ++ [OpInput ev])) Tr (let_in (ops ++ [OpInput ev])) k1).
    { eapply (ccore_fields _ _ _ _ _ k _ [ev]); [exact Hc1|exact El|..]; try reflexivity; [|auto..]. intros b Hb. exact (bctx cf _ _ _ _ Hb). }
    destruct (km_delay k1 =? 0); [|injection H as <-; exact Hc2].
    destruct (km_inq k1) as [|x w] eqn:Eq; [discriminate|]. inv_bind H. injection H as <-.
    assert (Ex : exec conf (S (S (S (S (S (S (S (S (height + (1 + f)))))))))) (JProcessInput x) (set_inq k1 w) = Ok a).
    { replace (height + (1 + f))%nat with (S (height + f)) by lia. exact E. }
    assert (Htk : forall h i, let_in (ops ++ [OpInput ev]) = h ++ Press i :: w -> x = Press i -> km_pending k1 = None -> taken_by conf fuel k0 ops (OpInput ev) h i).
    { intros h i E' -> Hp. destruct (ctake_any refs d pos dbg n cc Hfew height Hrefs L (1 + f) _ k1 a (Press i) w (ccore_any _ _ _ _ _ _ _ _ _ _ _ Hc2) Eq Ht Hp Ex) as (_ & Q & _).
      apply (Htaken h i w E' Hp); [rewrite Elet; exact Eq|exact Q]. }
    destruct (ccore_take refs d pos dbg n cc Hfew height Hrefs L _ _ Tr (1 + f) _ k1 a x w Hc2 Eq Ht) as (C & _).
    + intros h ch ch' Ea. eapply HTr. exact Ea.
    + exact HTs.
    + intros h i E' Hx Hp So. apply Hhurry; [now apply Htk|]. rewrite Hidle. exact So.
    + intros h i E' Hx Hp So. apply Hrest; [now apply Htk|]. rewrite Hidle. exact So.
    + intros h i E' Hx Hp. apply Hwait. now apply Htk.
    + exact Ex.
    + eapply ccore_same; [exact C|..]; try reflexivity; auto.
  - (* a tick *)
    rewrite app_nil_r in El. rewrite El in *.
    assert (Hidle : idle_seen (ops ++ [OpTick]) = km_idle k).
    { unfold idle_seen. rewrite fold_left_app, Hsee. reflexivity. }
    assert (Elet : SpecTapBoard.let_in conf fuel [OpTick] k = []).
    { cbn [SpecTapBoard.let_in run_op]. now rewrite H0. }
    rewrite tick_step in H. cbn zeta in H. set (k1 := set_ctx k _) in H.
    assert (Hi1 : chx_idle (cx_chorded (km_ctx k1)) = km_idle k) by reflexivity.
    assert (Hc2 : ccore refs d n cc height L (chord_timing conf fuel cc k0 (ops ++ [OpTick])) (cdues_of (ops ++ [OpTick])) Tr (let_in ops) k1).
    { eapply ccore_same; [exact Hc1|..]; try reflexivity; [intros c; exact (fun X => X)|intros h; apply HTr2; reflexivity|]. intros (A & B & C & D). repeat split; assumption. }
    inv_bind H. change (if 0 <? km_delay a then set_delay a (km_delay a - 1) else a) with (slowed a) in H. inv_bind H. inv_bind H. inv_bind H. injection H as <-.
    assert (S2 : km_inq (slowed a) = km_inq a /\ km_pending (slowed a) = km_pending a /\ km_ms_per_tick (slowed a) = km_ms_per_tick a /\ km_sched (slowed a) = km_sched a).
    { unfold slowed. destruct (0 <? km_delay a); auto. }
    destruct S2 as (Q2 & P2 & M2 & S2).
    assert (X : ccore refs d n cc height L (chord_timing conf fuel cc k0 (ops ++ [OpTick])) (cdues_of (ops ++ [OpTick])) Tr (let_in ops) a
      /\ (km_pending a <> None -> exists m, (m <= 1)%nat /\ km_inq a = skipn m (km_inq k)) /\ km_ms_per_tick a = km_ms_per_tick k /\ sc_counter (km_sched a) = sc_counter (km_sched k)).
    { assert (Same : ccore refs d n cc height L (chord_timing conf fuel cc k0 (ops ++ [OpTick])) (cdues_of (ops ++ [OpTick])) Tr (let_in ops) k1
        /\ (km_pending k1 <> None -> exists m, (m <= 1)%nat /\ km_inq k1 = skipn m (km_inq k)) /\ km_ms_per_tick k1 = km_ms_per_tick k /\ sc_counter (km_sched k1) = sc_counter (km_sched k)).
      { split; [exact Hc2|]. split; [intros _; exists 0%nat; split; [lia|reflexivity]|split; reflexivity]. }
      destruct (km_inq k) as [|x w] eqn:Eq; [injection E as <-; exact Same|]. destruct (km_delay k =? 0); [|injection E as <-; exact Same]. clear Same.
      inv_bind E. injection E as <-.
      assert (Ex : exec conf (S (S (S (S (S (S (S (S (height + (1 + f)))))))))) (JProcessInput x) (set_inq k1 w) = Ok a3).
      { replace (height + (1 + f))%nat with (S (height + f)) by lia. exact E3. }
      assert (Htk : forall h i, let_in ops = h ++ Press i :: w -> x = Press i -> km_pending k1 = None -> taken_by conf fuel k0 ops OpTick h i).
      { intros h i E' -> Hp. destruct (ctake_any refs d pos dbg n cc Hfew height Hrefs L (1 + f) _ k1 a3 (Press i) w (ccore_any _ _ _ _ _ _ _ _ _ _ _ Hc2) Eq Ht Hp Ex) as (Ca & Q & Qp).
        apply (Htaken h i w E' Hp); [rewrite Elet; apply app_nil_r|].
        assert (Ca' : ccore refs d n cc height L anyC anyD anyTr (let_in ops) (slowed (set_delay a3 INPUT_QUEUE_TICK_DELAY))).
        { apply ccore_slowed. eapply ccore_same; [exact Ca|..]; try reflexivity; auto. }
        destruct (ccore_timer refs d pos dbg n cc Hfew height L anyC anyD anyTr f _ _ a1 _ Ca' E0) as (_ & Y & _); [intros; exact Logic.I|intros; exact Logic.I|exact E1|].
        cbn [km_inq set_idle]. rewrite Y; [rewrite Q2; exact Q|]. intros p Z. rewrite P2 in Z. now apply Qp. }
      destruct (ccore_take refs d pos dbg n cc Hfew height Hrefs L _ _ Tr (1 + f) _ k1 a3 x w Hc2 Eq Ht) as (C & Cq & Cm & Cn & _).
      + intros h ch ch' Ea. eapply HTr. exact Ea.
      + exact HTs.
      + intros h i E' Hx Hp So. apply Hhurry; [now apply Htk|]. rewrite Hidle. rewrite <- Hi1. exact So.
      + intros h i E' Hx Hp So. apply Hrest; [now apply Htk|]. rewrite Hidle. rewrite <- Hi1. exact So.
      + intros h i E' Hx Hp. apply Hwait. now apply Htk.
      + exact Ex.
      + split; [|split; [|split; [exact Cm|exact Cn]]].
        * eapply ccore_same; [exact C|..]; try reflexivity; auto.
        * intros Hp. exists 1%nat. split; [lia|]. exact (Cq Hp). }
    destruct X as (C & Cq & Cm & Cn).
    apply (ccore_same _ _ _ _ a1); [|reflexivity|reflexivity|reflexivity|reflexivity|reflexivity|reflexivity|auto|auto|auto|reflexivity].
    eapply (ccore_timer refs d pos dbg n cc Hfew height L _ _ _ f); [apply ccore_slowed; exact C|exact E0|exact HTs| |exact E1].
    intros h i t qd (a' & p & z & Ez & A & ->) Hp Ea Hle. rewrite P2 in Hp. destruct (Cq Hp) as (m & Hm & Em).
    exists a', p, z. split; [exact Ez|]. split; [exact A|].
    exists ops, [], k, m. split; [reflexivity|].
    assert (Hlen : (length a' <= length ops)%nat).
    { apply (f_equal (@length op)) in Ez. rewrite !app_length in Ez. cbn in Ez. lia. }
    split; [exact Hlen|]. split; [exact Hrun|]. split; [exact Hm|]. split; [rewrite Ea, Q2, Em; reflexivity|].
    unfold clocks_run in *. rewrite (fold_left_app _ ops). rewrite Hck. cbn [fold_left clocks_step ck_now ck_ms]. rewrite S2, M2, Cm, Cn in Hle. exact Hle.
  - (* a report *)
    rewrite app_nil_r in El. rewrite El. unfold km_report_output in H. inv_bind H. inv_bind E. injection E as <-. injection H as <-.
    eapply ccore_same; [exact Hc1|..]; try reflexivity; auto.
  - rewrite app_nil_r in El. rewrite El. injection H as <-.
    eapply ccore_same; [exact Hc1|..]; try reflexivity; auto.
Qed.
Lemma ccore_new T S1 (Tr : list input_event -> chorded_ctx -> Prop) : Tr [] (ch_ctx_new cc) -> ccore refs d n cc height L T S1 Tr [] k0.
Proof.
  clear. intros HR. split; [reflexivity|]. split; [reflexivity|]. split; [constructor|]. exists [], cboard_new, [], []. split; [reflexivity|].
  split; [split; [reflexivity|split; [|reflexivity]]; cbn; intros id; apply nth_repeat|]. left.
  split; [reflexivity|]. split; [constructor|]. split; [|split; [exact HR|constructor]].
  split; [apply calm_new|]. split; [|split; [constructor|split; [constructor|split; reflexivity]]]. unfold layers_of. cbn. rewrite repeat_length. split; [reflexivity|].
  split; [intros x; apply is_on_new|]. split; [reflexivity|discriminate].
Qed.
Lemma run_ccore ops k : Forall (fun o => plain_op o = true) ops -> run_ops conf fuel ops k0 = Ok k -> in_turn (let_in ops) -> ctcore ops anyTr (let_in ops) k.
Proof.
  revert k. induction ops as [|o ops IH] using rev_ind; intros k Ho H Ht.
  - injection H as <-. apply ccore_new. exact Logic.I.
  - rewrite run_ops_app in H. inv_bind H. unfold run_ops in H. cbn [fold_res] in H. inv_bind H. injection H as <-.
    eapply op_ccore; [exact Ho|exact E| |exact Ht|intros; exact Logic.I|intros; exact Logic.I|intros; exact Logic.I|exact E0]. apply IH; [now apply Forall_app in Ho|exact E|].
    rewrite (clet_in_snoc _ _ _ _ _ E) in Ht. now apply in_turn_app in Ht.
Qed.
Lemma call_let_in ops k : Forall (fun o => plain_op o = true) ops -> run_ops conf fuel ops k0 = Ok k -> in_turn (inputs ops) -> (length (inputs ops) <= 31)%nat ->
  let_in ops = inputs ops.
Proof.
  revert k. induction ops as [|o ops IH] using rev_ind; intros k Ho H Ht Hl; [reflexivity|].
  rewrite run_ops_app in H. inv_bind H. apply Forall_app in Ho as (Ho & _).
  assert (Ei : inputs (ops ++ [o]) = inputs ops ++ inputs [o]) by apply filter_map_app.
  rewrite Ei in *. rewrite app_length in Hl.
  assert (IH' : let_in ops = inputs ops) by (eapply IH; [exact Ho|exact E|now apply in_turn_app in Ht|lia]).
  rewrite (clet_in_snoc _ ops o _ _ E), IH'. f_equal. destruct o as [ev| | | | | | |]; try reflexivity.
  assert (C : ctcore ops anyTr (let_in ops) a).
  { apply run_ccore; try assumption. rewrite IH'. now apply in_turn_app in Ht. }
  destruct C as (_ & _ & _ & h & c & ys & cs & _ & _ & X). rewrite IH' in X. cbn in Hl.
  assert (Hq : (length (km_inq a) < 31)%nat).
  { destruct X as [(Ea & _)|(i & q & qd & due & Ea & _)]; rewrite Ea in Hl; repeat (rewrite app_length in Hl; cbn [length] in Hl); lia. }
  apply Nat.ltb_lt in Hq. now rewrite Hq.
Qed.
End ChordRun.

(** ** The keyboard is determined by the inputs and the outcomes *)
Lemma chord_member_fun d q keys pass keys' pass' : chord_member d q keys pass -> chord_member d q keys' pass' -> pass = pass'.
Proof. unfold chord_member. destruct q; intros H H'; [congruence|]. destruct H as (H & _), H' as (H' & _). congruence. Qed.
Lemma means_chord d on df q m : ~ means d on df (RChorded q) m.
Proof. intros H. inversion H; subst; contradiction. Qed.
Lemma chord_mean_fun d chords on on' def i r y m : (forall l, on l = on' l) -> chord_mean d chords on def i r y m ->
  forall y' m', chord_mean d chords on' def i r y' m' -> (y = None <-> y' = None) /\ (y = y' -> m = m').
Proof.
  intros He. induction 1 as [r m Hm|q keys pass y m Hc Hp Hm|q keys pass y id rest r m Hc Hp Hf Hr Hm|q keys pass y id first rest Hc Hp Hf Hn|q pass y id Hc Hp|q k r y m Hk Ha Hm IH]; intros y' m' H'.
  - revert m Hm. induction H' as [r m' Hm'|q keys pass y' m' Hc Hp Hm'|q keys pass y' id rest r m' Hc Hp Hf Hr Hm'|q keys pass y' id first rest Hc Hp Hf Hn|q pass y' id Hc Hp|q k r y' m' Hk Ha Hm' IH]; intros m Hm.
    + split; [tauto|]. intros _. eapply means_fun; eassumption.
    + now apply means_chord in Hm.
    + now apply means_chord in Hm.
    + now apply means_chord in Hm.
    + now apply means_chord in Hm.
    + inversion Hm as [? ? Hp| | |i2 k2 r2 m2 Hk2 Ha2 Hm2]; subst; [contradiction|].
      assert (k2 = k) as -> by congruence. assert (r2 = r) as -> by (eapply acts_as_fun; [exact Ha2|]; eapply acts_as_ext; [|exact Ha]; intros l; cbn; rewrite He; reflexivity).
      now apply IH.
  - inversion H'; subst; [now apply means_chord in H|..]; (split; [split; discriminate|]); intros E; injection E as <-; try congruence.
    match goal with X : chord_member d q ?a ?b |- _ => assert (b = pass) as -> by (eapply chord_member_fun; [exact X|exact Hc]) end. eapply means_fun; eassumption.
  - inversion H'; subst; [now apply means_chord in H|..]; (split; [split; discriminate|]); intros E; injection E as <-; try congruence.
    assert (id0 = id) as -> by congruence. assert (keys0 = keys) as -> by congruence. assert (r0 = r) as -> by congruence. eapply means_fun; eassumption.
  - inversion H'; subst; [now apply means_chord in H|..]; (split; [split; discriminate|]); intros E; injection E as <-; try congruence.
  - inversion H'; subst; [now apply means_chord in H|..]; (split; [split; discriminate|]); intros E; injection E as <-; try congruence.
  - assert (X : chord_mean d chords on' def i r y' m').
    { inversion H' as [r' m1 Hm1| | | | |q1 k1 r1 y1 m1 Hk1 Ha1 Hm1]; subst.
      - inversion Hm1 as [? ? Hp| | |i2 k2 r2 m2 Hk2 Ha2 Hm2]; subst; [contradiction|]. constructor.
        assert (k2 = k) as -> by congruence. assert (r2 = r) as <- by (eapply acts_as_fun; [exact Ha2|]; eapply acts_as_ext; [|exact Ha]; intros l; cbn; rewrite He; reflexivity). exact Hm2.
      - assert (k1 = k) as -> by congruence. assert (r1 = r) as <- by (eapply acts_as_fun; [exact Ha1|]; eapply acts_as_ext; [|exact Ha]; intros l; cbn; rewrite He; reflexivity). exact Hm1. }
    now apply IH.
Qed.
Lemma run_of_chords_shape d chords n refs T h later ys c cs : chord_run d chords n refs T h later ys c cs -> shape (cb_board c) = down_after h.
Proof.
  induction 1 as [|h ie later ys c cs ys' c' cs' _ IH H]; [reflexivity|]. rewrite down_snoc, <- IH. clear IH.
  destruct H as [i r y m Hi _ _ _|i b' H|ie b' _ H]; [|eapply step_shape; exact H..].
  unfold shape. cbn [down_step cb_board]. rewrite this_forget, Hi, switch_down. cbn. now rewrite map_app.
Qed.
Lemma chord_run_fun d chords n refs T T' h later ys c cs : chord_run d chords n refs T h later ys c cs ->
  forall later' ys2 c' cs' s t, chord_run d chords n refs T' h later' ys2 c' cs' -> ys ++ s = ys2 ++ t -> same_cboard c c' /\ cs = cs' /\ ys = ys2.
Proof.
  induction 1 as [later|h ie later ys c cs ys' c1 cs1 Hr IH Hs]; intros later' ys2 c' cs' s t H2 E.
  - inversion H2 as [|h0 ie0 l0 xs0 b0 cs0 xs1 b1 cs1 Hr0 Hs0 E0]; subst; [split; [repeat split; auto|auto]|]. destruct h0; discriminate.
  - inversion H2 as [|h0 ie0 l0 ys0 b0 cs0 ys1 b2 cs2 Hr0 Hs0 E0]; subst; [destruct h; discriminate|]. apply app_inj_tail in E0 as (-> & ->).
    rewrite <- !app_assoc in E. destruct (IH _ _ _ _ _ _ Hr0 E) as ((Hb & Hact & Hlat) & -> & ->). apply app_inv_head in E.
    assert (Hnd : NoDup (keys_down (shape (cb_board c)))) by (rewrite (run_of_chords_shape _ _ _ _ _ _ _ _ _ _ Hr); apply down_nodup).
    destruct Hs as [i r x m Hi Er Hm Ha|i b1 Hst|ie b1 Hno Hst].
    + inversion Hs0 as [i' r' y m' Hi' Er' Hm' Ha'|i' b'' Hst'|ie' b'' Hno' Hst']; subst; [|now elim (proj1 (Hno' i))].
      assert (r' = r) as -> by congruence. pose proof Hb as (B1 & B2 & B3). rewrite <- B3 in Hm'. destruct (chord_mean_fun _ _ _ _ _ _ _ _ _ B2 Hm _ _ Hm') as (N1 & N2).
      assert (Exy : x = y).
      { destruct x as [x|], y as [y|]; [cbn in E; injection E as -> _; reflexivity|now destruct N1 as (_ & N1); discriminate N1|now destruct N1 as (N1 & _); discriminate N1|reflexivity]. }
      subst y. rewrite (N2 eq_refl). split; [|split; reflexivity]. split; [|split].
      * cbn [cb_board]. apply switch_same. split; [cbn; now rewrite B1|]. split; assumption.
      * cbn [cb_active]. intros id. unfold goes_down. rewrite Hact. reflexivity.
      * cbn [cb_latest]. now rewrite Hlat.
    + inversion Hs0 as [i' r' y m' Hi' Er' Hm' Ha'|i' b'' Hst'|ie' b'' Hno' Hst']; subst; [|now elim (proj2 (Hno' i))].
      split; [|split; reflexivity]. split; [eapply step_fun; [exact Hb| |exact Hst|exact Hst']; exact Hnd|].
      split; [|exact Hlat]. cbn. intros id. unfold comes_up. now rewrite Hact.
    + inversion Hs0 as [i' r' y m' Hi' Er' Hm' Ha'|i' b'' Hst'|ie' b'' Hno' Hst']; subst; [now elim (proj1 (Hno i'))|now elim (proj2 (Hno i'))|].
      split; [|split; reflexivity]. split; [eapply step_fun; [exact Hb| |exact Hst|exact Hst']; exact Hnd|].
      split; [exact Hact|exact Hlat].
Qed.
