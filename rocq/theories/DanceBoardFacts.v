(** Keyboards with layers and tap-dance keys, computed (C76). *)
From Verif Require Import BaseFacts Output Types Scheduler Reporter Keymap SimpleKeys TapHold TapDance Sticky CapsWord
  Layered Automation Chorded Composite SpecKeymap KeymapHist KeymapQueue KeymapCalls KeymapApi SpecChord ChordFacts ChordHeld SpecPlain PlainFacts
  SpecLayer LayerFacts SpecTap TapFacts TapTime CtxFacts SpecDecide SpecBoard BoardFacts SpecScheduler SchedulerFacts SpecTapBoard TapBoardFacts SpecDanceBoard.
Local Open Scope N_scope.

(** ** The inputs seen *)
Lemma presses_taps (i : u16) seen : presses i (map (@EvInput cev) seen) = taps i seen.
Proof.
  unfold taps. induction seen as [|[j|j|ko|ko] seen IH]; cbn; try exact IH; [reflexivity|].
  rewrite (N.eqb_sym j i). destruct (i =? j); cbn; now rewrite IH.
Qed.
Lemma taps_app (i : u16) seen x : taps i (seen ++ [x]) = (taps i seen + if presses_key i x then 1 else 0)%nat.
Proof. unfold taps. rewrite filter_app, app_length. cbn. now destruct (presses_key i x). Qed.
Lemma last_one_list {A} (l : list A) : last_list l = last_one l.
Proof.
  unfold last_list, last_one. induction l as [|x l IH] using rev_ind; [reflexivity|]. rewrite rev_app_distr. cbn. now rewrite (last_opt_app l x).
Qed.
Lemma last_one_map {A B} (g : A -> B) l : last_one (map g l) = map g (last_one l).
Proof. unfold last_one. rewrite <- map_rev. now destruct (rev l). Qed.
Lemma filter_map_swap {A B} (g : A -> B) (p : B -> bool) (q : A -> bool) l : (forall x, p (g x) = q x) -> filter p (map g l) = map g (filter q l).
Proof. intros H. induction l as [|x l IH]; [reflexivity|]. cbn. rewrite H, IH. now destruct (q x). Qed.
Lemma own_about (i : u16) x : is_own_event i (@EvInput cev x) = about_key i x.
Proof. destruct x; cbn; try reflexivity; apply N.eqb_sym. Qed.
Lemma again_wait (i : u16) seen : again i seen = map EvInput (wait_again i seen).
Proof.
  unfold again, wait_again. rewrite map_app, last_one_list.
  rewrite (filter_map_swap _ _ (fun x => negb (about_key i x))) by (intros x; now rewrite own_about).
  rewrite (filter_map_swap _ (is_own_event i) (about_key i)) by (intros x; apply own_about). now rewrite last_one_map.
Qed.

Lemma tap_dance_ctx c i e : calm c -> cctx_handle_event c (EvKey i (CeTapDance e)) = Ok (c, []).
Proof.
  intros (Hw & Hl & Hs & Hp). unfold cctx_handle_event, step_automation, step_caps_word, step_chorded, step_layered, step_sticky.
  cbn. now rewrite ctx_eta.
Qed.

Section DanceBoard.
Variables (refs : list ref) (d : key_data) (pos : position_fn) (dbg : bool) (n : nat).
Local Notation conf := (cconf refs d pos dbg).
Local Notation bstate := (bstate d n).
Local Notation held := (held d n).

(** The timer number [c] of the key [i]. *)
Definition dtimer (i : u16) (c : N) : event cev := EvKey i (CeTapDance (NextPressTimeout c)).
(** The tap-dance key number [q]. *)
Definition dance_key (height : nat) (q : u8) (choices : list ref) (pad : nat) : Prop :=
  nth_error (kd_tap_dance d) (N.to_nat q) = Some (map Some choices ++ repeat None pad) /\ (1 <= length choices <= 256)%nat
  /\ Forall (board_key n d height) choices.
Definition dance_from (k : ckeymap) (i : u16) (q : u8) (s : scheduler cev) : ckeymap :=
  set_pending (set_sched k s) (Some (mkPending i (RTapDance q) (PksTapDance td_pks_new) [])).
Local Notation timeout_of c := (tdc_timeout (tdx_config (cx_tap_dance c))).

Lemma press_dance h r : dance_board_key n d h r -> forall sch f i b (k : ckeymap), bstate sch b k -> sc_pending (km_sched k) = [] ->
  existsb (this_key i) (bd_down b) = false ->
  (if (length (bd_down b) <? 16)%nat
    then exists m k', means d (bd_on b) (bd_default b) r m /\ exec conf (S (S (S (h + f)))) (JPressLoop i r) k = Ok k'
      /\ bstate sch (set_down b (bd_down b ++ [inl (i, m)])) k' /\ frame k k' /\ sc_pending (km_sched k') = press_events i m /\ km_calls k' = km_calls k
      /\ (forall lm, m = Switches lm -> modifier_ok n lm)
    else exec conf (S (S (S (h + f)))) (JPressLoop i r) k = Panic)
  \/ (exists q choices pad, dance_key h q choices pad /\ dances d (bd_on b) (bd_default b) r choices
      /\ exec conf (S (S (S (h + f)))) (JPressLoop i r) k
         = (let! s := sched_after pos (km_sched k) (timeout_of (km_ctx k)) (dtimer i 0) in Ok (dance_from k i q s))).
Proof.
  induction 1 as [h r Hk|h q choices pad Hk Hl Hch|h q lk Hk Hlen _ IHb _ IHl]; intros sch f i b k Hb Hs Hi.
  - left. exact (press_board refs d pos dbg n h r Hk sch f i b k Hb Hs Hi).
  - right. exists q, choices, pad. split.
    { split; [exact Hk|]. split; [exact Hl|]. eapply Forall_impl; [|exact Hch]. intros r. apply board_key_up. }
    split; [econstructor; exact Hk|].
    change (exec conf (S (S (S (S h + f)))) (JPressLoop i (RTapDance q)) k) with (step_press_loop conf (exec conf (S (S (S (h + f))))) i (RTapDance q) k).
    unfold step_press_loop. cbn [kc_sys cconf composite sys_new_pressed_key c_new_pressed_key td_new_pressed_key bind map_pkr ke_map map after map_sched se_schedule se_event map_event].
    unfold schedule_all, sched_all. cbn [fold_res].
    change (sched_event_in (kc_pos conf) (km_sched k) _) with (sched_after pos (km_sched k) (timeout_of (km_ctx k)) (dtimer i 0)).
    destruct (sched_after pos (km_sched k) _ _); reflexivity.
  - change (exec conf (S (S (S (S h + f)))) (JPressLoop i (RLayered (LyLayered q))) k) with (step_press_loop conf (exec conf (S (S (S (h + f))))) i (RLayered (LyLayered q)) k).
    unfold step_press_loop. cbn [kc_sys cconf composite sys_new_pressed_key c_new_pressed_key ly_new_pressed_key]. unfold index. rewrite Hk. cbn [bind].
    pose proof Hb as (_ & (Ln & Lo & Ld & Lr) & _). destruct (layered_total lk (cx_layered (km_ctx k))) as (r' & Er); [congruence| |].
    { rewrite Ld, Ln. exact Lr. }
    rewrite Er. cbn [bind map_pkr ke_map map]. unfold schedule_all, sched_all. cbn [fold_res bind]. rewrite set_sched_id.
    assert (Ha : acts_as lk (fun l => bd_on b l = true) (bd_default b) r').
    { apply layered_lookup in Er. rewrite <- Ld. eapply acts_as_ext; [|exact Er]. intros l. rewrite layer_on_is_on, Lo. reflexivity. }
    assert (IH : (if (length (bd_down b) <? 16)%nat
      then exists m k', means d (bd_on b) (bd_default b) r' m /\ exec conf (S (S (S (h + f)))) (JPressLoop i r') k = Ok k'
        /\ bstate sch (set_down b (bd_down b ++ [inl (i, m)])) k' /\ frame k k' /\ sc_pending (km_sched k') = press_events i m /\ km_calls k' = km_calls k
        /\ (forall lm, m = Switches lm -> modifier_ok n lm)
      else exec conf (S (S (S (h + f)))) (JPressLoop i r') k = Panic)
    \/ (exists q choices pad, dance_key h q choices pad /\ dances d (bd_on b) (bd_default b) r' choices
      /\ exec conf (S (S (S (h + f)))) (JPressLoop i r') k
         = (let! s := sched_after pos (km_sched k) (timeout_of (km_ctx k)) (dtimer i 0) in Ok (dance_from k i q s)))).
    { destruct (acts_as_entry _ _ _ _ Ha) as [->|Hin]; [now apply IHb|now apply (IHl r' Hin)]. }
    destruct IH as [X|(q' & choices & pad & (D1 & D2 & D3) & D4 & E)].
    + left. destruct (length (bd_down b) <? 16)%nat; [|exact X]. destruct X as (m & k' & M & X). exists m, k'.
      split; [eapply means_layered; eassumption|exact X].
    + right. exists q', choices, pad. split; [split; [exact D1|split; [exact D2|]]|split; [eapply dances_layered; eassumption|exact E]].
      eapply Forall_impl; [|exact D3]. intros r0. apply board_key_up.
Qed.

Variable height : nat.
Hypothesis Hrefs : Forall (dance_board_key n d height) refs.
Local Notation fuel4 f := (S (S (S (S (height + f))))).

(** Taking an input while there is no dance. *)
Lemma process_dance sch f b (k k' : ckeymap) ie : bstate sch b k -> sc_pending (km_sched k) = [] ->
  exec conf (fuel4 f) (JProcessInput ie) k = Ok k' ->
  exists h, step_chorded (cx_chorded (km_ctx k)) (EvInput ie) = Ok h /\ sc_pending (km_sched k') = [] /\ framed k k' h /\
  ((exists b' cs, board_step n refs d b ie b' /\ step_calls refs d b ie cs /\ bstate sch b' k' /\ km_calls k' = km_calls k ++ filter_map (lm_get (km_callbacks k)) cs)
   \/ (exists i r q choices pad s, ie = Press i /\ existsb (this_key i) (bd_down b) = false /\ nth_error refs (N.to_nat i) = Some r
        /\ dances d (bd_on b) (bd_default b) r choices /\ dance_key height q choices pad
        /\ sched_after pos (km_sched k) (timeout_of (km_ctx k)) (dtimer i 0) = Ok s
        /\ km_pending k' = Some (mkPending i (RTapDance q) (PksTapDance td_pks_new) []) /\ km_sched k' = s
        /\ bstate (sc_scheduled s) b (set_pending k' None) /\ km_calls k' = km_calls k)).
Proof.
  intros H Hs E. pose proof H as (Hc & Hly & Hh & Hnd & Hsc & Hp).
  assert (Hone : (forall i, ie <> Press i) \/ exists i, ie = Press i) by (destruct ie as [i|i|ko|ko]; [right; exists i; reflexivity|left; discriminate..]).
  destruct Hone as [Hno|(i & ->)].
  - assert (Hv : forall i r, ie = Press i -> nth_error refs (N.to_nat i) = Some r -> board_key n d height r) by (intros i r X; now apply Hno in X).
    pose proof (process_board refs d pos dbg n height sch f b k ie H Hs Hv) as X.
    destruct (step_chorded (cx_chorded (km_ctx k)) (EvInput ie)) as [h| |]; [|rewrite E in X; discriminate..].
    destruct (board_input_ok refs b ie); [|congruence]. destruct X as (b' & cs & k1 & Hst & Hcs & E1 & B1 & F1 & P1 & C1). rewrite E in E1. injection E1 as <-.
    exists h. split; [reflexivity|]. split; [exact P1|]. split; [exact F1|]. left. exists b', cs. auto.
  - change (exec conf (fuel4 f) (JProcessInput (Press i)) k) with (step_process_input conf (exec conf (S (S (S (height + f))))) (Press i) k) in E.
    unfold step_process_input in E. rewrite Hp in E. rewrite (update_pressed_board refs d pos dbg n b) in E by (try exact Hh; discriminate). cbn [bind] in E.
    unfold update_context in E. cbn [kc_sys cconf composite sys_ctx_handle_event] in E. rewrite calm_input in E by exact Hc.
    destruct (step_chorded (cx_chorded (km_ctx k)) (EvInput (Press i))) as [h| |] eqn:Eh; cbn [bind] in E; try discriminate.
    exists h. split; [reflexivity|]. unfold schedule_all, sched_all in E. cbn [fold_res bind] in E. rewrite set_sched_id in E.
    set (k2 := set_ctx k (with_chorded (km_ctx k) h)) in E.
    assert (B2 : bstate sch b k2).
    { split; [eapply chorded_calm; [exact Hc|exact Eh]|]. split; [exact Hly|]. split; [exact Hh|]. split; [exact Hnd|]. split; [exact Hsc|exact Hp]. }
    assert (Fin : forall k', frame k2 k' -> framed k k' h).
    { intros k3 (A & B & C & D & E' & G & J). unfold framed. repeat split; [exact A|exact B|exact C|exact D|exact E'|exact G|exact J]. }
    cbn [step_input_dispatch] in E. unfold has_pressed in E. change (km_pressed k2) with (km_pressed k) in E. rewrite (has_held _ _ _ _ _ Hh) in E.
    destruct (existsb (this_key i) (bd_down b)) eqn:Hnew.
    + cbn [bind] in E. rewrite drain0 in E by exact Hs. injection E as <-. split; [exact Hs|]. split; [apply Fin, frame_refl|]. left. exists b, [].
      split; [now constructor|]. split; [now constructor|]. split; [exact B2|]. cbn. now rewrite app_nil_r.
    + unfold index in E. cbn [kc_refs cconf] in E. destruct (nth_error refs (N.to_nat i)) as [r|] eqn:Er; [|discriminate E]. cbn [bind] in E.
      assert (Hbk : dance_board_key n d height r) by (eapply Forall_forall; [exact Hrefs|eapply nth_error_In; exact Er]).
      destruct (press_dance height r Hbk sch f i b k2 B2 Hs Hnew) as [X|(q & choices & pad & Hk & Hd & X)].
      * destruct (length (bd_down b) <? 16)%nat; [|rewrite X in E; discriminate]. destruct X as (m & k3 & M & E3 & B3 & F3 & P3 & C3 & Hok).
        rewrite E3 in E. cbn [bind] in E.
        destruct (drain_board refs d pos dbg n sch (height + f) _ k3 _ (at_press m) B3 P3) as (k4 & E4 & B4 & F4 & P4 & C4).
        { destruct m as [ko|lm|cb|]; try (left; split; reflexivity); right; eexists; (split; [reflexivity|]); cbn.
          - split; [reflexivity|]. destruct (modifier_events n lm (Hok lm eq_refl)) as [X _]. exact X.
          - exact I. }
        rewrite E4 in E. injection E as <-. split; [exact P4|]. split; [apply Fin; eapply frame_trans; eassumption|]. left.
        exists (switch n (at_press m) (set_down b (bd_down b ++ [inl (i, m)]))), (asks m).
        split; [eapply press_key; eassumption|]. split; [destruct m as [ko|lm|cb|]; try (eapply sc_key; [exact Hnew|exact Er|exact M|discriminate]); eapply sc_call; eassumption|].
        split; [exact B4|].
        assert (L3 : km_callbacks k3 = km_callbacks k) by (destruct F3 as (_ & _ & _ & _ & _ & _ & G); rewrite G; reflexivity).
        rewrite C4, C3. f_equal. destruct m as [ko|lm|cb|]; try reflexivity. cbn [press_events flat_map called asks]. now rewrite L3, app_nil_r.
      * rewrite X in E. change (km_sched k2) with (km_sched k) in E. change (timeout_of (km_ctx k2)) with (timeout_of (km_ctx k)) in E.
        destruct (sched_after pos (km_sched k) _ (dtimer i 0)) as [s| |] eqn:Es; try discriminate E. cbn [bind] in E.
        pose proof (sched_after_ok _ _ _ _ _ Es) as (Ps & Pc & _). rewrite Hs in Ps. rewrite drain0 in E by exact Ps. injection E as <-.
        split; [exact Ps|]. split; [unfold framed; cbn; auto 10|]. right.
        exists i, r, q, choices, pad, s. split; [reflexivity|]. split; [exact Hnew|]. split; [exact Er|]. split; [exact Hd|]. split; [exact Hk|].
        split; [exact Es|]. split; [reflexivity|]. split; [reflexivity|].
        split; [|reflexivity]. destruct B2 as (A1 & A2 & A3 & A4 & _ & _). split; [exact A1|]. split; [exact A2|]. split; [exact A3|]. split; [exact A4|]. split; reflexivity.
Qed.

(** ** During a dance *)
Definition dwaits (i : u16) (q : u8) (seen : list input_event) : pending_state ref cev cpks :=
  mkPending i (RTapDance q) (PksTapDance (mkTDPks (N.of_nat (taps i seen)))) (map EvInput seen).
Definition dancing_at (b : board) (i : u16) (q : u8) (choices : list ref) (pad : nat) (seen : list input_event) (k : ckeymap) : Prop :=
  km_pending k = Some (dwaits i q seen) /\ bstate (sc_scheduled (km_sched k)) b (set_pending k None)
  /\ existsb (this_key i) (bd_down b) = false /\ dance_key height q choices pad /\ (taps i seen < Nat.max 1 (length choices - 1))%nat.
Definition became (b : board) (i : u16) (choices : list ref) (c : nat) (k : ckeymap) (inq : list input_event) (k' : ckeymap) : Prop :=
  exists r m, nth_error choices c = Some r /\ means d (bd_on b) (bd_default b) r m
  /\ bstate (map (cancel_entry i) (sc_scheduled (km_sched k))) (switch n (at_press m) (set_down b (bd_down b ++ [inl (i, m)]))) k'
  /\ frame (set_inq k inq) k' /\ sc_pending (km_sched k') = []
  /\ km_calls k' = km_calls k ++ filter_map (lm_get (km_callbacks k)) (asks m).
Local Notation fuel7 f := (S (S (S (S (S (S (S (height + f)))))))).

Lemma pending_becomes b i q choices pad seen st c r f (k k' : ckeymap) : bstate (sc_scheduled (km_sched k)) b (set_pending k None) -> existsb (this_key i) (bd_down b) = false ->
  dance_key height q choices pad -> nth_error choices c = Some r -> km_pending k = Some (mkPending i (RTapDance q) st (map EvInput seen)) ->
  sc_pending (km_sched k) = [] ->
  exec conf (S (S (S (S (S (height + f)))))) (JPendingLoop (NpkKey r)) k = Ok k' ->
  became b i choices c k (wait_again i seen ++ km_inq k) k'.
Proof.
  intros Hb Hi (_ & _ & Hch) Er Hp Hs E.
  assert (Hk : board_key n d height r) by (eapply Forall_forall; [exact Hch|eapply nth_error_In; exact Er]).
  pose proof (pending_board_gen refs d pos dbg n i st seen (wait_again i seen) height _ Hk (again_wait i seen) b k _ f _ Hb Hi Hp Hs) as X. rewrite E in X.
  destruct ((_ <? _)%nat && _); [|discriminate]. destruct X as (m & k1 & M & E1 & B & F & P & C). injection E1 as <-.
  exists r, m. auto 10.
Qed.

Lemma schedule_dance T i t ie (kk k2 : ckeymap) : schedule_all conf kk (dance_timers T i t [EvInput ie]) = Ok k2 ->
  exists s1, (if presses_key i ie then sched_after pos (km_sched kk) T (dtimer i (N.of_nat (t + if presses_key i ie then 1 else 0))) = Ok s1 else s1 = km_sched kk)
  /\ k2 = set_sched kk s1.
Proof.
  clear. unfold schedule_all, sched_all. destruct ie as [j|j|ko|ko]; cbn [dance_timers presses_key]; [rewrite (N.eqb_sym j i); destruct (i =? j)|..]; cbn [fold_res].
  - intros H. inv_bind H. injection H as <-. inv_bind E. injection E as <-. exists a0. split; [|reflexivity]. replace (t + 1)%nat with (S t) by lia. exact E0.
  - intros H. injection H as <-. eexists. split; reflexivity.
  - intros H. injection H as <-. eexists. split; reflexivity.
  - intros H. injection H as <-. eexists. split; reflexivity.
  - intros H. injection H as <-. eexists. split; reflexivity.
Qed.
(** Taking an input. *)
Lemma process_dancing b i q choices pad seen f (k k' : ckeymap) ie :
  dancing_at b i q choices pad seen k -> sc_pending (km_sched k) = [] ->
  exec conf (fuel7 f) (JProcessInput ie) k = Ok k' ->
  exists s1, (if presses_key i ie then sched_after pos (km_sched k) (timeout_of (km_ctx k)) (dtimer i (N.of_nat (taps i (seen ++ [ie])))) = Ok s1 else s1 = km_sched k)
  /\ if (length choices <=? taps i (seen ++ [ie]) + 1)%nat
     then became b i choices (length choices - 1) (set_sched k s1) (wait_again i (seen ++ [ie]) ++ km_inq k) k'
     else k' = set_pending (set_sched k s1) (Some (dwaits i q (seen ++ [ie]))) /\ dancing_at b i q choices pad (seen ++ [ie]) k'.
Proof.
  intros (Hp & Hb & Hi & Hk & Ht) Hs E. pose proof Hk as (Hkey & Hlen & Hch).
  change (exec conf (fuel7 f) (JProcessInput ie) k) with (step_process_input conf (exec conf (S (S (S (S (S (S (height + f)))))))) ie k) in E.
  unfold step_process_input in E. rewrite Hp in E. unfold dwaits in E. cbn [pd_queued pd_index pd_ref pd_state] in E. inv_bind E. inv_bind E0.
  unfold push_cap in E1. destruct (_ <? _)%nat; [|discriminate]. injection E1 as <-.
  match type of E0 with exec conf (S ?f0) (JUpdatePending ?ev) ?x = _ => change (exec conf (S f0) (JUpdatePending ev) x) with (step_update_pending conf (exec conf f0) ev x) in E0 end.
  unfold step_update_pending in E0. cbn [km_pending set_pending pd_state pd_index pd_ref pd_queued kc_sys cconf composite sys_update_pending_state km_ctx] in E0.
  destruct (tap_dance_step d i (km_ctx k) q choices pad Hkey Hlen (map EvInput seen) (EvInput ie) (mkTDPks (N.of_nat (taps i seen)))) as (Eu & Hn & Hsome);
    [cbn; now rewrite presses_taps|now rewrite presses_taps|].
  cbn zeta in Eu. rewrite Eu in E0. clear Eu.
  assert (Ep : presses i (map (@EvInput cev) seen ++ [EvInput ie]) = taps i (seen ++ [ie])).
  { rewrite <- presses_taps, map_app. reflexivity. }
  assert (Er : tap_dance_rule (length choices) i (map EvInput seen) (EvInput ie)
    = if (length choices <=? taps i (seen ++ [ie]) + 1)%nat then Some (length choices - 1)%nat else None).
  { unfold tap_dance_rule. rewrite Ep. destruct (Nat.leb_spec (length choices - 1) (taps i (seen ++ [ie]))), (Nat.leb_spec (length choices) (taps i (seen ++ [ie]) + 1)); try reflexivity; lia. }
  rewrite Er in *. rewrite Ep in *. rewrite presses_taps in *.
  set (k1 := set_pending k (Some (mkPending i (RTapDance q) (PksTapDance (mkTDPks (N.of_nat (taps i seen)))) (map EvInput seen ++ [EvInput ie])))) in *.
  destruct (length choices <=? taps i (seen ++ [ie]) + 1)%nat.
  - destruct (nth_error choices (length choices - 1)) as [r|] eqn:Ec; [|now elim (Hsome _ eq_refl)]. cbn [bind] in E0. inv_bind E0.
    apply schedule_dance in E1 as (s1 & E1 & ->). rewrite <- taps_app in E1. change (km_sched (set_pending k1 _)) with (km_sched k) in E1. exists s1. split; [exact E1|].
    assert (S1 : sc_pending s1 = []). { destruct (presses_key i ie); [apply sched_after_ok in E1 as (-> & _)|subst s1]; exact Hs. }
    assert (Hb1 : bstate (sc_scheduled s1) b (set_pending (set_sched k s1) None)).
    { destruct Hb as (A1 & A2 & A3 & A4 & A5 & A6). split; [exact A1|]. split; [exact A2|]. split; [exact A3|]. split; [exact A4|]. split; reflexivity. }
    eapply (pending_becomes b i q choices pad (seen ++ [ie])) in E0; [|exact Hb1|exact Hi|exact Hk|exact Ec|cbn [km_pending set_sched set_pending]; now rewrite map_app|exact S1].
    assert (k' = a) as ->. { destruct E0 as (r' & m & _ & _ & _ & _ & P & _). rewrite drain0 in E by exact P. now injection E as <-. }
    destruct E0 as (r' & m & Z1 & Z2 & Z3 & Z4 & Z5 & Z6). exists r', m. split; [exact Z1|]. split; [exact Z2|]. split; [exact Z3|]. split; [exact Z4|]. split; [exact Z5|exact Z6].
  - cbn [bind] in E0. inv_bind E0. apply schedule_dance in E1 as (s1 & E1 & ->). rewrite <- taps_app in E1. change (km_sched (set_pending k1 _)) with (km_sched k) in E1. exists s1. split; [exact E1|].
    assert (S1 : sc_pending s1 = []). { destruct (presses_key i ie); [apply sched_after_ok in E1 as (-> & _)|subst s1]; exact Hs. }
    injection E0 as <-. rewrite drain0 in E by exact S1. injection E as <-.
    assert (Ew : dwaits i q (seen ++ [ie]) = mkPending i (RTapDance q) (PksTapDance (mkTDPks (N.of_nat (taps i (seen ++ [ie]))))) (map EvInput seen ++ [EvInput ie])) by (unfold dwaits; now rewrite map_app).
    rewrite Ew. split; [reflexivity|]. split; [cbn; now rewrite Ew|].
    split; [destruct Hb as (A1 & A2 & A3 & A4 & A5 & A6); split; [exact A1|]; split; [exact A2|]; split; [exact A3|]; split; [exact A4|]; split; reflexivity|].
    split; [exact Hi|]. split; [exact Hk|]. now apply Hn.
Qed.

(** A timer. *)
Lemma process_dtimer b i q choices pad seen f (k k' : ckeymap) c : dancing_at b i q choices pad seen k -> sc_pending (km_sched k) = [] ->
  c <= N.of_nat (taps i seen) -> (taps i seen = 0%nat \/ (taps i seen + 1 < length choices)%nat) ->
  exec conf (fuel7 f) (JHandleEvent (dtimer i c)) k = Ok k' ->
  if c =? N.of_nat (taps i seen) then became b i choices (taps i seen) k (wait_again i seen ++ km_inq k) k' else k' = k.
Proof.
  intros (Hp & Hb & Hi & Hk & Ht) Hs Hc Hm E. pose proof Hk as (Hkey & Hlen & Hch).
  change (exec conf (fuel7 f) (JHandleEvent (dtimer i c)) k) with (step_handle_event conf (exec conf (S (S (S (S (S (S (height + f)))))))) (dtimer i c) k) in E.
  unfold step_handle_event in E. cbn [run_callback dtimer] in E. inv_bind E.
  match type of E0 with exec conf (S ?f0) (JUpdatePending ?ev) ?x = _ => change (exec conf (S f0) (JUpdatePending ev) x) with (step_update_pending conf (exec conf f0) ev x) in E0 end.
  unfold step_update_pending in E0. rewrite Hp in E0. unfold dwaits in E0. cbn [km_pending set_pending pd_state pd_index pd_ref pd_queued kc_sys cconf composite sys_update_pending_state km_ctx] in E0.
  destruct (tap_dance_step d i (km_ctx k) q choices pad Hkey Hlen (map EvInput seen) (dtimer i c) (mkTDPks (N.of_nat (taps i seen)))) as (Eu & Hn & Hsome);
    [cbn; now rewrite presses_taps|now rewrite presses_taps|].
  cbn zeta in Eu. unfold dtimer in Eu, Hn, Hsome, E0. rewrite Eu in E0. clear Eu.
  assert (Ep : presses i (map (@EvInput cev) seen ++ [dtimer i c]) = taps i seen).
  { rewrite presses_app, presses_taps. cbn. lia. }
  assert (Er : tap_dance_rule (length choices) i (map EvInput seen) (dtimer i c) = if c =? N.of_nat (taps i seen) then Some (taps i seen) else None).
  { unfold tap_dance_rule, dtimer. fold (dtimer i c). rewrite Ep, N.eqb_refl. cbn [andb]. destruct (N.eqb_spec c (N.of_nat (taps i seen))) as [|Hne]; [reflexivity|].
    destruct (Nat.leb_spec (length choices - 1) (taps i seen)); [|reflexivity]. lia. }
  unfold dtimer in Er, Ep. rewrite Er in *. rewrite Ep in *.
  unfold schedule_all, sched_all in E0; cbn [dance_timers fold_res bind] in E0.
  destruct (c =? N.of_nat (taps i seen)).
  - destruct (nth_error choices (taps i seen)) as [r|] eqn:Ec; [|now elim (Hsome _ eq_refl)]. cbn [bind fold_res] in E0.
    eapply (pending_becomes b i q choices pad seen) in E0; [|exact Hb|exact Hi|exact Hk|exact Ec|reflexivity|exact Hs].
    destruct E0 as (r' & m & Z1 & Z2 & Z3 & Z4 & Z5 & Z6).
    rewrite (update_pressed_board refs d pos dbg n _ a) in E by (try apply Z3; discriminate). cbn [bind] in E.
    unfold update_context, dtimer in E. cbn [kc_sys cconf composite sys_ctx_handle_event] in E. rewrite tap_dance_ctx in E by apply Z3. cbn [bind] in E.
    unfold schedule_all, sched_all in E. cbn [fold_res bind] in E. rewrite set_sched_id in E. injection E as <-.
    exists r', m. split; [exact Z1|]. split; [exact Z2|]. split; [exact Z3|]. split; [exact Z4|]. split; [exact Z5|exact Z6].
  - cbn [bind] in E0. injection E0 as <-.
    rewrite (update_pressed_board refs d pos dbg n b) in E by (try apply Hb; discriminate). cbn [bind] in E.
    unfold update_context, dtimer in E. cbn [kc_sys cconf composite sys_ctx_handle_event km_ctx set_sched set_pending] in E. rewrite tap_dance_ctx in E by apply Hb. cbn [bind] in E.
    unfold schedule_all, sched_all in E. cbn [fold_res bind] in E. injection E as <-. clear -Hp. unfold dwaits in Hp. destruct k; cbn in *. now rewrite Hp.
Qed.

(** ** The calls *)
Variable L : list (callback * callback_fn).
Definition timers (i : u16) (t : nat) (due : N) (l : list (sch_entry cev)) : Prop :=
  Forall (fun e => en_live e = true -> exists c, en_event e = dtimer i c /\ c <= N.of_nat t /\ (c = N.of_nat t -> en_time e = due)) l
  /\ Exists (fun e => en_live e = true /\ en_event e = dtimer i (N.of_nat t)) l.
Definition dcore (s : dancing) (k : ckeymap) : Prop :=
  sc_pending (km_sched k) = [] /\ km_callbacks k = L /\ km_calls k = filter_map (lm_get L) (da_calls s)
  /\ km_inq k = da_waiting s /\ km_delay k = (if da_busy s then 1 else 0)
  /\ match da_dance s with
     | None => bstate (sc_scheduled (km_sched k)) (da_board s) k /\ Forall (fun e => en_live e = false) (sc_scheduled (km_sched k))
     | Some dn => exists q pad, dancing_at (da_board s) (dn_key dn) q (dn_choices dn) pad (dn_seen dn) k
         /\ timers (dn_key dn) (taps (dn_key dn) (dn_seen dn)) (dn_due dn) (sc_scheduled (km_sched k))
     end.

Lemma dead_cancelled i l : Forall (fun e : sch_entry cev => en_live e = true -> exists c, en_event e = dtimer i c) l -> Forall (fun e => en_live e = false) (map (cancel_entry i) l).
Proof.
  clear. induction 1 as [|e l He _ IH]; constructor; [|exact IH]. destruct e as [t ev [|]]; cbn in *.
  - destruct (He eq_refl) as (c & ->). unfold cancel_entry. cbn. now rewrite N.eqb_refl.
  - unfold cancel_entry. cbn. destruct ev as [|j ce|]; try reflexivity. now destruct (j =? i).
Qed.
Lemma insert_exists {A} (Q : A -> Prop) p x l : Q x \/ Exists Q l -> Exists Q (insert_at p x l).
Proof.
  clear. intros H. unfold insert_at. apply Exists_app. destruct H as [H|H]; [right; now left|]. rewrite <- (firstn_skipn p l) in H. apply Exists_app in H as [H|H]; [now left|]. right. now right.
Qed.
(** The dance ends. *)
Lemma became_core s0 dn c k k' : became (da_board s0) (dn_key dn) (dn_choices dn) c k (wait_again (dn_key dn) (dn_seen dn) ++ da_waiting s0) k' ->
  km_callbacks k = L -> km_calls k = filter_map (lm_get L) (da_calls s0) -> km_delay k = (if da_busy s0 then 1 else 0) ->
  Forall (fun e : sch_entry cev => en_live e = true -> exists c, en_event e = dtimer (dn_key dn) c) (sc_scheduled (km_sched k)) ->
  exists s', becomes n d s0 dn c s' /\ dcore s' k' /\ map en_time (sc_scheduled (km_sched k')) = map en_time (sc_scheduled (km_sched k))
    /\ sc_counter (km_sched k') = sc_counter (km_sched k) /\ km_ms_per_tick k' = km_ms_per_tick k.
Proof.
  intros (r & m & Er & M & B & (F1 & F2 & F3 & F4 & F5 & F6 & F7) & P & C) HL Hc Hd Hl.
  cbn [set_inq km_inq km_delay km_ms_per_tick km_sched km_callbacks] in *.
  assert (Es : sc_scheduled (km_sched k') = map (cancel_entry (dn_key dn)) (sc_scheduled (km_sched k))) by apply B.
  eexists. split; [econstructor; eassumption|]. split; [|split; [rewrite Es; apply cancelled_times|split; [exact F5|exact F4]]].
  split; [exact P|]. split; [congruence|]. cbn [da_calls da_waiting da_busy da_dance da_board]. split; [now rewrite C, HL, Hc, filter_map_app|].
  split; [exact F1|]. split; [congruence|]. rewrite Es. split; [exact B|]. now apply dead_cancelled.
Qed.

Lemma core_dtake f s (k k' : ckeymap) x w : dcore s k -> km_inq k = x :: w -> let T := timeout_of (km_ctx k) in
  exec conf (fuel7 f) (JProcessInput x) (set_inq k w) = Ok k' ->
  exists s', takes n refs d T (sc_counter (km_sched k)) s s' /\ dcore s' (set_delay k' INPUT_QUEUE_TICK_DELAY) /\ da_busy s' = true
  /\ sc_counter (km_sched k') = sc_counter (km_sched k) /\ km_ms_per_tick k' = km_ms_per_tick k
  /\ (map en_time (sc_scheduled (km_sched k')) = map en_time (sc_scheduled (km_sched k))
      \/ exists e s1, sched_after pos (km_sched k) T e = Ok s1 /\ map en_time (sc_scheduled (km_sched k')) = map en_time (sc_scheduled s1)).
Proof.
  intros (Hs & HL & Hc & Hq & Hd & X) Hw T E. rewrite Hw in Hq. symmetry in Hq.
  destruct (da_dance s) as [[i choices seen due]|] eqn:Ed; cbn [dn_key dn_choices dn_seen dn_due] in X.
  - destruct X as (q & pad & Hat & Hti & Hex).
    destruct (process_dancing (da_board s) i q choices pad seen f (set_inq k w) k' x Hat Hs E) as (s1 & Es & PP). cbn [set_inq km_sched km_ctx km_inq] in *. fold T in Es.
    assert (Ec : sc_counter s1 = sc_counter (km_sched k) /\ sc_pending s1 = []).
    { destruct (presses_key i x); [apply sched_after_ok in Es as (-> & -> & _)|subst s1]; auto. }
    assert (Hl1 : timers i (taps i (seen ++ [x])) (if presses_key i x then sc_counter (km_sched k) + T else due) (sc_scheduled s1)).
    { rewrite taps_app in Es |- *. destruct (presses_key i x).
      - apply sched_after_ok in Es as (_ & _ & -> & _). split.
        + apply insert_forall.
          * cbn [en_live en_event en_time]. intros _. eexists. split; [reflexivity|]. split; [lia|reflexivity].
          * eapply Forall_impl; [|exact Hti]. intros e He Hlv. destruct (He Hlv) as (c & E1 & E2 & E3). exists c. split; [exact E1|]. split; [unfold u8 in *; lia|]. intros Y. unfold u8 in *. lia.
        + apply insert_exists. left. cbn. auto.
      - subst s1. rewrite Nat.add_0_r. split; assumption. }
    destruct Ec as (Ec & Ep).
    assert (Hti1 : map en_time (sc_scheduled s1) = map en_time (sc_scheduled (km_sched k)) \/ exists e s2, sched_after pos (km_sched k) T e = Ok s2 /\ map en_time (sc_scheduled s1) = map en_time (sc_scheduled s2)).
    { destruct (presses_key i x); [right; eexists; exists s1; split; [exact Es|reflexivity]|left; now subst s1]. }
    destruct (Nat.leb_spec (length choices) (taps i (seen ++ [x]) + 1)) as [Hle|Hlt].
    + destruct (became_core (mkDancing (da_board s) None w true (da_calls s)) (mkDance i choices (seen ++ [x]) due) (length choices - 1) (set_delay (set_inq (set_sched k s1) w) 1) (set_delay k' 1)) as (s' & B1 & B2 & B3 & B4 & B5); cbn [dn_key dn_choices dn_seen dn_due da_board da_waiting da_busy da_calls set_sched set_inq km_sched km_callbacks km_calls].
      * destruct PP as (r & m & Z1 & Z2 & Z3 & Z4 & Z5 & Z6). exists r, m. split; [exact Z1|]. split; [exact Z2|]. split; [exact Z3|]. split; [|split; [exact Z5|exact Z6]].
        unfold frame in *. cbn [set_delay set_inq set_sched km_inq km_delay km_idle km_ms_per_tick km_sched km_ctx km_callbacks] in *. tauto.
      * exact HL.
      * exact Hc.
      * reflexivity.
      * destruct Hl1 as (Hl1 & _). eapply Forall_impl; [|exact Hl1]. intros e He Hlv. destruct (He Hlv) as (c & E1 & _). now exists c.
      * exists s'. split; [eapply takes_last; [exact Ed|exact Hq|exact Hle|exact B1]|]. split; [exact B2|].
        split; [inversion B1; reflexivity|]. cbn [set_delay set_inq set_sched km_sched km_ms_per_tick] in *. split; [congruence|]. split; [exact B5|]. rewrite B3. exact Hti1.
    + destruct PP as (-> & Hat'). eexists. split; [eapply takes_on; [exact Ed|exact Hq|exact Hlt]|].
      cbn [set_delay set_inq set_sched set_pending km_sched km_ms_per_tick] in *. split; [|split; [reflexivity|split; [exact Ec|split; [reflexivity|exact Hti1]]]].
      split; [exact Ep|]. split; [exact HL|]. split; [exact Hc|]. split; [reflexivity|]. split; [reflexivity|]. cbn [da_dance da_board dn_key dn_choices dn_seen dn_due].
      exists q, pad. split; [exact Hat'|exact Hl1].
  - destruct X as (Hb & Hdead).
    replace (S (S (S (S (S (S (S (height + f)))))))) with (fuel4 (3 + f)) in E by lia.
    destruct (process_dance (sc_scheduled (km_sched k)) (3 + f) (da_board s) (set_inq k w) k' x Hb Hs E) as (g & Eg & P & (F1 & F2 & F3 & F4 & F5 & F6 & F7) & X).
    cbn [set_inq km_inq km_sched km_ms_per_tick km_callbacks km_ctx km_calls] in *.
    destruct X as [(b' & cs & Hst & Hcs & B & C)|(i & r & q & choices & pad & s1 & -> & Hi & Er & Hda & Hk & Es & Hp & Hks & B & C)].
    + assert (Esc : sc_scheduled (km_sched k') = sc_scheduled (km_sched k)) by apply B.
      eexists. split; [eapply takes_key; [exact Ed|exact Hq|exact Hst|exact Hcs]|]. split; [|split; [reflexivity|split; [exact F5|split; [exact F4|left; now rewrite Esc]]]].
      split; [exact P|]. cbn [set_delay km_callbacks km_calls km_inq km_sched km_delay da_calls da_waiting da_busy da_dance da_board]. split; [congruence|]. split; [now rewrite C, HL, Hc, filter_map_app|]. split; [exact F1|]. split; [reflexivity|].
      rewrite Esc. split; [exact B|exact Hdead].
    + fold T in Es. pose proof (sched_after_ok _ _ _ _ _ Es) as (Ps & Pc & Ei & _).
      eexists. split; [eapply takes_dance; [exact Ed|exact Hq|exact Hi|exact Er|exact Hda]|]. split; [|split; [reflexivity|split; [exact F5|split; [exact F4|right; exists (dtimer i 0), s1; split; [exact Es|now rewrite Hks]]]]].
      split; [exact P|]. cbn [set_delay km_callbacks km_calls km_inq km_sched km_delay da_calls da_waiting da_busy da_dance da_board]. split; [congruence|]. split; [congruence|]. split; [exact F1|]. split; [reflexivity|].
      cbn [dn_key dn_choices dn_seen dn_due]. exists q, pad. split; [split; [exact Hp|split; [change (km_sched (set_delay k' INPUT_QUEUE_TICK_DELAY)) with (km_sched k'); rewrite Hks; exact B|split; [exact Hi|split; [exact Hk|unfold taps; cbn [filter length]; lia]]]]|].
      rewrite Hks, Ei. split.
      * apply insert_forall; [cbn [en_live en_event en_time]; intros _; exists 0; split; [reflexivity|split; [cbn; lia|reflexivity]]|]. eapply Forall_impl; [|exact Hdead]. intros e He Y. congruence.
      * apply insert_exists. left. split; reflexivity.
Qed.

Lemma core_dtimer f s (k k' : ckeymap) s0 : dcore s k -> sched_tick (km_sched k) (km_ms_per_tick k) = Ok s0 ->
  exec conf (S (fuel7 f)) JHandlePending (set_sched k s0) = Ok k' ->
  exists up s', passes n d (sc_counter (km_sched k) + km_ms_per_tick k) s up s' /\ dcore s' k'
  /\ map en_time (sc_scheduled (km_sched k')) = map en_time (sc_scheduled s0).
Proof.
  intros (Hs & HL & Hc & Hq & Hd & X) Et E.
  unfold sched_tick in Et. inv_bind Et. unfold u32_add in E0. destruct (_ <=? u32_max); [|discriminate]. injection E0 as <-.
  assert (Same : forall sch c, sch = sc_scheduled (km_sched k) -> dcore s (set_sched k (mkSched [] sch c))).
  { intros sch c ->. split; [reflexivity|]. split; [exact HL|]. split; [exact Hc|]. split; [exact Hq|]. split; [exact Hd|]. cbn [set_sched km_sched sc_scheduled].
    destruct (da_dance s) as [dn|].
    - destruct X as (q & pad & (U1 & (A1 & A2 & A3 & A4 & A5 & A6) & U3) & Hti). exists q, pad. split; [|exact Hti]. split; [exact U1|]. split; [|exact U3].
      split; [exact A1|split; [exact A2|split; [exact A3|split; [exact A4|split; [reflexivity|exact A6]]]]].
    - destruct X as ((A1 & A2 & A3 & A4 & A5 & A6) & Hdead). split; [|exact Hdead]. split; [exact A1|split; [exact A2|split; [exact A3|split; [exact A4|split; [reflexivity|exact A6]]]]]. }
  assert (Idle : exec conf (S (fuel7 f)) JHandlePending (set_sched k (mkSched (sc_pending (km_sched k)) (sc_scheduled (km_sched k)) (sc_counter (km_sched k) + km_ms_per_tick k))) = Ok k' ->
    exists up s', passes n d (sc_counter (km_sched k) + km_ms_per_tick k) s up s' /\ dcore s' k' /\ map en_time (sc_scheduled (km_sched k')) = map en_time (sc_scheduled (km_sched k))).
  { intros Y. rewrite drain0 in Y by exact Hs. injection Y as <-. rewrite Hs. exists false, s. split; [constructor|]. split; [now apply Same|reflexivity]. }
  destruct (last_opt (sc_scheduled (km_sched k))) as [en|] eqn:El; [|injection Et as <-; now apply Idle].
  destruct (N.leb_spec (en_time en) (sc_counter (km_sched k) + km_ms_per_tick k)) as [Hle|_]; [|injection Et as <-; now apply Idle]. clear Idle.
  rewrite Hs in Et. unfold push_cap in Et. change (length (@nil (option (event cev))) <? PENDING_CAPACITY)%nat with true in Et. cbn [bind app] in Et. injection Et as <-.
  pose proof (last_opt_spec _ _ El) as Esp.
  set (k1 := set_sched k (mkSched [] (removelast (sc_scheduled (km_sched k))) (sc_counter (km_sched k) + km_ms_per_tick k))) in *.
  assert (Keep : (forall dn, da_dance s = Some dn -> ~ (en_live en = true /\ en_event en = dtimer (dn_key dn) (N.of_nat (taps (dn_key dn) (dn_seen dn))))) -> dcore s k1).
  { intros Hno. split; [reflexivity|]. split; [exact HL|]. split; [exact Hc|]. split; [exact Hq|]. split; [exact Hd|]. cbn [k1 set_sched km_sched sc_scheduled].
    destruct (da_dance s) as [dn|].
    - destruct X as (q & pad & (U1 & (A1 & A2 & A3 & A4 & A5 & A6) & U3) & Hti & Hex). exists q, pad. split.
      + split; [exact U1|]. split; [|exact U3]. split; [exact A1|split; [exact A2|split; [exact A3|split; [exact A4|split; [reflexivity|exact A6]]]]].
      + split; [now apply removelast_forall|]. rewrite Esp in Hex. apply Exists_app in Hex as [Hex|Hex]; [exact Hex|]. exfalso. inversion Hex as [? ? Y|? ? Y]; subst; [|inversion Y]. now apply (Hno dn).
    - destruct X as ((A1 & A2 & A3 & A4 & A5 & A6) & Hdead). split; [|now apply removelast_forall]. split; [exact A1|split; [exact A2|split; [exact A3|split; [exact A4|split; [reflexivity|exact A6]]]]]. }
  destruct (en_live en) eqn:Eli.
  2:{ cbn [exec step] in E. unfold step_handle_pending, sched_dequeue in E. cbn in E. injection E as <-. exists false, s. split; [constructor|]. split; [|reflexivity]. apply Keep. intros dn _ (Y & _). discriminate. }
  destruct (da_dance s) as [dn|] eqn:Ed.
  2:{ destruct X as (_ & Hdead). pose proof (last_opt_forall _ _ _ Hdead El) as Z. cbn in Z. congruence. }
  destruct X as (q & pad & Hat & Hti & Hex). pose proof (last_opt_forall _ _ _ Hti El) as Z. cbn in Z. destruct (Z Eli) as (c & Ev & Hcl & Htime). clear Z.
  change (exec conf (S (fuel7 f)) JHandlePending ?x) with (step_handle_pending (exec conf (fuel7 f)) x) in E.
  unfold step_handle_pending, sched_dequeue in E. cbn [km_sched set_sched sc_pending sc_scheduled sc_counter] in E. rewrite Ev in E. inv_bind E.
  change (exec conf (fuel7 f) (JHandleEvent (dtimer (dn_key dn) c)) k1 = Ok a) in E0.
  assert (Hat1 : dancing_at (da_board s) (dn_key dn) q (dn_choices dn) pad (dn_seen dn) k1).
  { destruct Hat as (U1 & (A1 & A2 & A3 & A4 & A5 & A6) & U3). split; [exact U1|]. split; [|exact U3].
    split; [exact A1|split; [exact A2|split; [exact A3|split; [exact A4|split; [reflexivity|exact A6]]]]]. }
  assert (Hm : taps (dn_key dn) (dn_seen dn) = 0%nat \/ (taps (dn_key dn) (dn_seen dn) + 1 < length (dn_choices dn))%nat).
  { destruct Hat as (_ & _ & _ & _ & Y). lia. }
  pose proof (process_dtimer _ _ _ _ _ _ _ _ _ _ Hat1 eq_refl Hcl Hm E0) as D.
  destruct (N.eqb_spec c (N.of_nat (taps (dn_key dn) (dn_seen dn)))) as [Hce|Hne].
  - change (km_inq k1) with (km_inq k) in D. rewrite Hq in D.
    destruct (became_core s dn _ k1 a D HL Hc Hd) as (s' & B1 & B2 & B3 & _).
    { cbn. apply removelast_forall. eapply Forall_impl; [|exact Hti]. intros e He Y. destruct (He Y) as (c' & Y1 & _). now exists c'. }
    pose proof B2 as (Ps & _). rewrite drain0 in E by exact Ps. injection E as <-. exists true, s'. split; [|split; [exact B2|exact B3]].
    apply (passes_up n d _ s dn); [exact Ed|rewrite <- (Htime Hce); exact Hle|exact B1].
  - subst a. rewrite drain0 in E by reflexivity. injection E as <-. exists false, s. split; [constructor|]. split; [|reflexivity]. apply Keep.
    intros dn' Y (_ & Y2). injection Y as <-. rewrite Ev in Y2. unfold dtimer in Y2. injection Y2 as Y2. contradiction.
Qed.
End DanceBoard.

Section DanceRun.
Variables (refs : list ref) (d : key_data) (pos : position_fn) (dbg : bool) (cf : config) (height f : nat).
Hypothesis Hrefs : Forall (dance_board_key (cf_layer_count cf) d height) refs.
Variable L : list (callback * callback_fn).
Local Notation conf := (cconf refs d pos dbg).
Local Notation n := (cf_layer_count cf).
Local Notation T := (tdc_timeout (cf_tap_dance cf)).
Local Notation k0 := (set_callbacks (km_new (ctx_from_config cf)) L).
Local Notation fuel := (S (S (S (S (S (S (S (S (height + f))))))))).
Local Notation dcore := (dcore d n height L).

Lemma dcore_same s s' (k k' : ckeymap) : dcore s k -> da_board s' = da_board s -> da_dance s' = da_dance s -> da_calls s' = da_calls s ->
  km_inq k' = da_waiting s' -> km_delay k' = (if da_busy s' then 1 else 0) ->
  km_pressed k' = km_pressed k -> km_sched k' = km_sched k -> km_pending k' = km_pending k -> km_callbacks k' = km_callbacks k -> km_calls k' = km_calls k ->
  (calm (km_ctx k) -> calm (km_ctx k')) -> cx_layered (km_ctx k') = cx_layered (km_ctx k) -> dcore s' k'.
Proof.
  clear. intros (Hs & HL & Hc & Hq & Hd & X) Eb Ed Ec E1 E2 E3 E4 E5 E6 E7 E8 E9. split; [now rewrite E4|]. split; [congruence|]. split; [congruence|]. split; [exact E1|]. split; [exact E2|].
  rewrite Ed, Eb, E4. destruct (da_dance s) as [dn|].
  - destruct X as (q & pad & (U1 & (A1 & A2 & A3 & A4 & A5 & A6) & U3) & Hti). exists q, pad. split; [|exact Hti]. split; [now rewrite E5|]. split; [|exact U3]. rewrite E4.
    split; [now apply E8|]. split; [unfold layers_of in *; cbn in *; now rewrite E9|]. split; [cbn; now rewrite E3|]. split; [exact A4|]. split; [cbn; now rewrite E4|reflexivity].
  - destruct X as ((A1 & A2 & A3 & A4 & A5 & A6) & Hdead). split; [|exact Hdead].
    split; [now apply E8|]. split; [unfold layers_of in *; now rewrite E9|]. split; [now rewrite E3|]. split; [exact A4|]. split; [now rewrite E4|congruence].
Qed.
Lemma op_dance ops s (k k' : ckeymap) o : Forall (fun o => plain_op o = true) (ops ++ [o]) -> run_ops conf fuel ops k0 = Ok k -> dcore s k ->
  run_op conf fuel k o = Ok k' -> exists up s', dance_call n refs d T ops s o up s' /\ dcore s' k'.
Proof.
  intros Hops Hrun Hc H. apply Forall_app in Hops as (Hops & Ho). inversion Ho as [|? ? Hop _]; subst. clear Ho.
  pose proof (plain_basic _ Hops) as (_ & Hti).
  assert (Hcf : tdc_timeout (tdx_config (cx_tap_dance (km_ctx k))) = T) by (pose proof (run_ops_config _ _ _ _ _ _ _ _ Hrun) as (_ & A & _); now rewrite A).
  assert (Hck : clocks_run ops = mkClocks (sc_counter (km_sched k)) (km_idle k) (km_ms_per_tick k)).
  { symmetry. exact (run_ops_clock _ fuel ops Hti _ _ Hrun). }
  assert (Hnow : now_after ops = sc_counter (km_sched k)) by (unfold now_after; now rewrite Hck).
  pose proof Hc as (Hs & HL & Hcl & Hq & Hd & _).
  destruct o as [ev| |dd ev| | | |ms|c g]; try discriminate Hop; cbn [run_op] in *.
  - (* an input *)
    exists false. unfold km_handle_input in H. cbn zeta in H. change (km_inq (set_idle k 0)) with (km_inq k) in H. change INPUT_QUEUE_CAPACITY with 31%nat in H.
    destruct (Nat.ltb_spec (length (km_inq k)) 31) as [Hl|Hl].
    2:{ injection H as <-. exists s. split; [constructor; now rewrite <- Hq|]. eapply dcore_same; [exact Hc|..]; try reflexivity; auto. }
    rewrite Hq in Hl.
    set (k1 := set_inq (set_idle k 0) (km_inq k ++ [ev])) in *.
    assert (Hc1 : dcore (heard s ev) k1). { eapply dcore_same; [exact Hc|..]; try reflexivity; auto. cbn. now rewrite Hq. }
    change (km_delay k1) with (km_delay k) in H. rewrite Hd in H. destruct (da_busy s) eqn:Eb; cbn [N.eqb] in H.
    { injection H as <-. exists (heard s ev). split; [|exact Hc1]. apply dc_input; [exact Hl|]. unfold turn. cbn [heard da_busy]. now rewrite Eb. }
    destruct (km_inq k1) as [|x w] eqn:Eq; [destruct (km_inq k); discriminate|]. change (0 =? 0) with true in H. cbn iota in H. inv_bind H. injection H as <-.
    assert (Ex : exec conf (S (S (S (S (S (S (S (height + (1 + f))))))))) (JProcessInput x) (set_inq k1 w) = Ok a).
    { replace (height + (1 + f))%nat with (S (height + f)) by lia. exact E. }
    destruct (core_dtake refs d pos dbg n height Hrefs L (1 + f) _ k1 a x w Hc1 Eq Ex) as (s' & Ht & Hc' & _). exists s'. split; [|exact Hc'].
    apply dc_input; [exact Hl|]. unfold turn. cbn [heard da_busy]. rewrite Eb, Hnow. change (km_ctx k1) with (km_ctx k) in Ht. rewrite Hcf in Ht. exact Ht.
  - (* a tick *)
    rewrite tick_step in H. cbn zeta in H. set (k1 := set_ctx k _) in H.
    assert (Hc1 : dcore s k1). { eapply dcore_same; [exact Hc|..]; try reflexivity; auto. }
    inv_bind H. change (if 0 <? km_delay a then set_delay a (km_delay a - 1) else a) with (slowed a) in H. inv_bind H. inv_bind H. inv_bind H. injection H as <-.
    assert (X : exists s1, turn n refs d T (now_after ops) s s1 /\ dcore s1 a /\ sc_counter (km_sched a) = sc_counter (km_sched k) /\ km_ms_per_tick a = km_ms_per_tick k).
    { unfold turn. rewrite Hnow. destruct (da_busy s) eqn:Eb.
      - exists s. split; [reflexivity|]. assert (a = k1) as ->; [|split; [exact Hc1|auto]]. destruct (km_inq k); [now injection E as <-|]. rewrite Hd in E. now injection E as <-.
      - destruct (km_inq k) as [|x w] eqn:Eq.
        { exists s. split; [now constructor|]. injection E as <-. auto. }
        rewrite Hd in E. change (0 =? 0) with true in E. cbn iota in E. inv_bind E. injection E as <-.
        assert (Ex : exec conf (S (S (S (S (S (S (S (height + (1 + f))))))))) (JProcessInput x) (set_inq k1 w) = Ok a3).
        { replace (height + (1 + f))%nat with (S (height + f)) by lia. exact E3. }
        destruct (core_dtake refs d pos dbg n height Hrefs L (1 + f) _ k1 a3 x w Hc1 Eq Ex) as (s' & Ht & Hc' & _ & Hn & Hm & _). exists s'.
        change (tdc_timeout (tdx_config (cx_tap_dance (km_ctx k1)))) with (tdc_timeout (tdx_config (cx_tap_dance (km_ctx k)))) in Ht. rewrite Hcf in Ht. auto. }
    destruct X as (s1 & Ht & Hc2 & Hn & Hm).
    assert (Hd2 : km_delay a = if da_busy s1 then 1 else 0) by apply Hc2.
    assert (Hc3 : dcore (rested s1) (slowed a) /\ sc_counter (km_sched (slowed a)) = sc_counter (km_sched k) /\ km_ms_per_tick (slowed a) = km_ms_per_tick k).
    { pose proof Hc2 as (_ & _ & _ & Hq2 & _). unfold slowed. rewrite Hd2. destruct (da_busy s1); cbn [N.ltb N.compare N.sub]; (split; [|split; assumption]); (eapply dcore_same; [exact Hc2|..]; try reflexivity; auto). }
    destruct Hc3 as (Hc3 & Hn3 & Hm3).
    destruct (core_dtimer refs d pos dbg n height L f _ _ a1 _ Hc3 E0 E1) as (up & s2 & Hp & Hc4 & _). rewrite Hn3, Hm3 in Hp.
    exists up, s2. split.
    + eapply dc_tick; [exact Ht|]. unfold now_after, clocks_run in *. rewrite fold_left_app, Hck. exact Hp.
    + pose proof Hc4 as (_ & _ & _ & Q4 & D4 & _). eapply dcore_same; [exact Hc4|..]; try reflexivity; auto.
  - (* a report *)
    exists false, s. split; [constructor|]. unfold km_report_output in H. inv_bind H. inv_bind E. injection E as <-. injection H as <-.
    eapply dcore_same; [exact Hc|..]; try reflexivity; auto.
  - exists false, s. split; [constructor|]. injection H as <-. eapply dcore_same; [exact Hc|..]; try reflexivity; auto.
Qed.
Lemma dcore_new : dcore dancing_new k0.
Proof.
  clear. split; [reflexivity|]. split; [reflexivity|]. split; [reflexivity|]. split; [reflexivity|]. split; [reflexivity|]. split; [|constructor].
  split; [apply calm_new|]. split; [|split; [constructor|split; [constructor|split; reflexivity]]]. unfold layers_of. cbn. rewrite repeat_length. split; [reflexivity|].
  split; [intros x; apply is_on_new|]. split; [reflexivity|discriminate].
Qed.
Lemma run_dance ops k : Forall (fun o => plain_op o = true) ops -> run_ops conf fuel ops k0 = Ok k -> exists ups s, dance_run n refs d T ops ups s /\ dcore s k.
Proof.
  revert k. induction ops as [|o ops IH] using rev_ind; intros k Ho H.
  - injection H as <-. exists [], dancing_new. split; [constructor|apply dcore_new].
  - rewrite run_ops_app in H. inv_bind H. unfold run_ops in H. cbn [fold_res] in H. inv_bind H. injection H as <-.
    destruct (IH a) as (ups & s & Hr & Hc); [now apply Forall_app in Ho|exact E|].
    destruct (op_dance ops s a a0 o Ho E Hc E0) as (up & s' & Hcall & Hc'). exists (ups ++ [up]), s'. split; [econstructor; eassumption|exact Hc'].
Qed.
End DanceRun.

(** ** The keyboard is determined by the calls and the times that were up *)
Lemma dances_fun d on on' def r c1 c2 : (forall l, on l = on' l) -> dances d on def r c1 -> dances d on' def r c2 -> c1 = c2.
Proof.
  intros He H. revert c2. induction H as [q c pad Hq|i k r c Hk Ha Hm IH]; intros c2 H2.
  - inversion H2 as [q' c' pad' Hq'|]; subst. rewrite Hq in Hq'. injection Hq' as Hq'. clear -Hq'. revert c2 Hq'. induction c as [|x c IH]; intros [|y c2] H; cbn in H; [reflexivity| | |].
    + destruct pad; discriminate.
    + destruct pad'; discriminate.
    + injection H as -> H. f_equal. now apply IH.
  - inversion H2 as [|i' k' r' c' Hk' Ha' Hm']; subst. assert (k' = k) as -> by congruence. apply IH.
    assert (r' = r) as <- by (eapply acts_as_fun; [exact Ha'|]; eapply acts_as_ext; [|exact Ha]; intros l; cbn; rewrite He; reflexivity). exact Hm'.
Qed.
Lemma dances_not_means d on on' def r c m : (forall l, on l = on' l) -> dances d on def r c -> means d on' def r m -> False.
Proof.
  intros He H. induction H as [q c pad Hq|i k r c Hk Ha Hm IH]; intros H2.
  - inversion H2; subst; contradiction.
  - inversion H2 as [? ? Hp| | |i' k' r' m' Hk' Ha' Hm']; subst; [contradiction|]. assert (k' = k) as -> by congruence. apply IH.
    assert (r' = r) as <- by (eapply acts_as_fun; [exact Ha'|]; eapply acts_as_ext; [|exact Ha]; intros l; cbn; rewrite He; reflexivity). exact Hm'.
Qed.
Lemma step_calls_fun refs d b1 b2 ie c1 c2 : same_board b1 b2 -> step_calls refs d b1 ie c1 -> step_calls refs d b2 ie c2 -> c1 = c2.
Proof.
  intros (A & B & C) H1 H2.
  destruct H1 as [i r cb Hi Er M|i r m Hi Er M Hno|i Hi|ie Hno]; inversion H2 as [i' r' cb' Hi' Er' M'|i' r' m' Hi' Er' M' Hno'|i' Hi'|ie'' Hno']; subst;
    try (now elim (Hno i)); try (now elim (Hno' i)); try (now elim (Hno i')); try (rewrite A in Hi; congruence); try reflexivity;
    rewrite <- C in M'; assert (r' = r) as -> by congruence; pose proof (means_fun _ _ _ _ _ _ _ B M M') as X.
  - congruence.
  - now elim (Hno' cb).
  - now elim (Hno cb').
Qed.
Section DanceFun.
Variables (n : nat) (refs : list ref) (d : key_data) (T : N).
Definition tidy (s : dancing) : Prop :=
  NoDup (keys_down (shape (da_board s))) /\ forall dn, da_dance s = Some dn -> existsb (this_key (dn_key dn)) (bd_down (da_board s)) = false.
Lemma becomes_tidy s dn c s' : NoDup (keys_down (shape (da_board s))) -> existsb (this_key (dn_key dn)) (bd_down (da_board s)) = false -> becomes n d s dn c s' -> tidy s'.
Proof.
  intros Hn Hk [r m Er M]. split; [|discriminate]. cbn [da_board]. unfold shape. rewrite switch_down. cbn [set_down bd_down]. rewrite map_app, keys_app. cbn.
  apply nodup_snoc; [exact Hn|]. intros X. apply is_key_In in X. unfold shape in X. rewrite this_forget in X. congruence.
Qed.
Lemma takes_tidy now s s' : tidy s -> takes n refs d T now s s' -> tidy s'.
Proof.
  intros (Hn & Hk) H. destruct H as [Hw|x w b' cs Hd Hw Hst Hcs|i w r choices Hd Hw Hi Er Hda|i choices seen due x w Hd Hw Hl|i choices seen due x w s' Hd Hw Hl Hb].
  - split; assumption.
  - split; [|discriminate]. cbn [da_board]. rewrite (step_shape _ _ _ _ _ _ Hst). now apply down_step_nodup.
  - split; [exact Hn|]. cbn. intros dn E. injection E as <-. exact Hi.
  - split; [exact Hn|]. cbn. intros dn E. injection E as <-. exact (Hk _ Hd).
  - eapply becomes_tidy; [| |exact Hb]; [exact Hn|exact (Hk _ Hd)].
Qed.
Lemma turn_tidy now s s' : tidy s -> turn n refs d T now s s' -> tidy s'.
Proof. unfold turn. destruct (da_busy s); [now intros H ->|apply takes_tidy]. Qed.
Lemma call_tidy before s o up s' : tidy s -> dance_call n refs d T before s o up s' -> tidy s'.
Proof.
  intros H C. destruct C as [x Hl|x s' Hl Ht|s1 up s2 Ht Hp| |ms]; try exact H.
  - eapply turn_tidy; [|exact Ht]. exact H.
  - apply (turn_tidy _ _ _ H) in Ht. destruct Hp as [|dn s2 Hd Hdue Hb]; [exact Ht|]. destruct Ht as (Hn & Hk). eapply becomes_tidy; [| |exact Hb]; [exact Hn|exact (Hk _ Hd)].
Qed.
Lemma run_tidy ops ups s : dance_run n refs d T ops ups s -> tidy s.
Proof. induction 1 as [|ops ups s o up s' _ IH Hc]; [split; [constructor|discriminate]|]. eapply call_tidy; eassumption. Qed.

Lemma becomes_fun s1 s2 dn c s1' s2' : same_dancing s1 s2 -> becomes n d s1 dn c s1' -> becomes n d s2 dn c s2' -> same_dancing s1' s2'.
Proof.
  intros ((A & B & C) & D & W & U & K) H1 H2. destruct H1 as [r1 m1 E1 M1], H2 as [r2 m2 E2 M2]. assert (r2 = r1) as -> by congruence. rewrite <- C in M2.
  rewrite <- (means_fun _ _ _ _ _ _ _ B M1 M2), W, U, K. split; [|repeat split]. cbn [da_board]. apply switch_same. split; [cbn; now rewrite A|]. split; [exact B|exact C].
Qed.
Lemma takes_fun now s1 s2 s1' s2' : tidy s1 -> same_dancing s1 s2 -> takes n refs d T now s1 s1' -> takes n refs d T now s2 s2' -> same_dancing s1' s2'.
Proof.
  intros (Hn & _) Hs H1 H2. pose proof Hs as ((A & B & C) & D & W & U & K).
  assert (Hx : forall i r ch x b' w, da_waiting s1 = x :: w -> x = Press i -> existsb (this_key i) (bd_down (da_board s1)) = false -> nth_error refs (N.to_nat i) = Some r ->
    dances d (bd_on (da_board s1)) (bd_default (da_board s1)) r ch -> forall b2, same_board (da_board s1) b2 -> board_step n refs d b2 x b' -> False).
  { intros i r ch x b' w _ -> Hi Er Hda b2 (A2 & B2 & C2) Hst. inversion Hst as [i' Hi'|i' r' m' Hi' Er' M'| | | |]; subst; [rewrite <- A2 in *; congruence|].
    assert (r' = r) as -> by congruence. rewrite <- C2 in M'. eapply dances_not_means; eassumption. }
  assert (Hsym : same_board (da_board s2) (da_board s1)) by (split; [now symmetry|]; split; [intros l; now symmetry|now symmetry]).
  destruct H1 as [Hw|x w b' cs Hd Hw Hst Hcs|i w r choices Hd Hw Hi Er Hda|i choices seen due x w Hd Hw Hl|i choices seen due x w s' Hd Hw Hl Hb];
    inversion H2 as [Hw2|x2 w2 b2 cs2 Hd2 Hw2 Hst2 Hcs2|i2 w2 r2 choices2 Hd2 Hw2 Hi2 Er2 Hda2|i2 choices2 seen2 due2 x2 w2 Hd2 Hw2 Hl2|i2 choices2 seen2 due2 x2 w2 s2'' Hd2 Hw2 Hl2 Hb2]; subst; try congruence.
  - assert (x2 = x /\ w2 = w) as (-> & ->) by (rewrite <- W, Hw in Hw2; injection Hw2; auto). rewrite <- K, <- (step_calls_fun _ _ _ _ _ _ _ (proj1 Hs) Hcs Hcs2). split; [|repeat split].
    cbn [da_board]. eapply step_fun; [exact (proj1 Hs)|exact Hn|exact Hst|exact Hst2].
  - assert (Press i2 = x) as <- by (rewrite <- W, Hw in Hw2; injection Hw2; congruence). exfalso. pose proof Hsym as (A' & B' & C').
    inversion Hst as [i' Hi'|i' r' m' Hi' Er' M'| | | |]; subst; [rewrite A in *; congruence|]. assert (r' = r2) as -> by congruence. rewrite <- C' in M'. eapply dances_not_means; [|exact Hda2|exact M']. exact B'.
  - assert (x2 = Press i) as -> by (rewrite <- W, Hw in Hw2; injection Hw2; congruence). exfalso. eapply Hx; [exact Hw|reflexivity|exact Hi|exact Er|exact Hda|exact (proj1 Hs)|exact Hst2].
  - assert (i2 = i /\ w2 = w) as (-> & ->) by (rewrite <- W, Hw in Hw2; injection Hw2; auto). assert (r2 = r) as -> by congruence. rewrite <- C in Hda2. rewrite <- K, <- (dances_fun _ _ _ _ _ _ _ B Hda Hda2).
    split; [exact (proj1 Hs)|repeat split].
  - rewrite <- D, Hd in Hd2. injection Hd2 as <- <- <- <-. rewrite <- W, Hw in Hw2. injection Hw2 as <- <-. rewrite <- K. split; [exact (proj1 Hs)|repeat split].
  - rewrite <- D, Hd in Hd2. injection Hd2 as <- <- <- <-. rewrite <- W, Hw in Hw2. injection Hw2 as <- <-. lia.
  - rewrite <- D, Hd in Hd2. injection Hd2 as <- <- <- <-. rewrite <- W, Hw in Hw2. injection Hw2 as <- <-. lia.
  - rewrite <- D, Hd in Hd2. injection Hd2 as <- <- <- <-. rewrite <- W, Hw in Hw2. injection Hw2 as <- <-. rewrite <- K in Hb2. eapply becomes_fun; [|exact Hb|exact Hb2].
    split; [exact (proj1 Hs)|repeat split].
Qed.
Lemma turn_fun now s1 s2 s1' s2' : tidy s1 -> same_dancing s1 s2 -> turn n refs d T now s1 s1' -> turn n refs d T now s2 s2' -> same_dancing s1' s2'.
Proof.
  intros Ht Hs H1 H2. unfold turn in *. pose proof Hs as (_ & _ & _ & U & _). rewrite <- U in H2. destruct (da_busy s1); [now subst|]. eapply takes_fun; eassumption.
Qed.
Lemma call_fun before s1 s2 o up s1' s2' : tidy s1 -> same_dancing s1 s2 -> dance_call n refs d T before s1 o up s1' -> dance_call n refs d T before s2 o up s2' -> same_dancing s1' s2'.
Proof.
  intros Ht Hs H1 H2. pose proof Hs as (A & D & W & U & K).
  destruct H1 as [x Hl|x s' Hl Hx|t1 up t2 Hx Hp| |ms]; inversion H2 as [x2 Hl2|x2 s2'' Hl2 Hx2|u1 up2 u2 Hx2 Hp2| |ms2]; subst; try exact Hs.
  - rewrite <- W in Hl2. lia.
  - rewrite <- W in Hl2. lia.
  - eapply turn_fun; [|  |exact Hx|exact Hx2]; [exact Ht|]. split; [exact A|]. split; [exact D|]. split; [cbn; now rewrite W|]. split; [exact U|exact K].
  - pose proof (turn_fun _ _ _ _ _ Ht Hs Hx Hx2) as (A1 & D1 & W1 & U1 & K1).
    assert (Hr : same_dancing (rested t1) (rested u1)) by (split; [exact A1|]; split; [exact D1|]; split; [exact W1|]; split; [reflexivity|exact K1]).
    destruct Hp as [|dn s' Hd Hdue Hb]; inversion Hp2 as [|dn2 s2'' Hd2 Hdue2 Hb2]; subst; [exact Hr|].
    assert (dn2 = dn) as -> by (cbn in Hd, Hd2; congruence). eapply becomes_fun; eassumption.
Qed.
Lemma run_fun ops ups s : dance_run n refs d T ops ups s -> forall s', dance_run n refs d T ops ups s' -> same_dancing s s'.
Proof.
  induction 1 as [|ops ups s o up s1 Hr IH Hc]; intros s' H2.
  - inversion H2 as [|ops2 ups2 s2 o2 up2 s3 Hr2 Hc2 E1 E2]; subst; [repeat split|]. destruct ops2; discriminate.
  - inversion H2 as [E1 E2|ops2 ups2 s2 o2 up2 s3 Hr2 Hc2 E1 E2]; subst; [destruct ops; discriminate|]. apply app_inj_tail in E1 as (-> & ->). apply app_inj_tail in E2 as (-> & ->).
    eapply call_fun; [eapply run_tidy; exact Hr|apply IH; exact Hr2|exact Hc|exact Hc2].
Qed.
Lemma prompt_tidy ops s : prompt_run n refs d T ops s -> tidy s.
Proof. induction 1 as [|ops s o up s' _ IH Hc _]; [split; [constructor|discriminate]|]. eapply call_tidy; eassumption. Qed.
Lemma prompt_call_fun before s1 s2 o up1 up2 s1' s2' : tidy s1 -> same_dancing s1 s2 -> dance_call n refs d T before s1 o up1 s1' -> dance_call n refs d T before s2 o up2 s2' ->
  (forall dn, da_dance s1' = Some dn -> now_after (before ++ [o]) < dn_due dn) -> (forall dn, da_dance s2' = Some dn -> now_after (before ++ [o]) < dn_due dn) -> up1 = up2.
Proof.
  intros Ht Hs H1 H2 P1 P2. pose proof Hs as (A & D & W & U & K).
  destruct H1 as [x Hl|x s' Hl Hx|t1 up t2 Hx Hp| |ms]; inversion H2 as [x2 Hl2|x2 s2'' Hl2 Hx2|u1 up' u2 Hx2 Hp2| |ms2]; subst; try reflexivity.
  pose proof (turn_fun _ _ _ _ _ Ht Hs Hx Hx2) as (A1 & D1 & W1 & U1 & K1).
  destruct Hp as [|dn s' Hd Hdue Hb]; inversion Hp2 as [|dn2 s2'' Hd2 Hdue2 Hb2]; subst; try reflexivity; exfalso.
  - cbn in Hd2, P1. rewrite <- D1 in Hd2. specialize (P1 _ Hd2). lia.
  - cbn in Hd, P2. rewrite D1 in Hd. specialize (P2 _ Hd). lia.
Qed.
Lemma prompt_fun ops s : prompt_run n refs d T ops s -> forall s', prompt_run n refs d T ops s' -> same_dancing s s'.
Proof.
  induction 1 as [|ops s o up s1 Hr IH Hc Hd]; intros s' H2.
  - inversion H2 as [|ops2 s2 o2 up2 s3 Hr2 Hc2 Hd2 E1]; subst; [repeat split|]. destruct ops2; discriminate.
  - inversion H2 as [E1|ops2 s2 o2 up2 s3 Hr2 Hc2 Hd2 E1]; subst; [destruct ops; discriminate|]. apply app_inj_tail in E1 as (-> & ->). specialize (IH _ Hr2).
    pose proof (prompt_tidy _ _ Hr) as Ht. assert (up2 = up) as -> by (symmetry; eapply prompt_call_fun; eassumption).
    eapply call_fun; [exact Ht|exact IH|exact Hc|exact Hc2].
Qed.
End DanceFun.
