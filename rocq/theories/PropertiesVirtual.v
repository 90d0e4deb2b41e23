(** C50, C51: the virtual keys of caps word and of sticky modifiers. *)
From Verif Require Import BaseFacts Output Types Scheduler Keymap SimpleKeys TapHold Sticky CapsWord Automation Composite Samples
  SpecKeymap SpecReport ReportFacts ReporterFacts PropertiesReport PropertiesFirmware SpecVirtual CapsSticky.
Local Open Scope N_scope.

Local Notation left_shift := (mods_output 2).

(** C50: between two calls the virtual left shift is pressed exactly once while caps
    word is on and not at all while it is off, unless the caller, a macro or a sticky
    key presses the same virtual key. *)
Theorem C50_caps_word_shift : forall refs d pos dbg fuel ops cf k,
  caller_leaves left_shift ops -> macros_leave refs d (auc_instructions (cf_automation cf)) left_shift ->
  ~ sticky_for refs d left_shift -> ~ In OpInit ops ->
  run_ops (cconf refs d pos dbg) fuel ops (km_new (ctx_from_config cf)) = Ok k ->
  times_pressed left_shift k = if cwx_active (cx_caps_word (km_ctx k)) then 1%nat else 0%nat.
Proof.
  intros refs d pos dbg fuel ops cf k Hc Hm Hs Hi H. pose proof (caps_exact _ _ _ _ _ _ _ _ _ Hm Hs Hc Hi H) as B.
  apply balc_true in B as (r & _ & _ & E & U). destruct (U eq_refl) as (U1 & U2 & _ & U3). unfold cmp in E.
  assert (A : Ac left_shift (km_ctx k) = if cwx_active (cx_caps_word (km_ctx k)) then 1%nat else 0%nat).
  { unfold Ac, caps_share. now rewrite (proj2 (ko_eqb_eq _ _) eq_refl). }
  lia.
Qed.
Print Assumptions C50_caps_word_shift.

(** C50: in terms of what the keymap reports.  While caps word is on, left shift is
    among the reported outputs; while it is off, a left shift is reported only for a
    pressed key that is configured to report it. *)
Theorem C50_caps_word_reported : forall refs d pos dbg fuel ops cf k kos,
  caller_leaves left_shift ops -> macros_leave refs d (auc_instructions (cf_automation cf)) left_shift ->
  ~ sticky_for refs d left_shift -> ~ In OpInit ops ->
  run_ops (cconf refs d pos dbg) fuel ops (km_new (ctx_from_config cf)) = Ok k ->
  km_pressed_keys (cconf refs d pos dbg) k = Ok kos ->
  (cwx_active (cx_caps_word (km_ctx k)) = true -> In left_shift kos)
  /\ (cwx_active (cx_caps_word (km_ctx k)) = false -> In left_shift kos ->
      exists i r l, In (inl (i, r)) (pressed_shape k) /\ own_outputs d r l /\ In left_shift l).
Proof.
  intros refs d pos dbg fuel ops cf k kos Hc Hm Hs Hi H Hk.
  pose proof (C50_caps_word_shift _ _ _ _ _ _ _ _ Hc Hm Hs Hi H) as B.
  destruct (C45_reported_outputs _ _ _ _ _ _ _ _ _ H Hk) as (ls & -> & HF). clear - B HF. unfold times_pressed in B.
  split; intros E; rewrite E in B; clear E.
  - induction HF as [|x l xs ls Hx HF IH]; [discriminate|]. cbn in *. apply in_or_app. destruct x as [[i r]|y]; [right; auto|].
    unfold is_virtual in B at 1. destruct (ko_eqb left_shift y) eqn:Ey; [|right; auto]. left. apply ko_eqb_eq in Ey. cbn in Hx. subst. now left.
  - induction HF as [|x l xs ls Hx HF IH]; [intros []|]. cbn in *. intros Hin. apply in_app_or in Hin as [Hin|Hin].
    + destruct x as [[i r]|y].
      * destruct Hx as (r0 & _ & _ & Hl). exists i, r, l. auto.
      * cbn in Hx. subst l. destruct Hin as [->|[]]. unfold is_virtual in B at 1. rewrite (proj2 (ko_eqb_eq _ _) eq_refl) in B. discriminate.
    + destruct IH as (i & r & l' & A & C); [|exact Hin|exists i, r, l'; auto].
      destruct x as [[i r]|y]; [exact B|]. unfold is_virtual in B at 1. destruct (ko_eqb left_shift y); [discriminate|exact B].
Qed.
Print Assumptions C50_caps_word_reported.

(** A keymap with a caps word key, a sticky left control, letters, the space bar, a
    macro and a tap-hold key that becomes caps word. *)
Definition word_data : key_data :=
  mkData (kd_automation sample_data) [] [] [] [] [] [] [mkStickyKey 1; mkStickyKey 2] [] [mkTapHold kA RCapsWord].
Definition word_refs : list ref := [RCapsWord; RSticky 0; kA; RKeyboard (KbKeyCode 0x2C); RAutomation 0; RTapHold 0].
Definition word_conf := cconf word_refs word_data bs_std false.
Definition word_start : ckeymap := km_new (ctx_from_config quick_config).
Lemma word_offers r : offers word_refs word_data r -> In r word_refs.
Proof.
  intros (r0 & Hr & Ha). cbn in Hr. repeat (destruct Hr as [<-|Hr]); try (destruct Hr); inversion Ha as [| i k r1 Hk Ht|i k r1 Hk Ht| | | | | |]; subst; cbn; auto 10.
  - cbn in Hk. injection Hk as <-. cbn in Ht. inversion Ht; subst. auto 10.
  - cbn in Hk. injection Hk as <-. cbn in Ht. inversion Ht; subst. auto 10.
Qed.
Lemma word_macros ko : (forall x, x = InPress ko \/ x = InTap ko \/ x = InRelease ko -> ~ In x (auc_instructions (cf_automation quick_config))) ->
  macros_leave word_refs word_data (auc_instructions (cf_automation quick_config)) ko.
Proof. intros H i k e _ _ _ x Hx (n & _ & _ & Hn). apply nth_error_In in Hn. exact (H x Hx Hn). Qed.
Lemma word_macros_mods m : m <> 0 -> macros_leave word_refs word_data (auc_instructions (cf_automation quick_config)) (mods_output m).
Proof. intros Hm. apply word_macros. intros x [->|[->| ->]]; cbn; intuition discriminate. Qed.
Lemma word_no_sticky_shift : ~ sticky_for word_refs word_data left_shift.
Proof.
  intros (i & k & Ho & Hk & Hm). apply word_offers in Ho. cbn in Ho.
  repeat (destruct Ho as [Ho|Ho]; [try discriminate Ho|]); [|destruct Ho]. injection Ho as <-. cbn in Hk. injection Hk as <-. discriminate.
Qed.
Lemma leaves_list ko ops : (forall o, In o ops -> match o with OpInput (Press _) | OpInput (Release _) | OpTick => True | _ => False end) ->
  caller_leaves ko ops.
Proof. intros H x [->| ->]; (split; [intros Hi|intros t Hi]; apply H in Hi; exact Hi). Qed.

(** Caps word on, A, sticky control, A again, then the space bar ends it.  At each
    of the four points the count is as the theorem says. *)
Definition word_on : list op := [P 0; OpTick; OpTick; Rl 0; OpTick; OpTick; P 2; OpTick; OpTick; Rl 2; OpTick; OpTick].
Definition word_more : list op := [P 1; OpTick; OpTick; Rl 1; OpTick; OpTick; P 2; OpTick; OpTick; Rl 2; OpTick; OpTick].
Definition word_end : list op := [P 3; OpTick; OpTick].
Ltac op_list := intros o Ho; cbn in Ho; repeat (destruct Ho as [<-|Ho]; [exact I|]); destruct Ho.
Example C50_example :
  macros_leave word_refs word_data (auc_instructions (cf_automation quick_config)) left_shift
  /\ ~ sticky_for word_refs word_data left_shift
  /\ caller_leaves left_shift (word_on ++ word_more ++ word_end) /\ ~ In OpInit (word_on ++ word_more ++ word_end)
  /\ returns (run_ops word_conf 60 word_on word_start) (fun k =>
       times_pressed left_shift k = 1%nat /\ cwx_active (cx_caps_word (km_ctx k)) = true
       /\ km_pressed_keys word_conf k = Ok [left_shift]
       /\ returns (run_ops word_conf 60 (word_more ++ word_end) k) (fun k' =>
            times_pressed left_shift k' = 0%nat /\ cwx_active (cx_caps_word (km_ctx k')) = false
            /\ km_pressed_keys word_conf k' = Ok [out 0x2C])).
Proof.
  split; [apply word_macros_mods; discriminate|]. split; [exact word_no_sticky_shift|]. split; [apply leaves_list; op_list|].
  split; [cbn; intuition discriminate|]. vm_compute. repeat split; reflexivity.
Qed.

(** Not after [init]: it forgets the pressed keys, but not that caps word is on. *)
Theorem C50_caps_word_shift_after_init_refuted :
  ~ (forall refs d pos dbg fuel ops cf k,
     caller_leaves left_shift ops -> macros_leave refs d (auc_instructions (cf_automation cf)) left_shift ->
     ~ sticky_for refs d left_shift ->
     run_ops (cconf refs d pos dbg) fuel ops (km_new (ctx_from_config cf)) = Ok k ->
     times_pressed left_shift k = if cwx_active (cx_caps_word (km_ctx k)) then 1%nat else 0%nat).
Proof.
  intros H.
  assert (E : returns (run_ops (cconf [RCapsWord] sample_data bs_std false) 60 [P 0; OpTick; OpTick; OpInit] (km_new (ctx_from_config quick_config))) (fun k =>
                times_pressed left_shift k = 0%nat /\ cwx_active (cx_caps_word (km_ctx k)) = true))
    by (vm_compute; repeat split; reflexivity).
  apply returns_ok in E as (k & E & E1 & E2).
  assert (Ho : forall r, offers [RCapsWord] sample_data r -> r = RCapsWord).
  { intros r (r0 & [<-|[]] & Ha). now inversion Ha. }
  specialize (H [RCapsWord] sample_data bs_std false 60%nat [P 0; OpTick; OpTick; OpInit] quick_config k).
  rewrite E1, E2 in H. discriminate H; [| | |exact E].
  - intros x [->| ->]; (split; [|intros t]; cbn; intuition discriminate).
  - intros i key e Hof. apply Ho in Hof. discriminate.
  - intros (i & key & Hof & _). apply Ho in Hof. discriminate.
Qed.
Print Assumptions C50_caps_word_shift_after_init_refuted.

(** C51: between two calls the virtual key of a modifier is pressed at least once
    for every sticky modifier still in force, for caps word and for every release of
    it still waiting: none is missing. *)
Theorem C51_sticky_in_force : forall refs d pos dbg fuel ops cf k ko,
  caller_leaves ko ops -> macros_leave refs d (auc_instructions (cf_automation cf)) ko -> ~ In OpInit ops ->
  run_ops (cconf refs d pos dbg) fuel ops (km_new (ctx_from_config cf)) = Ok k ->
  (caps_share ko (cwx_active (cx_caps_word (km_ctx k))) + sticky_share ko (stx_active (cx_sticky (km_ctx k)))
   + releases_waiting ko k <= times_pressed ko k)%nat.
Proof.
  intros refs d pos dbg fuel ops cf k ko Hc Hm Hi H.
  pose proof (caps_sticky_at_least refs d pos dbg ko true fuel ops cf k Hm ltac:(discriminate) Hc Hi H) as B.
  apply balc_true in B as (r & _ & _ & E & _). unfold cmp, Ac, Sc in E. lia.
Qed.
Print Assumptions C51_sticky_in_force.

(** C51: and none is left over, if there are never more than three sticky modifiers
    in force before a call. *)
Theorem C51_no_sticky_left_over : forall refs d pos dbg fuel ops cf k ko,
  caller_leaves ko ops -> macros_leave refs d (auc_instructions (cf_automation cf)) ko -> ~ In OpInit ops ->
  forallb simple_op ops = true ->
  (forall before after k1, ops = before ++ after ->
     run_ops (cconf refs d pos dbg) fuel before (km_new (ctx_from_config cf)) = Ok k1 ->
     (length (stx_active (cx_sticky (km_ctx k1))) <= 3)%nat) ->
  run_ops (cconf refs d pos dbg) fuel ops (km_new (ctx_from_config cf)) = Ok k ->
  times_pressed ko k
  = (caps_share ko (cwx_active (cx_caps_word (km_ctx k))) + sticky_share ko (stx_active (cx_sticky (km_ctx k)))
     + releases_waiting ko k)%nat.
Proof.
  intros refs d pos dbg fuel ops cf k ko Hc Hm Hi Hs Hr H.
  assert (B : balc ko true true true (km_ctx k) (times_pressed ko k) (releases_waiting ko k) 0 []).
  { eapply sticky_exact; eauto. intros before after k1 E1 E2. specialize (Hr _ _ _ E1 E2). unfold MAX_STICKY_MODIFIERS. lia. }
  apply balc_true in B as (r & Hq & _ & E & _). destruct r; [|discriminate]. unfold cmp, Ac, Sc in E. lia.
Qed.
Print Assumptions C51_no_sticky_left_over.

(** C51: so a modifier does not stay pressed once nothing needs it. *)
Theorem C51_sticky_released : forall refs d pos dbg fuel ops cf k ko,
  caller_leaves ko ops -> macros_leave refs d (auc_instructions (cf_automation cf)) ko -> ~ In OpInit ops ->
  forallb simple_op ops = true ->
  (forall before after k1, ops = before ++ after ->
     run_ops (cconf refs d pos dbg) fuel before (km_new (ctx_from_config cf)) = Ok k1 ->
     (length (stx_active (cx_sticky (km_ctx k1))) <= 3)%nat) ->
  run_ops (cconf refs d pos dbg) fuel ops (km_new (ctx_from_config cf)) = Ok k ->
  cwx_active (cx_caps_word (km_ctx k)) = false -> stx_active (cx_sticky (km_ctx k)) = [] ->
  km_inq k = [] -> km_pending k = None -> times_pressed ko k = 0%nat.
Proof.
  intros refs d pos dbg fuel ops cf k ko Hc Hm Hi Hs Hr H Ha Hk Hq Hp.
  rewrite (C51_no_sticky_left_over _ _ _ _ _ _ _ _ _ Hc Hm Hi Hs Hr H), Ha, Hk.
  unfold releases_waiting, caps_share. rewrite Hq, Hp. cbn. now destruct (ko_eqb _ _).
Qed.
Print Assumptions C51_sticky_released.

(** Prefixes of a history, checked one by one. *)
Fixpoint each_state (P : ckeymap -> bool) (conf : kconf ref cctx cev cpks cks) (fuel : nat) (ops : list op) (k : ckeymap) : bool :=
  P k && match ops with
         | [] => true
         | o :: t => match run_op conf fuel k o with Ok k1 => each_state P conf fuel t k1 | _ => false end
         end.
Lemma each_state_prefix P conf fuel ops : forall k, each_state P conf fuel ops k = true ->
  forall before after k1, ops = before ++ after -> run_ops conf fuel before k = Ok k1 -> P k1 = true.
Proof.
  induction ops as [|o ops IH]; intros k H before after k1 E R; cbn in H; apply andb_true_iff in H as [H1 H2].
  - destruct before; [|discriminate]. unfold run_ops in R. cbn in R. inv_ok R. exact H1.
  - destruct before as [|o' before]; [unfold run_ops in R; cbn in R; inv_ok R; exact H1|].
    injection E as <- ->. unfold run_ops in R. cbn [fold_res] in R. destruct (run_op conf fuel k o) as [k2| |]; try discriminate.
    exact (IH _ H2 before after k1 eq_refl R).
Qed.
Definition few_sticky (k : ckeymap) : bool := (length (stx_active (cx_sticky (km_ctx k))) <=? 3)%nat.
(** The sticky control is pressed from its tap to the release of the next key. *)
Definition stick_tap : list op := [P 1; OpTick; OpTick; Rl 1; OpTick; OpTick].
Definition type_a : list op := [P 2; OpTick; OpTick; Rl 2; OpTick; OpTick].
Example C51_example :
  macros_leave word_refs word_data (auc_instructions (cf_automation quick_config)) (mods_output 1)
  /\ caller_leaves (mods_output 1) (stick_tap ++ stick_tap ++ type_a) /\ ~ In OpInit (stick_tap ++ stick_tap ++ type_a)
  /\ forallb simple_op (stick_tap ++ stick_tap ++ type_a) = true
  /\ (forall before after k1, stick_tap ++ stick_tap ++ type_a = before ++ after ->
        run_ops word_conf 60 before word_start = Ok k1 -> (length (stx_active (cx_sticky (km_ctx k1))) <= 3)%nat)
  /\ returns (run_ops word_conf 60 (stick_tap ++ stick_tap) word_start) (fun k =>
       times_pressed (mods_output 1) k = 2%nat /\ stx_active (cx_sticky (km_ctx k)) = [1; 1]
       /\ returns (run_ops word_conf 60 type_a k) (fun k' =>
            times_pressed (mods_output 1) k' = 0%nat /\ stx_active (cx_sticky (km_ctx k')) = []
            /\ km_inq k' = [] /\ km_pending k' = None)).
Proof.
  split; [apply word_macros_mods; discriminate|]. split; [apply leaves_list; op_list|]. split; [cbn; intuition discriminate|].
  split; [reflexivity|]. split.
  - assert (G : each_state few_sticky word_conf 60 (stick_tap ++ stick_tap ++ type_a) word_start = true) by (vm_compute; reflexivity).
    intros before after k1 E R. apply Nat.leb_le. exact (each_state_prefix _ _ _ _ _ G _ _ _ E R).
  - vm_compute. repeat split; reflexivity.
Qed.

(** With a fourth tap still unused, a fifth one presses the modifier without being
    recorded; typing a key then leaves the modifier pressed, with nothing to release
    it. *)
Theorem C51_sticky_released_refuted :
  ~ (forall refs d pos dbg fuel ops cf k ko,
     caller_leaves ko ops -> macros_leave refs d (auc_instructions (cf_automation cf)) ko -> ~ In OpInit ops ->
     forallb simple_op ops = true ->
     run_ops (cconf refs d pos dbg) fuel ops (km_new (ctx_from_config cf)) = Ok k ->
     cwx_active (cx_caps_word (km_ctx k)) = false -> stx_active (cx_sticky (km_ctx k)) = [] ->
     km_inq k = [] -> km_pending k = None -> times_pressed ko k = 0%nat).
Proof.
  intros H. pose (ops := stick_tap ++ stick_tap ++ stick_tap ++ stick_tap ++ stick_tap ++ type_a).
  assert (E : returns (run_ops word_conf 60 ops word_start) (fun k =>
                cwx_active (cx_caps_word (km_ctx k)) = false /\ stx_active (cx_sticky (km_ctx k)) = []
                /\ km_inq k = [] /\ km_pending k = None /\ times_pressed (mods_output 1) k = 1%nat))
    by (vm_compute; repeat split; reflexivity).
  apply returns_ok in E as (k & E & E1 & E2 & E3 & E4 & E5).
  assert (X : times_pressed (mods_output 1) k = 0%nat); [|congruence].
  eapply H; [| | | |exact E|exact E1|exact E2|exact E3|exact E4].
  - apply leaves_list. unfold ops. op_list.
  - apply word_macros_mods. discriminate.
  - cbn. intuition discriminate.
  - reflexivity.
Qed.
Print Assumptions C51_sticky_released_refuted.
