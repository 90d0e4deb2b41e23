(** C76: keyboards with layers and tap-dance keys. *)
From Verif Require Import BaseFacts Output Types Scheduler Reporter Keymap SimpleKeys TapHold TapDance Sticky CapsWord Layered Automation Chorded Composite Samples SpecScheduler SpecKeymap
  KeymapHist KeymapInv KeymapQueue KeymapApi CtxFacts SpecPlain PlainFacts SpecLayer SpecTap TapFacts SpecDecide PropertiesDecide SpecBoard BoardFacts SpecTapBoard TapBoardFacts TapBoardTotal TapBoardLive
  SpecDanceBoard DanceBoardFacts DanceBoardLive PropertiesTapBoard.
Local Open Scope N_scope.

(** What a keymap shows of the keyboard: the reports, the layers, the callbacks that
    ran, the inputs that wait, and the key whose dance is going on. *)
Definition shows (conf : kconf ref cctx cev cpks cks) (setup : list op) (s : dancing) (k : ckeymap) : Prop :=
  km_pressed_keys conf k = Ok (board_output (da_board s))
  /\ (forall l, is_on (cx_layered (km_ctx k)) l = bd_on (da_board s) l) /\ lyx_default (cx_layered (km_ctx k)) = bd_default (da_board s)
  /\ km_calls k = filter_map (registered setup) (da_calls s)
  /\ km_inq k = da_waiting s
  /\ option_map fst (SpecDecide.undecided k) = option_map dn_key (da_dance s).
Lemma core_shows refs d pos dbg n height L setup s k : (forall cs, filter_map (lm_get L) cs = filter_map (registered setup) cs) -> dcore d n height L s k -> shows (cconf refs d pos dbg) setup s k.
Proof.
  intros Hreg (_ & _ & Hc & Hq & _ & X). unfold shows, SpecDecide.undecided. rewrite Hc, Hreg. destruct (da_dance s) as [dn|].
  - destruct X as (q & pad & (U & (_ & (_ & Hon & Hdf & _) & Hh & _) & _) & _). rewrite U. split; [eapply outputs_held; exact Hh|]. auto.
  - destruct X as ((_ & (_ & Hon & Hdf & _) & Hh & _ & _ & U) & _). rewrite U. split; [eapply outputs_held; exact Hh|]. auto.
Qed.
Lemma registered_same refs d pos dbg fuel setup cf L : run_ops (cconf refs d pos dbg) fuel setup (km_new (ctx_from_config cf)) = Ok (set_callbacks (km_new (ctx_from_config cf)) L) ->
  forall cs, filter_map (lm_get L) cs = filter_map (registered setup) cs.
Proof.
  intros H0. pose proof (callbacks_registered _ _ _ _ _ H0) as Hreg. cbn [set_callbacks km_callbacks km_new] in Hreg.
  intros cs. induction cs as [|c cs IH]; cbn; [reflexivity|]. unfold registered at 1. rewrite <- (Hreg c : _ = registered_in setup c None). destruct (lm_get L c); now rewrite IH.
Qed.

(** C76: whatever the calls, the keymap shows the keyboard of SpecDanceBoard.v: a key
    becomes its choice for the number of times it was tapped, when the time is up or
    there is no further choice. *)
Theorem C76_pressed :
  forall refs d pos dbg height fuel setup ops cf k0 k, Forall (dance_board_key (cf_layer_count cf) d height) refs -> (height + 8 <= fuel)%nat ->
  registers_two setup -> Forall (fun o => plain_op o = true) ops ->
  run_ops (cconf refs d pos dbg) fuel setup (km_new (ctx_from_config cf)) = Ok k0 ->
  run_ops (cconf refs d pos dbg) fuel ops k0 = Ok k ->
  exists ups s, dance_run (cf_layer_count cf) refs d (tdc_timeout (cf_tap_dance cf)) ops ups s
  /\ shows (cconf refs d pos dbg) setup s k.
Proof.
  intros refs d pos dbg height fuel setup ops cf k0 k Hr Hf Hset Ho H0 H.
  destruct (setup_total (cconf refs d pos dbg) fuel setup Hset (ctx_from_config cf)) as (L & EL). rewrite H0 in EL. injection EL as ->.
  pose proof (registered_same _ _ _ _ _ _ _ _ H0) as Hreg.
  replace fuel with (S (S (S (S (S (S (S (S (height + (fuel - height - 8)))))))))) in * by lia.
  destruct (run_dance refs d pos dbg cf height (fuel - height - 8) Hr L ops k Ho H) as (ups & s & Hrun & Hc).
  exists ups, s. split; [exact Hrun|]. eapply core_shows; eassumption.
Qed.

(** C76: the calls, and in which of them the time was up, determine the keyboard. *)
Theorem C76_unique : forall n refs d timeout ops ups s s',
  dance_run n refs d timeout ops ups s -> dance_run n refs d timeout ops ups s' -> same_dancing s s'.
Proof. intros n refs d T ops ups s s' H1 H2. exact (run_fun _ _ _ _ _ _ _ H1 _ H2). Qed.

(** C76: when the milliseconds per tick are set before the first tick, and the
    timeout is not 0, no dance goes on after its time: *)
Theorem C76_on_time :
  forall refs d pos dbg height fuel setup ops cf k0 k, position_ok pos ->
  Forall (dance_board_key (cf_layer_count cf) d height) refs -> (height + 8 <= fuel)%nat ->
  registers_two setup -> Forall (fun o => plain_op o = true) ops -> one_pace ops -> 0 < tdc_timeout (cf_tap_dance cf) ->
  run_ops (cconf refs d pos dbg) fuel setup (km_new (ctx_from_config cf)) = Ok k0 ->
  run_ops (cconf refs d pos dbg) fuel ops k0 = Ok k ->
  exists s, prompt_run (cf_layer_count cf) refs d (tdc_timeout (cf_tap_dance cf)) ops s
  /\ shows (cconf refs d pos dbg) setup s k.
Proof.
  intros refs d pos dbg height fuel setup ops cf k0 k Hpos Hr Hf Hset Ho Hp HT H0 H.
  destruct (setup_total (cconf refs d pos dbg) fuel setup Hset (ctx_from_config cf)) as (L & EL). rewrite H0 in EL. injection EL as ->.
  pose proof (registered_same _ _ _ _ _ _ _ _ H0) as Hreg.
  replace fuel with (S (S (S (S (S (S (S (S (height + (fuel - height - 8)))))))))) in * by lia.
  destruct (run_prompt refs d pos dbg cf height (fuel - height - 8) Hr Hpos L ops k Ho Hp HT H) as (s & Hrun & Hc).
  exists s. split; [exact Hrun|]. eapply core_shows; eassumption.
Qed.
(** and then the calls alone determine the keyboard. *)
Theorem C76_one_outcome : forall n refs d timeout ops s s',
  prompt_run n refs d timeout ops s -> prompt_run n refs d timeout ops s' -> same_dancing s s'.
Proof. intros n refs d T ops s s' H1 H2. exact (prompt_fun _ _ _ _ _ _ H1 _ H2). Qed.

(** C76: once the keymap has nothing scheduled, no dance goes on and no input waits,
    and the reports are those of the keyboard. *)
Theorem C76_settled :
  forall refs d pos dbg height fuel setup ops cf k0 k, position_ok pos ->
  Forall (dance_board_key (cf_layer_count cf) d height) refs -> (height + 8 <= fuel)%nat ->
  registers_two setup -> Forall (fun o => plain_op o = true) ops ->
  run_ops (cconf refs d pos dbg) fuel setup (km_new (ctx_from_config cf)) = Ok k0 ->
  run_ops (cconf refs d pos dbg) fuel ops k0 = Ok k -> km_has_scheduled_events k = false ->
  exists ups s, dance_run (cf_layer_count cf) refs d (tdc_timeout (cf_tap_dance cf)) ops ups s
  /\ da_dance s = None /\ da_waiting s = []
  /\ km_boot_keyboard_report (cconf refs d pos dbg) k = Ok (as_hid_boot_keyboard_report (board_output (da_board s)))
  /\ (forall l, is_on (cx_layered (km_ctx k)) l = bd_on (da_board s) l) /\ lyx_default (cx_layered (km_ctx k)) = bd_default (da_board s)
  /\ km_calls k = filter_map (registered setup) (da_calls s).
Proof.
  intros refs d pos dbg height fuel setup ops cf k0 k Hpos Hr Hf Hset Ho H0 H Hev.
  destruct (C76_pressed _ _ _ _ _ _ _ _ _ _ _ Hr Hf Hset Ho H0 H) as (ups & s & Hrun & Hp & Hon & Hdf & Hc & Hq & Hu).
  assert (Hall : run_ops (cconf refs d pos dbg) fuel (setup ++ ops) (km_new (ctx_from_config cf)) = Ok k) by (rewrite run_ops_app, H0; exact H).
  destruct (SpecDecide.undecided k) as [[i p]|] eqn:Eu.
  { destruct (C52_asks_to_be_ticked _ _ _ _ _ _ _ _ _ Hpos Hall Eu) as (X & _). congruence. }
  assert (Hq0 : km_inq k = []).
  { unfold km_has_scheduled_events in Hev. destruct (km_inq k); [reflexivity|]. rewrite orb_true_r in Hev. discriminate. }
  exists ups, s. split; [exact Hrun|]. split; [destruct (da_dance s); [discriminate Hu|reflexivity]|]. split; [congruence|].
  split; [unfold km_boot_keyboard_report; rewrite Hp; reflexivity|]. auto.
Qed.

(** C76: left alone, the keymap settles: after 2000 times as many ticks as the
    timeout has milliseconds, and 2000 more, it has nothing scheduled. *)
Theorem C76_settles :
  forall refs d pos dbg height fuel setup ops cf k0 n k, position_ok pos ->
  Forall (dance_board_key (cf_layer_count cf) d height) refs -> (height + 8 <= fuel)%nat ->
  registers_two setup -> Forall (fun o => plain_op o = true) ops -> one_pace ops ->
  run_ops (cconf refs d pos dbg) fuel setup (km_new (ctx_from_config cf)) = Ok k0 ->
  2000 * (tdc_timeout (cf_tap_dance cf) + 1) <= N.of_nat n ->
  run_ops (cconf refs d pos dbg) fuel (ops ++ repeat OpTick n) k0 = Ok k ->
  km_has_scheduled_events k = false.
Proof.
  intros refs d pos dbg height fuel setup ops cf k0 n k Hpos Hr Hf Hset Ho Hp H0 Hn H.
  destruct (setup_total (cconf refs d pos dbg) fuel setup Hset (ctx_from_config cf)) as (L & EL). rewrite H0 in EL. injection EL as ->.
  replace fuel with (S (S (S (S (S (S (S (S (height + (fuel - height - 8)))))))))) in * by lia.
  eapply (dsettle_all refs d pos dbg cf height (fuel - height - 8) Hr Hpos L); [|exact Ho|exact Hp| |exact H].
  - intros ops' k' u Hk Hu. eapply C52_asks_to_be_ticked; [exact Hpos| |exact Hu]. rewrite run_ops_app, H0. exact Hk.
  - unfold u16 in *. lia.
Qed.

(** A keyboard with one layer above the base: a key that is A when tapped once, B when
    tapped twice and layer 1 when tapped three times; a layered key; a layered key
    that is, on the base layer, A or the left control key; a letter. *)
Definition dance_data : key_data :=
  mkData [] [] [] [] [] [LmHold 1] [mkLayeredKey kC [Some kD]; mkLayeredKey (RTapDance 1) [Some kD]] []
    [[Some kA; Some kB; Some (RLayered (LyModifier 0)); None]; [Some kA; Some kLCtrl]] [].
Definition dance_refs : list ref := [RTapDance 0; RLayered (LyLayered 0); RLayered (LyLayered 1); kD].
Definition dance_config : config :=
  mkConfig (cf_automation sample_config) (cf_chorded sample_config) sticky_config_default (mkTDConfig 4) (cf_tap_hold sample_config) 1.
Lemma dance_refs_ok : Forall (dance_board_key 1 dance_data 2) dance_refs.
Proof.
  assert (K : forall h c, board_key 1 dance_data h (RKeyboard (KbKeyCode c))) by (intros h c; eapply bk_plain; reflexivity).
  repeat apply Forall_cons; try apply Forall_nil.
  - eapply (db_dance _ _ 1 0 [kA; kB; RLayered (LyModifier 0)] 1); [reflexivity|cbn; lia|]. repeat constructor; try apply K. eapply bk_modifier; [reflexivity|cbn; lia].
  - apply db_key. eapply bk_layered; [reflexivity|reflexivity|apply K|]. intros r [H|[]]. injection H as <-. apply K.
  - eapply db_layered; [reflexivity|reflexivity|eapply (db_dance _ _ 0 1 [kA; kLCtrl] 0); [reflexivity|cbn; lia|repeat constructor; apply K]|]. intros r [H|[]]. injection H as <-. apply db_key, K.
  - apply db_key, K.
Qed.
Local Notation dconf := (cconf dance_refs dance_data bs_std false).
Definition dstart : ckeymap := km_new (ctx_from_config dance_config).
(** The first key tapped once: A, when its time is up, and A is released again.
    Tapped twice: B.  Pressed a third time: layer 1 at once, and the second key is D
    while it is held.  The third key tapped twice: left control. *)
Example C76_example :
  Forall (dance_board_key (cf_layer_count dance_config) dance_data 2) dance_refs /\ (2 + 8 <= 10)%nat /\ registers_two [] /\ position_ok bs_std /\ 0 < tdc_timeout (cf_tap_dance dance_config)
  /\ (let ops := [P 0; OpTick; Rl 0; OpTick; OpTick; OpTick; OpTick; OpTick] in
      Forall (fun o => plain_op o = true) ops /\ one_pace ops
      /\ returns (run_ops dconf 10 (firstn 5 ops) dstart) (fun k => km_pressed_keys dconf k = Ok [] /\ option_map fst (SpecDecide.undecided k) = Some 0)
      /\ returns (run_ops dconf 10 (firstn 6 ops) dstart) (fun k => km_pressed_keys dconf k = Ok [out 4] /\ km_inq k = [Release 0] /\ SpecDecide.undecided k = None)
      /\ returns (run_ops dconf 10 ops dstart) (fun k => km_pressed_keys dconf k = Ok [] /\ km_has_scheduled_events k = false))
  /\ (let ops := [P 0; OpTick; Rl 0; OpTick; P 0; OpTick; OpTick; OpTick; OpTick] in
      returns (run_ops dconf 10 ops dstart) (fun k => km_pressed_keys dconf k = Ok [out 5] /\ SpecDecide.undecided k = None))
  /\ (let ops := [P 0; OpTick; Rl 0; OpTick; P 0; OpTick; Rl 0; OpTick; P 0] in
      returns (run_ops dconf 10 ops dstart) (fun k => km_pressed_keys dconf k = Ok [] /\ is_on (cx_layered (km_ctx k)) 1 = true /\ SpecDecide.undecided k = None)
      /\ returns (run_ops dconf 10 (ops ++ [OpTick; P 1; OpTick; OpTick]) dstart) (fun k => km_pressed_keys dconf k = Ok [out 7]))
  /\ (let ops := [P 2; OpTick; Rl 2; OpTick; P 2] in
      returns (run_ops dconf 10 ops dstart) (fun k => km_boot_keyboard_report dconf k = Ok [1; 0; 0; 0; 0; 0; 0; 0])).
Proof.
  split; [exact dance_refs_ok|]. split; [lia|]. split; [exists CbReset, CbReset; constructor|]. split; [exact SchedulerFacts.bs_std_position_ok|]. split; [reflexivity|].
  split; [|vm_compute; repeat split; reflexivity]. cbv zeta. split; [repeat constructor|]. split; [apply steady_pace; repeat (constructor; [discriminate|]); constructor|].
  vm_compute. repeat split; reflexivity.
Qed.
(** The machine itself, for the first key tapped twice and the second key in between:
    the second key waits until the time is up, and then B goes down first. *)
Example C76_machine_example :
  let run := prompt_run 1 dance_refs dance_data 4 in
  let ops := [P 0; OpTick; P 1; OpTick; P 0; OpTick; OpTick; OpTick] in
  exists s, run ops s /\ board_output (da_board s) = [] /\ option_map dn_key (da_dance s) = Some 0 /\ option_map dn_seen (da_dance s) = Some [Press 1; Press 0]
  /\ exists s', run (ops ++ [OpTick]) s' /\ board_output (da_board s') = [out 5] /\ da_dance s' = None /\ da_waiting s' = [Press 1; Press 0].
Proof.
  cbv zeta.
  set (dn := fun seen due => mkDance 0 [kA; kB; RLayered (LyModifier 0)] seen due).
  set (st := fun seen due busy => mkDancing board_new (Some (dn seen due)) [] busy []).
  assert (R1 : prompt_run 1 dance_refs dance_data 4 ([] ++ [P 0]) (st [] 4 true)).
  { eapply pr_call; [constructor| |intros x E; injection E as <-; reflexivity]. apply dc_input; [cbn; lia|].
    apply (takes_dance 1 dance_refs dance_data 4 0 (heard dancing_new (Press 0)) 0 [] (RTapDance 0) [kA; kB; RLayered (LyModifier 0)]); try reflexivity. apply (dances_key _ _ _ 0 _ 1). reflexivity. }
  assert (R2 : prompt_run 1 dance_refs dance_data 4 (([] ++ [P 0]) ++ [OpTick]) (st [] 4 false)).
  { eapply pr_call; [exact R1| |intros x E; injection E as <-; reflexivity]. eapply (dc_tick _ _ _ _ _ _ (st [] 4 true)); [reflexivity|apply passes_not]. }
  assert (R3 : prompt_run 1 dance_refs dance_data 4 ((([] ++ [P 0]) ++ [OpTick]) ++ [P 1]) (st [Press 1] 4 true)).
  { eapply pr_call; [exact R2| |intros x E; injection E as <-; reflexivity]. apply dc_input; [cbn; lia|].
    apply (takes_on 1 dance_refs dance_data 4 1 (mkDancing board_new (Some (dn [] 4)) [Press 1] false []) 0 _ [] 4 (Press 1) []); try reflexivity. cbn. lia. }
  assert (R4 : prompt_run 1 dance_refs dance_data 4 (((([] ++ [P 0]) ++ [OpTick]) ++ [P 1]) ++ [OpTick]) (st [Press 1] 4 false)).
  { eapply pr_call; [exact R3| |intros x E; injection E as <-; reflexivity]. eapply (dc_tick _ _ _ _ _ _ (st [Press 1] 4 true)); [reflexivity|apply passes_not]. }
  assert (R5 : prompt_run 1 dance_refs dance_data 4 ((((([] ++ [P 0]) ++ [OpTick]) ++ [P 1]) ++ [OpTick]) ++ [P 0]) (st [Press 1; Press 0] 6 true)).
  { eapply pr_call; [exact R4| |intros x E; injection E as <-; reflexivity]. apply dc_input; [cbn; lia|].
    apply (takes_on 1 dance_refs dance_data 4 2 (mkDancing board_new (Some (dn [Press 1] 4)) [Press 0] false []) 0 _ [Press 1] 4 (Press 0) []); try reflexivity. cbn. lia. }
  assert (R6 : prompt_run 1 dance_refs dance_data 4 (((((([] ++ [P 0]) ++ [OpTick]) ++ [P 1]) ++ [OpTick]) ++ [P 0]) ++ [OpTick]) (st [Press 1; Press 0] 6 false)).
  { eapply pr_call; [exact R5| |intros x E; injection E as <-; reflexivity]. eapply (dc_tick _ _ _ _ _ _ (st [Press 1; Press 0] 6 true)); [reflexivity|apply passes_not]. }
  assert (R7 : prompt_run 1 dance_refs dance_data 4 ((((((([] ++ [P 0]) ++ [OpTick]) ++ [P 1]) ++ [OpTick]) ++ [P 0]) ++ [OpTick]) ++ [OpTick]) (st [Press 1; Press 0] 6 false)).
  { eapply pr_call; [exact R6| |intros x E; injection E as <-; reflexivity]. eapply (dc_tick _ _ _ _ _ _ (st [Press 1; Press 0] 6 false)); [apply takes_nothing; reflexivity|apply passes_not]. }
  assert (R8 : prompt_run 1 dance_refs dance_data 4 (((((((([] ++ [P 0]) ++ [OpTick]) ++ [P 1]) ++ [OpTick]) ++ [P 0]) ++ [OpTick]) ++ [OpTick]) ++ [OpTick]) (st [Press 1; Press 0] 6 false)).
  { eapply pr_call; [exact R7| |intros x E; injection E as <-; reflexivity]. eapply (dc_tick _ _ _ _ _ _ (st [Press 1; Press 0] 6 false)); [apply takes_nothing; reflexivity|apply passes_not]. }
  exists (st [Press 1; Press 0] 6 false). split; [exact R8|]. split; [reflexivity|]. split; [reflexivity|]. split; [reflexivity|].
  eexists. split.
  - change ([P 0; OpTick; P 1; OpTick; P 0; OpTick; OpTick; OpTick] ++ [OpTick]) with ((((((((([] ++ [P 0]) ++ [OpTick]) ++ [P 1]) ++ [OpTick]) ++ [P 0]) ++ [OpTick]) ++ [OpTick]) ++ [OpTick]) ++ [OpTick]).
    eapply pr_call; [exact R8|..].
    + eapply (dc_tick _ _ _ _ _ _ (st [Press 1; Press 0] 6 false)); [apply takes_nothing; reflexivity|].
    apply (passes_up _ _ _ _ (dn [Press 1; Press 0] 6)); [reflexivity|vm_compute; discriminate|].
    apply (becomes_choice 1 dance_data _ (dn [Press 1; Press 0] 6) 1 kB (Sends (out 5))); [reflexivity|]. apply means_sends. reflexivity.
    + intros x E; discriminate E.
  - split; [reflexivity|]. split; reflexivity.
Qed.
(** Left alone in the middle of a dance, with a key waiting: settled 10000 ticks later. *)
Example C76_settles_example :
  let ops := [P 0; P 1; P 0] in
  Forall (fun o => plain_op o = true) ops /\ one_pace ops /\ 2000 * (tdc_timeout (cf_tap_dance dance_config) + 1) <= N.of_nat (N.to_nat 10000)
  /\ returns (run_ops dconf 10 ops dstart) (fun k => km_has_scheduled_events k = true /\ SpecDecide.undecided k <> None /\ km_inq k = [Press 1; Press 0])
  /\ returns (run_ops dconf 10 (ops ++ repeat OpTick (N.to_nat 10000)) dstart) (fun k => km_has_scheduled_events k = false /\ km_pressed_keys dconf k = Ok [out 5; out 6]).
Proof.
  cbv zeta. split; [repeat constructor|]. split; [apply steady_pace; repeat (constructor; [discriminate|]); constructor|].
  split; [rewrite N2Nat.id; cbn; lia|]. split; vm_compute; repeat split; try reflexivity; discriminate.
Qed.

(** What does not hold: a key that is pressed after a dance key was released goes down
    after that key is up.  The release of the dance key waits again behind the other
    inputs when the dance ends; so A and C are down together here, although the first
    key was released before the second was pressed. *)
Definition released_first : Prop :=
  forall ops k, Forall (fun o => plain_op o = true) ops -> one_pace ops -> inputs ops = [Press 0; Release 0; Press 1] ->
  run_ops dconf 10 ops dstart = Ok k -> ~ (In (out 4) (match km_pressed_keys dconf k with Ok l => l | _ => [] end) /\ In (out 6) (match km_pressed_keys dconf k with Ok l => l | _ => [] end)).
Lemma released_first_run : returns (run_ops dconf 10 [P 0; OpTick; Rl 0; OpTick; P 1; OpTick; OpTick; OpTick] dstart) (fun k => km_pressed_keys dconf k = Ok [out 4; out 6]).
Proof. vm_compute. reflexivity. Qed.
Theorem C76_order_refuted : ~ released_first.
Proof.
  intros H. pose proof released_first_run as X. specialize (H [P 0; OpTick; Rl 0; OpTick; P 1; OpTick; OpTick; OpTick]).
  destruct (run_ops dconf 10 _ dstart) as [k| |]; try contradiction. cbn [returns] in X. specialize (H k). rewrite X in H.
  apply H; [repeat constructor|apply steady_pace; repeat (constructor; [discriminate|]); constructor|reflexivity|reflexivity|].
  split; [left; reflexivity|right; left; reflexivity].
Qed.

Print Assumptions C76_pressed.
Print Assumptions C76_unique.
Print Assumptions C76_on_time.
Print Assumptions C76_one_outcome.
Print Assumptions C76_settled.
Print Assumptions C76_settles.
Print Assumptions C76_order_refuted.
