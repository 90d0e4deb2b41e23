(** C82: from the switches to the USB host, for keyboards with keys of each kind. *)
From Verif Require Import BaseFacts Output Types Scheduler Reporter Keymap SimpleKeys TapHold TapDance Sticky CapsWord Layered Automation Chorded Composite Samples SpecScheduler SpecKeymap KeymapInv KeymapQueue KeymapApi
  SpecPlain PlainFacts SpecLayer SpecBoard CApi CReport SpecCReport CCalls SpecCCalls CCallsFacts CFirmware SpecCFirmware CKeyboard SpecCKeyboard CKeyboardFacts
  SpecHost HostFacts PropertiesHost SpecDecide SpecTapBoard PropertiesTapBoard SpecDanceBoard PropertiesDanceBoard SpecChordBoard PropertiesChordBoard SpecMacroBoard PropertiesMacroBoard SpecMods SpecTyping PropertiesTyping.
Local Open Scope N_scope.

Section Ops.
Context {R Ctx Ev PKS KS : Type}.
Implicit Types (s : @fw R Ctx Ev PKS KS) (conf : kconf R Ctx Ev PKS KS).
Lemma fw_ops_plain s : Forall (fun o => plain_op o = true) (fw_ops s).
Proof. apply ops_of_plain. Qed.
Lemma fw_ops_pace s : one_pace (fw_ops s).
Proof.
  intros a ms z E. exfalso. assert (X : In (OpSetMs ms) (fw_ops s)) by (rewrite E; apply in_or_app; right; now left).
  unfold fw_ops in X. apply in_flat_map in X as ([e|] & _ & X); cbn in X; intuition discriminate.
Qed.
Lemma let_in_app conf fuel a b : forall k, let_in conf fuel (a ++ b) k = let_in conf fuel a k ++ match run_ops conf fuel a k with Ok k' => let_in conf fuel b k' | _ => [] end.
Proof.
  induction a as [|o a IH]; intros k; [reflexivity|]. cbn [app let_in]. unfold run_ops. cbn [fold_res]. rewrite <- app_assoc. f_equal.
  destruct (run_op conf fuel k o) as [k'| |]; cbn [bind]; [apply IH|reflexivity|reflexivity].
Qed.
Lemma let_in_polls conf fuel n : forall k, let_in conf fuel (polls n) k = [].
Proof.
  unfold polls. induction n as [|n IH]; intros k; [reflexivity|]. cbn [repeat flat_map app let_in].
  destruct (run_op conf fuel k OpTick) as [k1| |]; [|reflexivity|reflexivity]. cbn [app]. destruct (run_op conf fuel k1 OpReport) as [k2| |]; [apply IH|reflexivity|reflexivity].
Qed.
End Ops.
Lemma boots bl cs : filter_map (registered (start_ops bl)) cs = bootloader_calls bl cs.
Proof.
  unfold bootloader_calls. induction cs as [|c cs IH]; [reflexivity|]. cbn [filter_map]. rewrite IH. unfold registered, start_ops. cbn [registered_in]. destruct c; reflexivity.
Qed.

(** C82, tap-dance keys: the host sees what the keyboard sends after the calls of the
    firmware, each dance decided in its time; no dance goes on any more. *)
Theorem C82_tap_dances :
  forall refs d pos dbg height fuel cf rows cols idx bootloader closed scans s2 s, position_ok pos ->
  Forall (dance_board_key (cf_layer_count cf) d height) refs -> N.of_nat (length refs) <= 65535 -> (height + 8 <= fuel)%nat -> 0 < tdc_timeout (cf_tap_dance cf) ->
  wiring_ok rows cols (length refs) idx -> held_still (cconf refs d pos dbg) fuel rows cols (length refs) idx bootloader (ctx_from_config cf) closed scans s2 s ->
  N.of_nat (reports s2) + 2000 * (tdc_timeout (cf_tap_dance cf) + 1) + 16 <= N.of_nat (reports s) ->
  exists ds, SpecCKeyboard.typed rows cols (length refs) idx scans (fw_inputs s)
  /\ prompt_run (cf_layer_count cf) refs d (tdc_timeout (cf_tap_dance cf)) (fw_ops s) ds /\ da_dance ds = None /\ da_waiting ds = []
  /\ host_sees (board_output (da_board ds)) s
  /\ km_calls (rl_keymap (fw_loop s)) = bootloader_calls bootloader (da_calls ds).
Proof.
  intros refs d pos dbg height fuel cf rows cols idx bl closed scans s2 s Hpos Hr Hk Hf HT W Hst Hm.
  assert (B : N.of_nat (length refs) <= 65536) by lia.
  destruct (only_ticks _ _ _ _ _ _ _ _ _ _ _ _ _ _ _ _ _ B W Hst) as (k0 & m & E0 & Eo & Er & K2 & Km & K3 & Ty).
  set (q := N.to_nat (2000 * (tdc_timeout (cf_tap_dance cf) + 1))).
  assert (Hrest : comes_to_rest (cconf refs d pos dbg) fuel q (rl_keymap (fw_loop s2))).
  { intros k' E. apply (C76_settles refs d pos dbg height fuel (start_ops bl) (fw_ops s2) cf k0 q k' Hpos Hr Hf (start_two bl) (fw_ops_plain s2) (fw_ops_pace s2) E0); [subst q; lia|].
    unfold run_ops in *. rewrite fold_res_app, K2. exact E. }
  destruct (C82_at_rest _ _ _ _ _ _ _ _ _ _ _ _ _ _ _ _ _ _ B W Hst Hrest) as (kos & Hh & Hp & Hz); [subst q; lia|].
  destruct (C76_on_time _ _ _ _ _ _ _ _ _ _ _ Hpos Hr Hf (start_two bl) (fw_ops_plain s) (fw_ops_pace s) HT E0 K3) as (ds & Hrun & Hsh).
  destruct Hsh as (P & _ & _ & Hc & Hq & Hu). exists ds. split; [exact Ty|]. split; [exact Hrun|].
  assert (Hall : run_ops (cconf refs d pos dbg) fuel (start_ops bl ++ fw_ops s) (km_new (ctx_from_config cf)) = Ok (rl_keymap (fw_loop s))).
  { unfold fw_first, run_ops in *. rewrite fold_res_app. unfold start_ops. rewrite E0. exact K3. }
  split; [|split].
  - destruct (SpecDecide.undecided (rl_keymap (fw_loop s))) as [[i p]|] eqn:Eu; [|destruct (da_dance ds); [discriminate Hu|reflexivity]].
    destruct (PropertiesDecide.C52_asks_to_be_ticked _ _ _ _ _ _ _ _ _ Hpos Hall Eu) as (X & _). congruence.
  - rewrite <- Hq. unfold km_has_scheduled_events in Hz. destruct (km_inq _); [reflexivity|]. rewrite orb_true_r in Hz. discriminate.
  - assert (kos = board_output (da_board ds)) as <- by congruence. split; [exact Hh|]. rewrite Hc. apply boots.
Qed.

(** C82, tap-hold keys: if no input was dropped, the host sees what the keyboard sends
    after the inputs, for decisions that agree with them and with the time. *)
Theorem C82_tap_holds :
  forall refs d pos dbg height fuel cf rows cols idx bootloader closed scans s2 s k0, position_ok pos ->
  Forall (tap_board_key (cf_layer_count cf) d height) refs -> N.of_nat (length refs) <= 65535 -> (height + 8 <= fuel)%nat ->
  let conf := cconf refs d pos dbg in
  wiring_ok rows cols (length refs) idx -> held_still conf fuel rows cols (length refs) idx bootloader (ctx_from_config cf) closed scans s2 s ->
  fw_first conf fuel bootloader (ctx_from_config cf) k0 -> let_in conf fuel (fw_ops s) k0 = fw_inputs s ->
  N.of_nat (reports s2) + 96 * (thc_timeout (cf_tap_hold cf) + 1) + 16 <= N.of_nat (reports s) ->
  exists h xs b cs, SpecCKeyboard.typed rows cols (length refs) idx scans h
  /\ tap_run (cf_layer_count cf) refs d (thc_interrupt (cf_tap_hold cf)) (run_timing conf fuel (cf_tap_hold cf) k0 (fw_ops s)) h [] xs b cs
  /\ host_sees (board_output b) s
  /\ km_calls (rl_keymap (fw_loop s)) = bootloader_calls bootloader cs.
Proof.
  intros refs d pos dbg height fuel cf rows cols idx bl closed scans s2 s k0 Hpos Hr Hk Hf conf W Hst Hk0 Hall Hm. subst conf. set (conf := cconf refs d pos dbg) in *.
  assert (B : N.of_nat (length refs) <= 65536) by lia.
  destruct (only_ticks _ _ _ _ _ _ _ _ _ _ _ _ _ _ _ _ _ B W Hst) as (k0' & m & E0 & Eo & Er & K2 & Km & K3 & Ty).
  assert (k0' = k0) as -> by (unfold fw_first in *; congruence).
  assert (Ht : in_turn (let_in conf fuel (fw_ops s) k0)) by (rewrite Hall; eapply typed_in_turn; exact Ty).
  assert (El : let_in conf fuel (fw_ops s) k0 = let_in conf fuel (fw_ops s2) k0) by (rewrite Eo, let_in_app, K2, let_in_polls; apply app_nil_r).
  assert (Ht2 := Ht). rewrite El in Ht2.
  set (q := N.to_nat (96 * (thc_timeout (cf_tap_hold cf) + 1))).
  assert (Hrest : comes_to_rest conf fuel q (rl_keymap (fw_loop s2))).
  { intros k' E. apply (C68_settles refs d pos dbg height fuel (start_ops bl) (fw_ops s2) cf k0 q k' Hpos Hr Hf (start_two bl) (fw_ops_plain s2) (fw_ops_pace s2) E0 Ht2); [subst q; lia|].
    fold conf. unfold run_ops in *. rewrite fold_res_app, K2. exact E. }
  destruct (C82_at_rest _ _ _ _ _ _ _ _ _ _ _ _ _ _ _ _ _ _ B W Hst Hrest) as (kos & Hh & Hp & Hz); [subst q; lia|].
  destruct (C68_pressed _ _ _ _ _ _ _ _ _ _ _ Hr Hf (start_two bl) (fw_ops_plain s) E0 K3 Ht) as (taken & waiting & xs & b & cs & Ea & Hrun & P & _ & _ & Hc & Hu).
  assert (Hall' : run_ops conf fuel (start_ops bl ++ fw_ops s) (km_new (ctx_from_config cf)) = Ok (rl_keymap (fw_loop s))).
  { unfold fw_first, run_ops in *. rewrite fold_res_app. unfold start_ops. rewrite E0. exact K3. }
  destruct (undecided (rl_keymap (fw_loop s))) as [[i p]|] eqn:Eu.
  { destruct (PropertiesDecide.C52_asks_to_be_ticked _ _ _ _ _ _ _ _ _ Hpos Hall' Eu) as (X & _). congruence. }
  assert (Ew : waiting = []).
  { rewrite Hu. unfold km_has_scheduled_events in Hz. destruct (km_inq _); [reflexivity|]. rewrite orb_true_r in Hz. discriminate. }
  fold conf in Ea, Hrun. rewrite Ew, app_nil_r in Ea. exists (fw_inputs s), xs, b, cs. split; [exact Ty|]. rewrite <- Hall, Ea. rewrite Ew in Hrun. split; [exact Hrun|].
  fold conf in P. assert (kos = board_output b) as <- by congruence. split; [exact Hh|]. rewrite Hc. apply boots.
Qed.

(** C82, chords: if no input was dropped, the host sees what the keyboard sends after
    the inputs, for outcomes that suit them and the time. *)
Theorem C82_chords :
  forall refs d pos dbg height fuel cf rows cols idx bootloader closed scans s2 s k0, position_ok pos ->
  Forall (chord_board_key d (cf_layer_count cf) height) refs -> N.of_nat (length refs) <= 65535 -> (height + 9 <= fuel)%nat ->
  (length (chc_chords (cf_chorded cf)) <= 256)%nat ->
  let conf := cconf refs d pos dbg in
  wiring_ok rows cols (length refs) idx -> held_still conf fuel rows cols (length refs) idx bootloader (ctx_from_config cf) closed scans s2 s ->
  fw_first conf fuel bootloader (ctx_from_config cf) k0 -> let_in conf fuel (fw_ops s) k0 = fw_inputs s ->
  N.of_nat (reports s2) + 96 * (chc_timeout (cf_chorded cf) + 1) + 16 <= N.of_nat (reports s) ->
  exists h ys c cs, SpecCKeyboard.typed rows cols (length refs) idx scans h
  /\ chord_run d (chc_chords (cf_chorded cf)) (cf_layer_count cf) refs (chord_timing conf fuel (cf_chorded cf) k0 (fw_ops s)) h [] ys c cs
  /\ host_sees (board_output (cb_board c)) s
  /\ km_calls (rl_keymap (fw_loop s)) = bootloader_calls bootloader cs.
Proof.
  intros refs d pos dbg height fuel cf rows cols idx bl closed scans s2 s k0 Hpos Hr Hk Hf Hfew conf W Hst Hk0 Hall Hm. subst conf. set (conf := cconf refs d pos dbg) in *.
  assert (B : N.of_nat (length refs) <= 65536) by lia.
  destruct (only_ticks _ _ _ _ _ _ _ _ _ _ _ _ _ _ _ _ _ B W Hst) as (k0' & m & E0 & Eo & Er & K2 & Km & K3 & Ty).
  assert (k0' = k0) as -> by (unfold fw_first in *; congruence).
  assert (Ht : in_turn (let_in conf fuel (fw_ops s) k0)) by (rewrite Hall; eapply typed_in_turn; exact Ty).
  assert (El : let_in conf fuel (fw_ops s) k0 = let_in conf fuel (fw_ops s2) k0) by (rewrite Eo, let_in_app, K2, let_in_polls; apply app_nil_r).
  assert (Ht2 := Ht). rewrite El in Ht2.
  set (q := N.to_nat (96 * (chc_timeout (cf_chorded cf) + 1))).
  assert (Hrest : comes_to_rest conf fuel q (rl_keymap (fw_loop s2))).
  { intros k' E. apply (C71_settles refs d pos dbg height fuel (start_ops bl) (fw_ops s2) cf k0 q k' Hpos Hr Hf Hfew (start_two bl) (fw_ops_plain s2) (fw_ops_pace s2) E0 Ht2); [subst q; lia|].
    fold conf. unfold run_ops in *. rewrite fold_res_app, K2. exact E. }
  destruct (C82_at_rest _ _ _ _ _ _ _ _ _ _ _ _ _ _ _ _ _ _ B W Hst Hrest) as (kos & Hh & Hp & Hz); [subst q; lia|].
  destruct (C71_pressed _ _ _ _ _ _ _ _ _ _ _ Hr Hf Hfew (start_two bl) (fw_ops_plain s) E0 K3 Ht) as (taken & waiting & ys & c & cs & Ea & Hrun & P & _ & _ & Hc & Hu).
  assert (Hall' : run_ops conf fuel (start_ops bl ++ fw_ops s) (km_new (ctx_from_config cf)) = Ok (rl_keymap (fw_loop s))).
  { unfold fw_first, run_ops in *. rewrite fold_res_app. unfold start_ops. rewrite E0. exact K3. }
  destruct (SpecDecide.undecided (rl_keymap (fw_loop s))) as [[i p]|] eqn:Eu.
  { destruct (PropertiesDecide.C52_asks_to_be_ticked _ _ _ _ _ _ _ _ _ Hpos Hall' Eu) as (X & _). congruence. }
  assert (Ew : waiting = []).
  { rewrite Hu. unfold km_has_scheduled_events in Hz. destruct (km_inq _); [reflexivity|]. rewrite orb_true_r in Hz. discriminate. }
  fold conf in Ea, Hrun. rewrite Ew, app_nil_r in Ea. exists (fw_inputs s), ys, c, cs. split; [exact Ty|]. rewrite <- Hall, Ea. rewrite Ew in Hrun. split; [exact Hrun|].
  fold conf in P. assert (kos = board_output (cb_board c)) as <- by congruence. split; [exact Hh|]. rewrite Hc. apply boots.
Qed.

(** C82, macro keys: once the macros are played (and none is started again by a key that
    is held), the host sees what the keyboard sends; if no macro leaves a key of its own
    down, only keys of the keyboard are. *)
Theorem C82_macros :
  forall refs d pos dbg height fuel cf rows cols idx bootloader closed scans s2 s, position_ok pos ->
  Forall (macro_board_key (cf_layer_count cf) d (cf_automation cf) height) refs -> N.of_nat (length refs) <= 65535 ->
  wiring_ok rows cols (length refs) idx -> held_still (cconf refs d pos dbg) fuel rows cols (length refs) idx bootloader (ctx_from_config cf) closed scans s2 s ->
  (forall ps, play_run (cf_layer_count cf) refs d (cf_automation cf) (fw_ops s2) ps -> holds_nothing refs d (cf_automation cf) ps) ->
  N.of_nat (reports s2) + 100 * (mcost (cf_automation cf) (auc_instructions (cf_automation cf)) + 1) + 16 <= N.of_nat (reports s) ->
  exists ps, SpecCKeyboard.typed rows cols (length refs) idx scans (fw_inputs s)
  /\ play_run (cf_layer_count cf) refs d (cf_automation cf) (fw_ops s) ps
  /\ dk_queue (pl_desk ps) = [] /\ dk_alarms (pl_desk ps) = [] /\ pl_waiting ps = []
  /\ (Forall leaves_no_key (auc_instructions (cf_automation cf)) -> virtuals (bd_down (dk_board (pl_desk ps))) = [])
  /\ host_sees (board_output (dk_board (pl_desk ps))) s
  /\ km_calls (rl_keymap (fw_loop s)) = bootloader_calls bootloader (dk_calls (pl_desk ps)).
Proof.
  intros refs d pos dbg height fuel cf rows cols idx bl closed scans s2 s Hpos Hr Hk W Hst Hold Hm.
  assert (B : N.of_nat (length refs) <= 65536) by lia.
  pose proof (only_ticks _ _ _ _ _ _ _ _ _ _ _ _ _ _ _ _ _ B W Hst) as (k0 & m & E0 & Eo & Er & K2 & Km & K3 & Ty).
  set (q := N.to_nat (100 * (mcost (cf_automation cf) (auc_instructions (cf_automation cf)) + 1))).
  assert (Hms : 0 < ck_ms (clocks_run (fw_ops s2))).
  { pose proof (fw_ops_pace s2) as Hp. assert (X : forall ops c, 0 < ck_ms c -> ~ (exists ms, In (OpSetMs ms) ops) -> 0 < ck_ms (fold_left clocks_step ops c)).
    { induction ops as [|o ops IH]; intros c Hc Hn; [exact Hc|]. cbn [fold_left]. apply IH; [|intros (ms & Y); apply Hn; exists ms; now right].
      destruct o; cbn; try exact Hc; try (cbn; lia). exfalso. apply Hn. eexists. left. reflexivity. }
    apply X; [cbn; lia|]. intros (ms & Y). unfold fw_ops in Y. apply in_flat_map in Y as ([e|] & _ & Y); cbn in Y; intuition discriminate. }
  assert (Hrest : comes_to_rest (cconf refs d pos dbg) fuel q (rl_keymap (fw_loop s2))).
  { intros k' E. apply (C77_settles refs d pos dbg height fuel (start_ops bl) (fw_ops s2) cf k0 q k' Hpos Hr (start_two bl) (fw_ops_plain s2) Hms E0 Hold); [subst q; lia|].
    unfold run_ops in *. rewrite fold_res_app, K2. exact E. }
  destruct (C82_at_rest _ _ _ _ _ _ _ _ _ _ _ _ _ _ _ _ _ _ B W Hst Hrest) as (kos & Hh & Hp & Hz); [subst q; lia|].
  destruct (C77_settled _ _ _ _ _ _ _ _ _ _ _ Hpos Hr (start_two bl) (fw_ops_plain s) E0 K3 Hz) as (ps & Hrun & (P & _ & _ & Hc & _) & Q1 & Q2 & Q3 & Q4).
  exists ps. split; [exact Ty|]. split; [exact Hrun|]. split; [exact Q1|]. split; [exact Q2|]. split; [exact Q3|]. split; [|split].
  - intros Hl. apply Q4; [exact Hl|]. apply Forall_forall. intros o Ho. destruct o; try exact Logic.I.
    assert (Hi : In ev (fw_inputs s)).
    { unfold fw_inputs, inputs. revert Ho. generalize (fw_ops s). intros l. induction l as [|o l IH]; intros Ho; [destruct Ho|].
      destruct Ho as [->|Ho]; cbn [filter_map]; [now left|]. specialize (IH Ho). destruct o; auto; now right. }
    destruct Ty as (ca & _ & _ & Eh). rewrite Eh in Hi. apply in_flat_map in Hi as (j & _ & Hi). apply in_map_iff in Hi as (e' & Ee & Hi). unfold changes in Hi. apply in_flat_map in Hi as (i & _ & Hi).
    destruct (eqb _ _); [destruct Hi|]. destruct Hi as [<-|[]]. rewrite <- Ee. destruct (ca i (S j)); cbn; tauto.
  - assert (kos = board_output (dk_board (pl_desk ps))) as <- by congruence. exact Hh.
  - rewrite Hc. apply boots.
Qed.

(** C82, one-shot modifiers, one-shot layers and caps word: the host sees what the
    keyboard sends after the inputs that found room. *)
Theorem C82_one_shots :
  forall refs d pos dbg height fuel cf rows cols idx bootloader closed scans s2 s,
  Forall (tkey (cf_layer_count cf) d height) refs -> N.of_nat (length refs) <= 65535 ->
  wiring_ok rows cols (length refs) idx -> held_still (cconf refs d pos dbg) fuel rows cols (length refs) idx bootloader (ctx_from_config cf) closed scans s2 s ->
  (reports s2 + 48 <= reports s)%nat ->
  exists b, SpecCKeyboard.typed rows cols (length refs) idx scans (fw_inputs s)
  /\ trun (stc_release (cf_sticky cf)) (cf_layer_count cf) refs d (fw_accepted s) b
  /\ host_sees (tboard_output b) s
  /\ km_calls (rl_keymap (fw_loop s)) = bootloader_calls bootloader (tb_calls b).
Proof.
  intros refs d pos dbg height fuel cf rows cols idx bl closed scans s2 s Hr Hk W Hst Hm.
  assert (B : N.of_nat (length refs) <= 65536) by lia.
  pose proof (only_ticks _ _ _ _ _ _ _ _ _ _ _ _ _ _ _ _ _ B W Hst) as (k0 & m & E0 & Eo & Er & K2 & Km & K3 & Ty).
  assert (Ea : fw_accepted s = accepted (fw_ops s2)) by (unfold fw_accepted; rewrite Eo; apply polls_accepted).
  assert (Hall : forall n k', (32 <= n)%nat -> run_ops (cconf refs d pos dbg) fuel (repeat OpTick n) (rl_keymap (fw_loop s2)) = Ok k' ->
    exists b, trun (stc_release (cf_sticky cf)) (cf_layer_count cf) refs d (fw_accepted s) b /\ km_pressed_keys (cconf refs d pos dbg) k' = Ok (tboard_output b)
    /\ km_calls k' = bootloader_calls bl (tb_calls b)).
  { intros n k' Hn E. destruct (C70_settled refs d pos dbg height fuel (start_ops bl) (fw_ops s2) cf k' n Hr (start_two bl) (fw_ops_plain s2) Hn) as (b & Hb & Hp & _ & _ & _ & _ & Hc).
    { unfold fw_first, run_ops in *. rewrite !fold_res_app. unfold start_ops. rewrite E0. cbn [bind]. rewrite fold_res_app, K2. exact E. }
    exists b. rewrite Ea. split; [exact Hb|]. split; [exact Hp|]. rewrite Hc. apply boots. }
  destruct (polls_as_ticks _ fuel _ _ _ Km) as (k1 & E1 & P1 & _ & C1 & _).
  destruct (Hall m k1 ltac:(lia) E1) as (b & Hb & Hp & Hc).
  assert (Hq : comes_to (cconf refs d pos dbg) fuel 32 (rl_keymap (fw_loop s2)) (tboard_output b)).
  { intros n k' Hn E. destruct (Hall n k' Hn E) as (b' & Hb' & Hp' & _). assert (b' = b) as -> by (eapply C70_unique; eassumption). exact Hp'. }
  destruct (C82_host_sees _ _ _ _ _ _ _ _ _ _ _ _ _ _ _ _ _ _ _ B W Hst Hq) as (Hh & _); [lia|].
  exists b. split; [exact Ty|]. split; [exact Hb|]. split; [exact Hh|]. now rewrite <- C1.
Qed.

(** *** An example: the keyboard of C68 with a timeout of 4 ms on a matrix of one row.
    Key 0 switches to layer 1 if held; it is held, and then key 1: the host sees what
    key 1 is on layer 1, and all that C82_tap_holds asks for is the case. *)
Fixpoint row_calm (conf : kconf ref cctx cev cpks cks) (fuel : nat) (l : list fw_step) (s : fw) : bool :=
  match l with
  | [] => true
  | a :: t =>
      match a with
      | FwTimer _ => match rl_at (fw_loop s) with Some (_, StCopy _) => false | _ => true end
      | FwHost c => match rl_at (fw_loop s) with Some (d, StBusy) => negb (chan_eqb c d) | _ => true end
      | FwReset => false
      | _ => true
      end && match fw_do conf fuel 1 4 PropertiesCKeyboard.grid s a with Ok s' => row_calm conf fuel t s' | _ => true end
  end.
Lemma row_calm_ok conf fuel l : forall s, row_calm conf fuel l s = true -> fw_all_calm conf fuel 1 4 PropertiesCKeyboard.grid l s.
Proof.
  induction l as [|a l IH]; intros s H; cbn [row_calm fw_all_calm] in *; [exact Logic.I|]. apply andb_prop in H as [H1 H2]. split.
  - destruct a as [cl| |c| |]; cbn [fw_calm rl_calm]; try exact Logic.I; try discriminate; destruct (rl_at (fw_loop s)) as [[d [| | |i| | | |i|]]|]; try exact Logic.I; try discriminate.
    intros X. injection X as ->. now rewrite CReportFacts.chan_eqb_refl in H1.
  - destruct (fw_do conf fuel 1 4 PropertiesCKeyboard.grid s a); auto.
Qed.
Definition row_conf := cconf PropertiesTapBoard.tap_refs PropertiesTapBoard.tap_data bs_std false.
Definition row_ctx : cctx := ctx_from_config (PropertiesTapBoard.tap_config IrHoldOnKeyTap None).
Definition row_1 : list fw_step := [FwEnumerate] ++ PropertiesCKeyboard.scan [0%nat] 14.
Definition row_2 : list fw_step := PropertiesCKeyboard.scan [0; 1]%nat 20 ++ PropertiesCKeyboard.send.
Definition row_3 : list fw_step := PropertiesCKeyboard.scan [0; 1]%nat 496.
Lemma row_fact :
  returns (run_ops row_conf 10 [OpSetCallback CbResetToBootloader 9; OpInit] (km_new row_ctx)) (fun k0 =>
  returns (fw_start 1 4 9 (PropertiesCKeyboard.hold_keys []) (km_new row_ctx)) (fun o => match o with
    | Some s0 => row_calm row_conf 10 (row_1 ++ row_2 ++ row_3) s0 = true
        /\ returns (fw_run row_conf 10 1 4 PropertiesCKeyboard.grid (row_1 ++ row_2) s0) (fun s2 => returns (fw_run row_conf 10 1 4 PropertiesCKeyboard.grid row_3 s2) (fun s =>
             Nat.leb (reports s2 + 496) (reports s) = true /\ let_in row_conf 10 (fw_ops s) k0 = [Press 0; Press 1] /\ fw_inputs s = [Press 0; Press 1]
             /\ received ChKb (fw_loop s) = [[0; 0; 7; 0; 0; 0; 0; 0]]))
    | None => False
    end)).
Proof. vm_compute. repeat split; reflexivity. Qed.
Lemma scan_steady ks n : steady 1 4 (PropertiesCKeyboard.hold_keys ks) (PropertiesCKeyboard.scan ks n).
Proof. unfold steady, PropertiesCKeyboard.scan. induction n as [|n IH]; cbn; constructor; [reflexivity|exact IH]. Qed.
Example C82_example : exists s2 s k0,
  position_ok bs_std /\ Forall (tap_board_key 1 PropertiesTapBoard.tap_data 2) PropertiesTapBoard.tap_refs /\ (2 + 8 <= 10)%nat /\ wiring_ok 1 4 4 PropertiesCKeyboard.grid
  /\ held_still row_conf 10 1 4 4 PropertiesCKeyboard.grid 9 row_ctx (PropertiesCKeyboard.hold_keys [0; 1]%nat) (switches (row_1 ++ row_2 ++ row_3)) s2 s
  /\ fw_first row_conf 10 9 row_ctx k0 /\ let_in row_conf 10 (fw_ops s) k0 = fw_inputs s /\ fw_inputs s = [Press 0; Press 1]
  /\ (reports s2 + 96 * (4 + 1) + 16 <= reports s)%nat
  /\ last (received ChKb (fw_loop s)) (repeat 0 8) = [0; 0; 7; 0; 0; 0; 0; 0].
Proof.
  destruct (PropertiesCKeyboard.fw_returns _ _ row_fact) as (k0 & E0 & F0). destruct (PropertiesCKeyboard.fw_returns _ _ F0) as ([s0|] & Es & F); [|destruct F]. destruct F as (C & F).
  destruct (PropertiesCKeyboard.fw_returns _ _ F) as (s2 & E2 & F2). destruct (PropertiesCKeyboard.fw_returns _ _ F2) as (s & E3 & Hm & Hl & Hi & Hr). apply Nat.leb_le in Hm.
  exists s2, s, k0. split; [exact SchedulerFacts.bs_std_position_ok|]. split; [exact tap_refs_ok|]. split; [lia|]. split.
  { split; unfold PropertiesCKeyboard.grid; [intros r c i ? ? X; injection X as <-; lia|intros r c r' c' i ? ? ? ? X Y; injection X as <-; injection Y as Y; lia]. }
  split; [|split; [exact E0|]; split; [congruence|]; split; [exact Hi|]; split; [lia|]; now rewrite Hr].
  exists (PropertiesCKeyboard.hold_keys []), row_1, row_2, row_3, s0. split; [exact Es|]. split; [exact E2|]. split; [exact E3|]. split; [apply row_calm_ok; exact C|].
  split; [unfold steady; vm_compute; repeat constructor|]. split; [vm_compute; lia|]. split; [apply scan_steady|reflexivity].
Qed.

Print Assumptions C82_tap_dances.
Print Assumptions C82_tap_holds.
Print Assumptions C82_chords.
Print Assumptions C82_macros.
Print Assumptions C82_one_shots.
