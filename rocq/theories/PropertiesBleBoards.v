(** C85: from the switches to the Bluetooth host, for keyboards with tap-hold keys,
    chords, tap-dance keys and macros. *)
From Verif Require Import BaseFacts Output Types Scheduler Reporter Keymap SimpleKeys TapHold TapDance Layered Automation Chorded Composite SpecScheduler SpecKeymap KeymapInv KeymapQueue KeymapApi
  SpecPlain PlainFacts SpecLayer SpecBoard SpecOutput CApi CReport SpecCReport CFirmware SpecCFirmware CFirmwareFacts SpecHost HostFacts CKeyboardFacts SpecCCalls CBle SpecCBle PropertiesCBle SpecBleHost BleHostFacts PropertiesBleHost BleTidy
  SpecDecide SpecTapBoard PropertiesTapBoard SpecDanceBoard PropertiesDanceBoard SpecChordBoard PropertiesChordBoard SpecMacroBoard PropertiesMacroBoard PropertiesHostBoards
  Ncl NclCodegen SpecNcl SpecNclBoard PropertiesNcl SpecNclTap PropertiesNclTap SpecNclChord PropertiesNclChord PropertiesNclTyping.
Local Open Scope N_scope.

Lemma from_app a x : comes_from a x -> forall b y, comes_from b y -> comes_from (a ++ b) (x ++ y).
Proof. induction 1; intros b y Hb; cbn [app]; rewrite <- ?app_assoc; cbn [app]; try constructor; auto. Qed.
Lemma from_pace l ops : comes_from l ops -> forall ms, ~ In (OpSetMs ms) ops.
Proof.
  assert (T : forall m ms, ~ In (OpSetMs ms) (repeat OpTick m)) by (intros m ms X; apply repeat_spec in X; discriminate).
  induction 1; intros ms X; [destruct X|apply in_app_or in X as [X|X]; [now apply T in X|]| |apply in_app_or in X as [X|X]; [now apply T in X|]|];
    repeat (destruct X as [X|X]; [discriminate|]); now apply (IHcomes_from ms).
Qed.
Lemma slow_pace l ops : comes_from l ops -> one_pace (OpSetMs 8 :: ops).
Proof.
  intros H a ms z E. destruct a as [|x a]; injection E as E1 E2; [subst; split; [lia|reflexivity]|].
  exfalso. apply (from_pace _ _ H ms). rewrite E2. apply in_or_app. right. now left.
Qed.
Lemma slow_ms l ops : comes_from l ops -> 0 < ck_ms (clocks_run (OpSetMs 8 :: ops)).
Proof.
  intros H. pose proof (from_pace _ _ H) as Hn. unfold clocks_run. cbn [fold_left].
  assert (X : forall ops c, 0 < ck_ms c -> (forall ms, ~ In (OpSetMs ms) ops) -> 0 < ck_ms (fold_left clocks_step ops c)).
  { clear. induction ops as [|o ops IH]; intros c Hc Hn; [exact Hc|]. cbn [fold_left]. apply IH; [|intros ms Y; apply (Hn ms); now right].
    destruct o; cbn; try exact Hc; try (cbn; lia). exfalso. apply (Hn ms). now left. }
  apply X; [cbn; lia|exact Hn].
Qed.
Lemma turns_scan_events keys raws : forall before l, levels keys (down_in before) l -> turns l (map meant (scan_events keys before raws)).
Proof.
  induction raws as [|raw raws IH]; intros before l H; cbn [scan_events map]; [exact Logic.I|].
  rewrite map_app. apply turns_app. split; [now apply turns_changes|]. apply IH. now apply levels_changes.
Qed.
Lemma scans_in_turn keys raws : in_turn (map meant (scan_events keys (repeat false keys) raws)).
Proof.
  apply turns_in_turn, turns_scan_events. eapply levels_ext; [|apply levels_new]. intros i Hi. unfold down_in. now rewrite nth_repeat.
Qed.
Lemma scans_real keys raws : forall before ev, In ev (map meant (scan_events keys before raws)) -> ~ is_virtual_input ev.
Proof.
  induction raws as [|raw raws IH]; intros before ev H; cbn [scan_events map] in H; [destruct H|]. rewrite map_app in H. apply in_app_or in H as [H|H]; [|eapply IH; exact H].
  apply in_map_iff in H as (e & <- & H). unfold changes in H. apply in_flat_map in H as (i & _ & H). destruct (eqb _ _); [destruct H|]. destruct H as [<-|[]]. destruct (down_in raw i); cbn; tauto.
Qed.
Lemma let_in_none R Ctx Ev PKS KS (conf : kconf R Ctx Ev PKS KS) fuel ops : inputs ops = [] -> forall k, let_in conf fuel ops k = [].
Proof.
  induction ops as [|o ops IH]; intros H k; [reflexivity|]. cbn [let_in]. destruct o; try discriminate H; cbn [app]; destruct (run_op conf fuel k _); auto.
Qed.

(** The calls of the keymap's API that the firmware makes: to start, and then [ops]. *)
Definition slow_start (cf : config) : ckeymap := keymap_init (km_new (ctx_from_config cf)).

Lemma ble_ops refs d pos dbg fuel cf keys l1 l3 s2 s : let conf := cconf refs d pos dbg in
  N.of_nat keys <= 65536 -> reads_keys keys (l1 ++ l3) ->
  bl_run conf fuel l1 (ble_new keys (km_new (ctx_from_config cf))) = Ok s2 -> bl_run conf fuel l3 s2 = Ok s -> keys_still keys s2 s ->
  exists ops2 ops3, comes_from (bl_calls s2) ops2 /\ comes_from (bl_calls s) (ops2 ++ ops3) /\ inputs ops3 = []
  /\ inputs ops2 = map meant (scan_events keys (repeat false keys) (bl_scans s))
  /\ run_ops conf fuel (OpSetMs 8 :: ops2) (slow_start cf) = Ok (bl_keymap s2)
  /\ run_ops conf fuel (OpSetMs 8 :: ops2 ++ ops3) (slow_start cf) = Ok (bl_keymap s)
  /\ run_ops conf fuel [OpInit] (km_new (ctx_from_config cf)) = Ok (slow_start cf).
Proof.
  intros conf Hk Hl H1 H3 Hs.
  assert (R1 : reads_keys keys l1) by (intros raw ok X; apply (Hl raw ok), in_or_app; auto).
  pose proof (C58_events _ _ _ _ _ _ _ _ _ _ _ Hk R1 H1) as E1. pose proof (C58_plain _ _ _ _ _ _ _ _ _ _ _ Hk R1 H1) as P1.
  destruct (still_calls _ _ _ _ _ _ _ _ _ _ _ _ _ Hk Hl H1 H3 Hs) as (cs & rs & Ec & Hc & Hp & _ & _).
  destruct (plain_ops conf fuel _ _ _ _ P1) as (ops & Ho & Er). destruct (plain_ops conf fuel _ _ _ _ Hp) as (ops3 & Ho3 & Er3).
  exists ops, ops3. split; [exact Ho|]. split; [rewrite Ec; now apply from_app|]. split; [|split; [|split; [|split]]].
  - change (inputs ops3) with (SpecCKeyboard.inputs ops3). rewrite (from_inputs _ _ Ho3). assert (X : ble_events cs = []); [|now rewrite X].
    clear - Hc. unfold ble_events. induction Hc as [|c cs Hc _ IH]; [reflexivity|]. destruct c; try discriminate Hc; exact IH.
  - change (inputs ops) with (SpecCKeyboard.inputs ops). rewrite (from_inputs _ _ Ho), E1. destruct Hs as (n & ->). now rewrite scan_events_app, scan_events_still, app_nil_r.
  - exact Er.
  - change (OpSetMs 8 :: ops ++ ops3) with ((OpSetMs 8 :: ops) ++ ops3). unfold run_ops in *. rewrite fold_res_app.
    assert (X : fold_res (run_op conf fuel) (OpSetMs 8 :: ops) (slow_start cf) = Ok (bl_keymap s2)) by exact Er. rewrite X. exact Er3.
  - reflexivity.
Qed.
Lemma init_two : registers_two [OpInit].
Proof. exists CbReset, CbReset. constructor; [now left|constructor]. Qed.

(** C85, tap-hold keys: the calls of the firmware have the changes of the switches as
    their inputs, in order; if none was dropped, as is so if there are at most 31, the
    host sees what the keyboard sends after them, for decisions that suit the inputs and
    the time. *)
Theorem C85_tap_holds :
  forall refs d pos dbg height fuel cf keys l1 l3 s2 s, position_ok pos ->
  Forall (tap_board_key (cf_layer_count cf) d height) refs -> (height + 8 <= fuel)%nat ->
  let conf := cconf refs d pos dbg in
  N.of_nat keys <= 65536 -> reads_keys keys (l1 ++ l3) -> all_succeed (l1 ++ l3) ->
  bl_run conf fuel l1 (ble_new keys (km_new (ctx_from_config cf))) = Ok s2 -> bl_run conf fuel l3 s2 = Ok s ->
  keys_still keys s2 s -> N.of_nat (ble_ticks s2) + 96 * (thc_timeout (cf_tap_hold cf) + 1) + 16 <= N.of_nat (ble_ticks s) ->
  let changed := map meant (scan_events keys (repeat false keys) (bl_scans s)) in
  exists ops, comes_from (bl_calls s) ops /\ inputs ops = changed
  /\ run_ops conf fuel (OpSetMs 8 :: ops) (slow_start cf) = Ok (bl_keymap s)
  /\ ((length changed <= 31)%nat -> let_in conf fuel (OpSetMs 8 :: ops) (slow_start cf) = changed)
  /\ (let_in conf fuel (OpSetMs 8 :: ops) (slow_start cf) = changed ->
      exists xs b cs,
        tap_run (cf_layer_count cf) refs d (thc_interrupt (cf_tap_hold cf)) (run_timing conf fuel (cf_tap_hold cf) (slow_start cf) (OpSetMs 8 :: ops)) changed [] xs b cs
        /\ km_pressed_keys conf (bl_keymap s) = Ok (board_output b)
        /\ forall c, ~ due_evt (EvReport c) s -> ble_host_sees (board_output b) c s).
Proof.
  intros refs d pos dbg height fuel cf keys l1 l3 s2 s Hpos Hr Hf conf Hk Hl Ha H1 H3 Hs Hn changed.
  destruct (ble_ops _ _ _ _ _ _ _ _ _ _ _ Hk Hl H1 H3 Hs) as (ops2 & ops3 & Ho2 & Ho & Ei3 & Ei2 & R2 & R3 & R0).
  set (ops := ops2 ++ ops3) in *. assert (Ein : inputs ops = changed) by (unfold ops, inputs; rewrite filter_map_app; fold (inputs ops2) (inputs ops3); now rewrite Ei3, app_nil_r).
  assert (Pl : Forall (fun o => plain_op o = true) (OpSetMs 8 :: ops)) by (constructor; [reflexivity|]; eapply from_plain; exact Ho).
  assert (Pl2 : Forall (fun o => plain_op o = true) (OpSetMs 8 :: ops2)) by (constructor; [reflexivity|]; eapply from_plain; exact Ho2).
  assert (Tu : in_turn changed) by apply scans_in_turn.
  assert (El : let_in conf fuel (OpSetMs 8 :: ops) (slow_start cf) = let_in conf fuel (OpSetMs 8 :: ops2) (slow_start cf)).
  { unfold ops. change (OpSetMs 8 :: ops2 ++ ops3) with ((OpSetMs 8 :: ops2) ++ ops3). rewrite let_in_app. fold conf in R2. rewrite R2, (let_in_none _ _ _ _ _ conf fuel ops3 Ei3). apply app_nil_r. }
  exists ops. split; [exact Ho|]. split; [exact Ein|]. split; [exact R3|]. split.
  - intros Hfew. assert (X := C68_nothing_dropped refs d pos dbg height fuel [OpInit] (OpSetMs 8 :: ops) cf _ _ Hr Hf init_two Pl R0 R3).
    change (inputs (OpSetMs 8 :: ops)) with (inputs ops) in X. rewrite Ein in X. exact (X Tu Hfew).
  - intros Hall. assert (Ht : in_turn (let_in conf fuel (OpSetMs 8 :: ops) (slow_start cf))) by (rewrite Hall; exact Tu). assert (Ht2 := Ht). rewrite El in Ht2.
    set (q := N.to_nat (96 * (thc_timeout (cf_tap_hold cf) + 1))).
    assert (Hrest : comes_to_rest conf fuel q (bl_keymap s2)).
    { intros k' E. apply (C68_settles refs d pos dbg height fuel [OpInit] (OpSetMs 8 :: ops2) cf _ q k' Hpos Hr Hf init_two Pl2 (slow_pace _ _ Ho2) R0 Ht2); [subst q; lia|].
      fold conf in R2 |- *. unfold run_ops in *. rewrite fold_res_app, R2. exact E. }
    destruct (C68_pressed _ _ _ _ _ _ _ _ _ _ _ Hr Hf init_two Pl R0 R3 Ht) as (taken & waiting & xs & b & cs & Ea & Hrun & P & _ & _ & _ & Hu).
    destruct (C83_at_rest _ _ _ _ _ _ _ _ _ _ _ _ _ q _ Hk Hl Ha H1 H3 Hs Hrest ltac:(subst q; lia) P) as (Hz & Hh).
    assert (Hall' : run_ops conf fuel ([OpInit] ++ OpSetMs 8 :: ops) (km_new (ctx_from_config cf)) = Ok (bl_keymap s)) by exact R3.
    destruct (undecided (bl_keymap s)) as [[i p]|] eqn:Eu.
    { destruct (PropertiesDecide.C52_asks_to_be_ticked _ _ _ _ _ _ _ _ _ Hpos Hall' Eu) as (X & _). congruence. }
    assert (Ew : waiting = []).
    { rewrite Hu. unfold km_has_scheduled_events in Hz. destruct (km_inq _); [reflexivity|]. rewrite orb_true_r in Hz. discriminate. }
    fold conf in Ea, Hrun. rewrite Ew, app_nil_r in Ea. rewrite Ew in Hrun. exists xs, b, cs. split; [|split; [exact P|exact Hh]]. rewrite <- Hall, Ea. exact Hrun.
Qed.

(** C85, chords: likewise, the keys that came to form a chord being the key of that
    chord. *)
Theorem C85_chords :
  forall refs d pos dbg height fuel cf keys l1 l3 s2 s, position_ok pos ->
  Forall (chord_board_key d (cf_layer_count cf) height) refs -> (height + 9 <= fuel)%nat -> (length (chc_chords (cf_chorded cf)) <= 256)%nat ->
  let conf := cconf refs d pos dbg in
  N.of_nat keys <= 65536 -> reads_keys keys (l1 ++ l3) -> all_succeed (l1 ++ l3) ->
  bl_run conf fuel l1 (ble_new keys (km_new (ctx_from_config cf))) = Ok s2 -> bl_run conf fuel l3 s2 = Ok s ->
  keys_still keys s2 s -> N.of_nat (ble_ticks s2) + 96 * (chc_timeout (cf_chorded cf) + 1) + 16 <= N.of_nat (ble_ticks s) ->
  let changed := map meant (scan_events keys (repeat false keys) (bl_scans s)) in
  exists ops, comes_from (bl_calls s) ops /\ inputs ops = changed
  /\ run_ops conf fuel (OpSetMs 8 :: ops) (slow_start cf) = Ok (bl_keymap s)
  /\ ((length changed <= 31)%nat -> let_in conf fuel (OpSetMs 8 :: ops) (slow_start cf) = changed)
  /\ (let_in conf fuel (OpSetMs 8 :: ops) (slow_start cf) = changed ->
      exists ys c cs,
        chord_run d (chc_chords (cf_chorded cf)) (cf_layer_count cf) refs (chord_timing conf fuel (cf_chorded cf) (slow_start cf) (OpSetMs 8 :: ops)) changed [] ys c cs
        /\ km_pressed_keys conf (bl_keymap s) = Ok (board_output (cb_board c))
        /\ forall ch, ~ due_evt (EvReport ch) s -> ble_host_sees (board_output (cb_board c)) ch s).
Proof.
  intros refs d pos dbg height fuel cf keys l1 l3 s2 s Hpos Hr Hf Hfc conf Hk Hl Ha H1 H3 Hs Hn changed.
  destruct (ble_ops _ _ _ _ _ _ _ _ _ _ _ Hk Hl H1 H3 Hs) as (ops2 & ops3 & Ho2 & Ho & Ei3 & Ei2 & R2 & R3 & R0).
  set (ops := ops2 ++ ops3) in *. assert (Ein : inputs ops = changed) by (unfold ops, inputs; rewrite filter_map_app; fold (inputs ops2) (inputs ops3); now rewrite Ei3, app_nil_r).
  assert (Pl : Forall (fun o => plain_op o = true) (OpSetMs 8 :: ops)) by (constructor; [reflexivity|]; eapply from_plain; exact Ho).
  assert (Pl2 : Forall (fun o => plain_op o = true) (OpSetMs 8 :: ops2)) by (constructor; [reflexivity|]; eapply from_plain; exact Ho2).
  assert (Tu : in_turn changed) by apply scans_in_turn.
  assert (El : let_in conf fuel (OpSetMs 8 :: ops) (slow_start cf) = let_in conf fuel (OpSetMs 8 :: ops2) (slow_start cf)).
  { unfold ops. change (OpSetMs 8 :: ops2 ++ ops3) with ((OpSetMs 8 :: ops2) ++ ops3). rewrite let_in_app. fold conf in R2. rewrite R2, (let_in_none _ _ _ _ _ conf fuel ops3 Ei3). apply app_nil_r. }
  exists ops. split; [exact Ho|]. split; [exact Ein|]. split; [exact R3|]. split.
  - intros Hfew. assert (X := C71_nothing_dropped refs d pos dbg height fuel [OpInit] (OpSetMs 8 :: ops) cf _ _ Hr Hf Hfc init_two Pl R0 R3).
    change (inputs (OpSetMs 8 :: ops)) with (inputs ops) in X. rewrite Ein in X. exact (X Tu Hfew).
  - intros Hall. assert (Ht : in_turn (let_in conf fuel (OpSetMs 8 :: ops) (slow_start cf))) by (rewrite Hall; exact Tu). assert (Ht2 := Ht). rewrite El in Ht2.
    set (q := N.to_nat (96 * (chc_timeout (cf_chorded cf) + 1))).
    assert (Hrest : comes_to_rest conf fuel q (bl_keymap s2)).
    { intros k' E. apply (C71_settles refs d pos dbg height fuel [OpInit] (OpSetMs 8 :: ops2) cf _ q k' Hpos Hr Hf Hfc init_two Pl2 (slow_pace _ _ Ho2) R0 Ht2); [subst q; lia|].
      fold conf in R2 |- *. unfold run_ops in *. rewrite fold_res_app, R2. exact E. }
    destruct (C71_pressed _ _ _ _ _ _ _ _ _ _ _ Hr Hf Hfc init_two Pl R0 R3 Ht) as (taken & waiting & ys & c & cs & Ea & Hrun & P & _ & _ & _ & Hu).
    destruct (C83_at_rest _ _ _ _ _ _ _ _ _ _ _ _ _ q _ Hk Hl Ha H1 H3 Hs Hrest ltac:(subst q; lia) P) as (Hz & Hh).
    assert (Hall' : run_ops conf fuel ([OpInit] ++ OpSetMs 8 :: ops) (km_new (ctx_from_config cf)) = Ok (bl_keymap s)) by exact R3.
    destruct (SpecDecide.undecided (bl_keymap s)) as [[i p]|] eqn:Eu.
    { destruct (PropertiesDecide.C52_asks_to_be_ticked _ _ _ _ _ _ _ _ _ Hpos Hall' Eu) as (X & _). congruence. }
    assert (Ew : waiting = []).
    { rewrite Hu. unfold km_has_scheduled_events in Hz. destruct (km_inq _); [reflexivity|]. rewrite orb_true_r in Hz. discriminate. }
    fold conf in Ea, Hrun. rewrite Ew, app_nil_r in Ea. rewrite Ew in Hrun. exists ys, c, cs. split; [|split; [exact P|exact Hh]]. rewrite <- Hall, Ea. exact Hrun.
Qed.

(** C85, tap-dance keys: the host sees what the keyboard sends after the calls of the
    firmware, each dance decided in its time; no dance goes on any more. *)
Theorem C85_tap_dances :
  forall refs d pos dbg height fuel cf keys l1 l3 s2 s, position_ok pos ->
  Forall (dance_board_key (cf_layer_count cf) d height) refs -> (height + 8 <= fuel)%nat -> 0 < tdc_timeout (cf_tap_dance cf) ->
  let conf := cconf refs d pos dbg in
  N.of_nat keys <= 65536 -> reads_keys keys (l1 ++ l3) -> all_succeed (l1 ++ l3) ->
  bl_run conf fuel l1 (ble_new keys (km_new (ctx_from_config cf))) = Ok s2 -> bl_run conf fuel l3 s2 = Ok s ->
  keys_still keys s2 s -> N.of_nat (ble_ticks s2) + 2000 * (tdc_timeout (cf_tap_dance cf) + 1) + 16 <= N.of_nat (ble_ticks s) ->
  let changed := map meant (scan_events keys (repeat false keys) (bl_scans s)) in
  exists ops ds, comes_from (bl_calls s) ops /\ inputs ops = changed
  /\ run_ops conf fuel (OpSetMs 8 :: ops) (slow_start cf) = Ok (bl_keymap s)
  /\ prompt_run (cf_layer_count cf) refs d (tdc_timeout (cf_tap_dance cf)) (OpSetMs 8 :: ops) ds /\ da_dance ds = None /\ da_waiting ds = []
  /\ km_pressed_keys conf (bl_keymap s) = Ok (board_output (da_board ds))
  /\ forall c, ~ due_evt (EvReport c) s -> ble_host_sees (board_output (da_board ds)) c s.
Proof.
  intros refs d pos dbg height fuel cf keys l1 l3 s2 s Hpos Hr Hf HT conf Hk Hl Ha H1 H3 Hs Hn changed.
  destruct (ble_ops _ _ _ _ _ _ _ _ _ _ _ Hk Hl H1 H3 Hs) as (ops2 & ops3 & Ho2 & Ho & Ei3 & Ei2 & R2 & R3 & R0).
  set (ops := ops2 ++ ops3) in *. assert (Ein : inputs ops = changed) by (unfold ops, inputs; rewrite filter_map_app; fold (inputs ops2) (inputs ops3); now rewrite Ei3, app_nil_r).
  assert (Pl : Forall (fun o => plain_op o = true) (OpSetMs 8 :: ops)) by (constructor; [reflexivity|]; eapply from_plain; exact Ho).
  assert (Pl2 : Forall (fun o => plain_op o = true) (OpSetMs 8 :: ops2)) by (constructor; [reflexivity|]; eapply from_plain; exact Ho2).
  set (q := N.to_nat (2000 * (tdc_timeout (cf_tap_dance cf) + 1))).
  assert (Hrest : comes_to_rest conf fuel q (bl_keymap s2)).
  { intros k' E. apply (C76_settles refs d pos dbg height fuel [OpInit] (OpSetMs 8 :: ops2) cf _ q k' Hpos Hr Hf init_two Pl2 (slow_pace _ _ Ho2) R0); [subst q; lia|].
    fold conf in R2 |- *. unfold run_ops in *. rewrite fold_res_app, R2. exact E. }
  destruct (C76_on_time _ _ _ _ _ _ _ _ _ _ _ Hpos Hr Hf init_two Pl (slow_pace _ _ Ho) HT R0 R3) as (ds & Hrun & P & _ & _ & _ & Hq & Hu).
  destruct (C83_at_rest _ _ _ _ _ _ _ _ _ _ _ _ _ q _ Hk Hl Ha H1 H3 Hs Hrest ltac:(subst q; lia) P) as (Hz & Hh).
  assert (Hall' : run_ops conf fuel ([OpInit] ++ OpSetMs 8 :: ops) (km_new (ctx_from_config cf)) = Ok (bl_keymap s)) by exact R3.
  exists ops, ds. split; [exact Ho|]. split; [exact Ein|]. split; [exact R3|]. split; [exact Hrun|]. split; [|split; [|split; [exact P|exact Hh]]].
  - destruct (SpecDecide.undecided (bl_keymap s)) as [[i p]|] eqn:Eu; [|destruct (da_dance ds); [discriminate Hu|reflexivity]].
    destruct (PropertiesDecide.C52_asks_to_be_ticked _ _ _ _ _ _ _ _ _ Hpos Hall' Eu) as (X & _). congruence.
  - rewrite <- Hq. unfold km_has_scheduled_events in Hz. destruct (km_inq _); [reflexivity|]. rewrite orb_true_r in Hz. discriminate.
Qed.

(** C85, macro keys: once the macros are played (and none is started again by a key that
    is held), the host sees what the keyboard sends; if no macro leaves a key of its own
    down, only keys of the keyboard are. *)
Theorem C85_macros :
  forall refs d pos dbg height fuel cf keys l1 l3 s2 s, position_ok pos ->
  Forall (macro_board_key (cf_layer_count cf) d (cf_automation cf) height) refs ->
  let conf := cconf refs d pos dbg in
  N.of_nat keys <= 65536 -> reads_keys keys (l1 ++ l3) -> all_succeed (l1 ++ l3) ->
  bl_run conf fuel l1 (ble_new keys (km_new (ctx_from_config cf))) = Ok s2 -> bl_run conf fuel l3 s2 = Ok s -> keys_still keys s2 s ->
  (forall ops ps, comes_from (bl_calls s2) ops -> play_run (cf_layer_count cf) refs d (cf_automation cf) (OpSetMs 8 :: ops) ps -> holds_nothing refs d (cf_automation cf) ps) ->
  N.of_nat (ble_ticks s2) + 100 * (mcost (cf_automation cf) (auc_instructions (cf_automation cf)) + 1) + 16 <= N.of_nat (ble_ticks s) ->
  let changed := map meant (scan_events keys (repeat false keys) (bl_scans s)) in
  exists ops ps, comes_from (bl_calls s) ops /\ inputs ops = changed
  /\ run_ops conf fuel (OpSetMs 8 :: ops) (slow_start cf) = Ok (bl_keymap s)
  /\ play_run (cf_layer_count cf) refs d (cf_automation cf) (OpSetMs 8 :: ops) ps
  /\ dk_queue (pl_desk ps) = [] /\ dk_alarms (pl_desk ps) = [] /\ pl_waiting ps = []
  /\ (Forall leaves_no_key (auc_instructions (cf_automation cf)) -> virtuals (bd_down (dk_board (pl_desk ps))) = [])
  /\ km_pressed_keys conf (bl_keymap s) = Ok (board_output (dk_board (pl_desk ps)))
  /\ forall c, ~ due_evt (EvReport c) s -> ble_host_sees (board_output (dk_board (pl_desk ps))) c s.
Proof.
  intros refs d pos dbg height fuel cf keys l1 l3 s2 s Hpos Hr conf Hk Hl Ha H1 H3 Hs Hold Hn changed.
  destruct (ble_ops _ _ _ _ _ _ _ _ _ _ _ Hk Hl H1 H3 Hs) as (ops2 & ops3 & Ho2 & Ho & Ei3 & Ei2 & R2 & R3 & R0).
  set (ops := ops2 ++ ops3) in *. assert (Ein : inputs ops = changed) by (unfold ops, inputs; rewrite filter_map_app; fold (inputs ops2) (inputs ops3); now rewrite Ei3, app_nil_r).
  assert (Pl : Forall (fun o => plain_op o = true) (OpSetMs 8 :: ops)) by (constructor; [reflexivity|]; eapply from_plain; exact Ho).
  assert (Pl2 : Forall (fun o => plain_op o = true) (OpSetMs 8 :: ops2)) by (constructor; [reflexivity|]; eapply from_plain; exact Ho2).
  set (q := N.to_nat (100 * (mcost (cf_automation cf) (auc_instructions (cf_automation cf)) + 1))).
  assert (Hrest : comes_to_rest conf fuel q (bl_keymap s2)).
  { intros k' E. apply (C77_settles refs d pos dbg height fuel [OpInit] (OpSetMs 8 :: ops2) cf (slow_start cf) q k' Hpos Hr init_two Pl2 (slow_ms _ _ Ho2) R0 (fun ps => Hold ops2 ps Ho2)); [subst q; lia|].
    fold conf in R2 |- *. unfold run_ops in *. rewrite fold_res_app, R2. exact E. }
  destruct (C77_pressed _ _ _ _ _ _ _ _ _ _ _ Hpos Hr init_two Pl R0 R3) as (ps0 & Hrun0 & P0).
  destruct P0 as (P0 & _).
  destruct (C83_at_rest _ _ _ _ _ _ _ _ _ _ _ _ _ q _ Hk Hl Ha H1 H3 Hs Hrest ltac:(subst q; lia) P0) as (Hz & Hh).
  destruct (C77_settled _ _ _ _ _ _ _ _ _ _ _ Hpos Hr init_two Pl R0 R3 Hz) as (ps & Hrun & (P & _) & Q1 & Q2 & Q3 & Q4).
  assert (board_output (dk_board (pl_desk ps0)) = board_output (dk_board (pl_desk ps))) as Eb by (fold conf in P0, P; congruence). rewrite Eb in Hh.
  exists ops, ps. split; [exact Ho|]. split; [exact Ein|]. split; [exact R3|]. split; [exact Hrun|]. split; [exact Q1|]. split; [exact Q2|]. split; [exact Q3|]. split; [|split; [exact P|exact Hh]].
  intros Hlk. apply Q4; [exact Hlk|]. apply Forall_forall. intros o Hin. destruct o; try exact Logic.I.
  assert (Hi : In ev changed).
  { rewrite <- Ein. change (inputs ops) with (inputs (OpSetMs 8 :: ops)). unfold inputs. revert Hin. generalize (OpSetMs 8 :: ops). intros l. induction l as [|o l IH]; intros X; [destruct X|].
    destruct X as [->|X]; cbn [filter_map]; [now left|]. specialize (IH X). destruct o; auto; now right. }
  eapply scans_real. exact Hi.
Qed.

(** C84 over Bluetooth, tap-hold keys and chords: if there are at most 31 changes of the
    switches, the host sees what the layers of keymap.ncl say is down after them. *)
Theorem C84_bluetooth_tap_holds :
  forall n src lo f g pos dbg fuel keys l1 l3 s2 s timeout ir, position_ok pos ->
  writes n src lo -> sound lo -> tap_layout lo -> (4 * (n + 2) <= f)%nat -> build f src = Ok g ->
  given (op_hold_timeout (ks_options src)) 200 timeout -> given (op_hold_interrupt (ks_options src)) IrIgnore ir -> (10 <= fuel)%nat ->
  let conf := cconf (gn_refs g) (gn_data g) pos dbg in
  let hold := mkTHConfig timeout ir (op_hold_idle (ks_options src)) in
  N.of_nat keys <= 65536 -> reads_keys keys (l1 ++ l3) -> all_succeed (l1 ++ l3) ->
  bl_run conf fuel l1 (ble_new keys (km_new (ctx_from_config (gn_config g)))) = Ok s2 -> bl_run conf fuel l3 s2 = Ok s ->
  keys_still keys s2 s -> N.of_nat (ble_ticks s2) + 96 * (timeout + 1) + 16 <= N.of_nat (ble_ticks s) ->
  let changed := map meant (scan_events keys (repeat false keys) (bl_scans s)) in (length changed <= 31)%nat ->
  exists ops xs b cs, comes_from (bl_calls s) ops
  /\ layout_tap_run lo ir (run_timing conf fuel hold (slow_start (gn_config g)) (OpSetMs 8 :: ops)) changed [] xs b cs
  /\ forall c, ~ due_evt (EvReport c) s -> ble_host_sees (board_output b) c s.
Proof.
  intros n src lo f g pos dbg fuel keys l1 l3 s2 s timeout ir Hpos Hw Hs Hsl Hf H Hto Hir Hfu conf hold Hk Hl Ha H1 H3 Hst Hn changed Hc.
  destruct (C69_keyboard_of_the_layout n src lo f g Hw Hs Hsl Hf H) as (_ & _ & Hr & Hb).
  destruct (C64_configuration n src lo f g Hw Hs Hf H) as [_ [_ [_ [_ [_ [G1 [G2 [G3 _]]]]]]]].
  assert (Hhold : cf_tap_hold (gn_config g) = hold).
  { unfold hold. destruct (cf_tap_hold (gn_config g)) as [t0 i0 d0]. cbn in G1, G2, G3. subst d0. unfold given in *.
    destruct (op_hold_timeout (ks_options src)), (op_hold_interrupt (ks_options src)); subst; reflexivity. }
  destruct (C85_tap_holds _ _ _ _ _ _ _ _ _ _ _ _ Hpos Hr Hfu Hk Hl Ha H1 H3 Hst) as (ops & Ho & _ & _ & Hfew & Hall); [now rewrite Hhold|].
  destruct (Hall (Hfew Hc)) as (xs & b & cs & Run & _ & Hh). exists ops, xs, b, cs. split; [exact Ho|]. split; [|exact Hh]. apply Hb. rewrite Hhold in Run. exact Run.
Qed.
Theorem C84_bluetooth_chords :
  forall n src lo f g pos dbg fuel keys l1 l3 s2 s times, position_ok pos ->
  writes n src lo -> sound lo -> chord_layout lo -> (length (lo_chords lo) <= 256)%nat -> (4 * (n + 2) <= f)%nat -> build f src = Ok g ->
  given (op_chord_timeout (ks_options src)) 200 (chc_timeout times) -> chc_required_idle times = op_chord_idle (ks_options src) -> (11 <= fuel)%nat ->
  let conf := cconf (gn_refs g) (gn_data g) pos dbg in
  N.of_nat keys <= 65536 -> reads_keys keys (l1 ++ l3) -> all_succeed (l1 ++ l3) ->
  bl_run conf fuel l1 (ble_new keys (km_new (ctx_from_config (gn_config g)))) = Ok s2 -> bl_run conf fuel l3 s2 = Ok s ->
  keys_still keys s2 s -> N.of_nat (ble_ticks s2) + 96 * (chc_timeout times + 1) + 16 <= N.of_nat (ble_ticks s) ->
  let changed := map meant (scan_events keys (repeat false keys) (bl_scans s)) in (length changed <= 31)%nat ->
  exists ops ys c cs, comes_from (bl_calls s) ops
  /\ layout_chord_run lo (chord_timing conf fuel times (slow_start (gn_config g)) (OpSetMs 8 :: ops)) changed [] ys c cs
  /\ forall ch, ~ due_evt (EvReport ch) s -> ble_host_sees (board_output (cb_board c)) ch s.
Proof.
  intros n src lo f g pos dbg fuel keys l1 l3 s2 s times Hpos Hw Hs Hsl Hfew Hf H Hto Hid Hfu conf Hk Hl Ha H1 H3 Hst Hn changed Hc.
  destruct (C72_keyboard_of_the_layout n src lo f g Hw Hs Hsl Hf H) as (_ & Hch & _ & Hr & Hb).
  assert (Hfew' : (length (chc_chords (cf_chorded (gn_config g))) <= 256)%nat) by (rewrite Hch, map_length; exact Hfew).
  destruct (C64_configuration n src lo f g Hw Hs Hf H) as (_ & G1 & _). pose proof (given_unique _ _ _ _ G1 Hto) as Et.
  destruct (C85_chords _ _ _ _ _ _ _ _ _ _ _ _ Hpos Hr Hfu Hfew' Hk Hl Ha H1 H3 Hst) as (ops & Ho & _ & _ & Hfw & Hall); [now rewrite Et|].
  destruct (Hall (Hfw Hc)) as (ys & c & cs & Run & _ & Hh). exists ops, ys, c, cs. split; [exact Ho|]. split; [|exact Hh]. apply Hb.
  rewrite (chord_options n src lo f g times Hw Hs Hf H Hto Hid) in Run. exact Run.
Qed.

Print Assumptions C85_tap_holds.
Print Assumptions C85_chords.
Print Assumptions C85_tap_dances.
Print Assumptions C85_macros.
Print Assumptions C84_bluetooth_tap_holds.
Print Assumptions C84_bluetooth_chords.

(** *** An example: the keyboard of C68 with a timeout of 1 ms.  Key 0 switches to layer 1
    if held; it and key 1 are pressed and held: the host sees what key 1 is on layer 1,
    and all that C85_tap_holds asks for is the case. *)
Definition both_conf := cconf PropertiesTapBoard.tap_refs PropertiesTapBoard.tap_data bs_std false.
Definition both_cf : config := let c := PropertiesTapBoard.tap_config IrHoldOnKeyTap None in
  mkConfig (cf_automation c) (cf_chorded c) (cf_sticky c) (cf_tap_dance c) (mkTHConfig 1 IrHoldOnKeyTap None) (cf_layer_count c).
Definition both_dn := [true; true; false; false].
Definition both_1 := wake both_dn ++ pass both_dn 4.
Definition both_segments := (then_tasks both_dn 9 2 ++ then_tasks both_dn 1 1 ++ then_tasks both_dn 11 1) :: repeat (then_tasks both_dn 12 1) 212.
Definition both_3 := concat both_segments.
Lemma both_fact : returns (bl_run both_conf 10 both_1 (ble_new 4 (km_new (ctx_from_config both_cf)))) (fun s2 =>
  returns (tidy_run both_conf 10 both_segments s2) (fun s => same_scans 4 (bl_scans s2) (bl_scans s) /\ Nat.leb (ble_ticks s2 + 208) (ble_ticks s) = true
    /\ map meant (scan_events 4 (repeat false 4) (bl_scans s)) = [Press 0; Press 1]
    /\ bl_set s (EvReport ChKb) = false /\ bl_timer s (EvReport ChKb) = None /\ host_has ChKb s = [0;0;7;0;0;0;0;0])).
Proof. vm_compute. repeat split; reflexivity. Qed.
Example C85_example : exists s2 s,
  position_ok bs_std /\ Forall (tap_board_key (cf_layer_count both_cf) PropertiesTapBoard.tap_data 2) PropertiesTapBoard.tap_refs /\ (2 + 8 <= 10)%nat
  /\ reads_keys 4 (both_1 ++ both_3) /\ all_succeed (both_1 ++ both_3)
  /\ bl_run both_conf 10 both_1 (ble_new 4 (km_new (ctx_from_config both_cf))) = Ok s2 /\ bl_run both_conf 10 both_3 s2 = Ok s /\ keys_still 4 s2 s
  /\ N.of_nat (ble_ticks s2) + 96 * (thc_timeout (cf_tap_hold both_cf) + 1) + 16 <= N.of_nat (ble_ticks s)
  /\ map meant (scan_events 4 (repeat false 4) (bl_scans s)) = [Press 0; Press 1]
  /\ ~ due_evt (EvReport ChKb) s /\ host_has ChKb s = [0;0;7;0;0;0;0;0].
Proof.
  destruct (bl_returns _ _ both_fact) as (s2 & E2 & F). destruct (bl_returns _ _ F) as (t & Et & G1 & G2 & G3 & G4 & G5 & G6). apply Nat.leb_le in G2.
  pose proof (tidy_run_alike both_conf 10 both_segments s2 s2 ltac:(repeat split)) as X. rewrite Et in X. fold both_3 in X. destruct (bl_run both_conf 10 both_3 s2) as [s| |] eqn:E; try contradiction.
  destruct X as (_ & _ & _ & _ & _ & _ & _ & X1 & X2 & _ & X3 & _ & X4 & X5). unfold ble_ticks in G2. rewrite <- X3 in G2. unfold host_has, delivered in G6. rewrite <- X4 in G6. rewrite <- X5 in G1, G3. rewrite <- X1 in G4. rewrite <- X2 in G5.
  destruct (forall_steps (both_1 ++ both_3) 4 ltac:(vm_compute; reflexivity)) as (P1 & P2).
  exists s2, s. split; [exact SchedulerFacts.bs_std_position_ok|]. split; [exact tap_refs_ok|]. split; [lia|]. split; [exact P1|]. split; [exact P2|]. split; [exact E2|]. split; [exact E|]. split; [eexists; exact G1|].
  split; [cbn [both_cf cf_tap_hold thc_timeout]; unfold ble_ticks; lia|]. split; [exact G3|]. split; [|exact G6]. unfold due_evt. rewrite G4, G5. intuition discriminate.
Qed.
