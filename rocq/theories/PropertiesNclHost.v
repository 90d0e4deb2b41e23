(** C84: from keymap.ncl and the switches to the host, for keymaps with tap-hold keys,
    chords, one-shot modifiers, one-shot layers and caps word. *)
From Verif Require Import BaseFacts Output Types Scheduler Keymap SimpleKeys TapHold TapDance Sticky Layered Automation Chorded Composite SpecScheduler SpecKeymap
  SpecPlain SpecLayer SpecBoard SpecDecide Ncl NclCodegen SpecNcl SpecNclBoard PropertiesNcl
  CApi CReport SpecCReport CFirmware SpecCFirmware CKeyboard SpecCKeyboard SpecHost SpecTapBoard SpecNclTap PropertiesNclTap SpecChordBoard SpecNclChord PropertiesNclChord
  SpecMods SpecTyping SpecNclTyping PropertiesNclTyping PropertiesHostBoards SpecCCalls CBle SpecCBle SpecBleHost PropertiesBleHost.
Local Open Scope N_scope.

(** C84, tap-hold keys: build the firmware from a keymap.ncl, and hold the switches still
    long enough; if no input was dropped, the host sees what the layers of keymap.ncl
    say is down, each tap-hold key being a tap or a hold as the options say. *)
Theorem C84_tap_holds :
  forall n src lo f g pos dbg fuel rows cols idx bootloader closed scans s2 s k0 timeout ir, position_ok pos ->
  writes n src lo -> sound lo -> tap_layout lo -> (4 * (n + 2) <= f)%nat -> build f src = Ok g ->
  given (op_hold_timeout (ks_options src)) 200 timeout -> given (op_hold_interrupt (ks_options src)) IrIgnore ir ->
  N.of_nat (length (lo_base lo)) <= 65535 -> (10 <= fuel)%nat -> wiring_ok rows cols (length (lo_base lo)) idx ->
  let conf := cconf (gn_refs g) (gn_data g) pos dbg in
  let hold := mkTHConfig timeout ir (op_hold_idle (ks_options src)) in
  held_still conf fuel rows cols (length (lo_base lo)) idx bootloader (ctx_from_config (gn_config g)) closed scans s2 s ->
  fw_first conf fuel bootloader (ctx_from_config (gn_config g)) k0 -> let_in conf fuel (fw_ops s) k0 = fw_inputs s ->
  N.of_nat (reports s2) + 96 * (timeout + 1) + 16 <= N.of_nat (reports s) ->
  exists h xs b cs, SpecCKeyboard.typed rows cols (length (lo_base lo)) idx scans h
  /\ layout_tap_run lo ir (run_timing conf fuel hold k0 (fw_ops s)) h [] xs b cs
  /\ host_sees (board_output b) s
  /\ km_calls (rl_keymap (fw_loop s)) = bootloader_calls bootloader cs.
Proof.
  intros n src lo f g pos dbg fuel rows cols idx bl closed scans s2 s k0 timeout ir Hpos Hw Hs Hsl Hf H Hto Hir Hl Hfu W conf hold Hst H0 Hall Hm.
  destruct (C69_keyboard_of_the_layout n src lo f g Hw Hs Hsl Hf H) as (_ & E & Hr & Hb).
  destruct (C64_configuration n src lo f g Hw Hs Hf H) as [_ [_ [_ [_ [_ [G1 [G2 [G3 _]]]]]]]].
  assert (Hhold : cf_tap_hold (gn_config g) = hold).
  { unfold hold. destruct (cf_tap_hold (gn_config g)) as [t0 i0 d0]. cbn in G1, G2, G3. subst d0. unfold given in *.
    destruct (op_hold_timeout (ks_options src)), (op_hold_interrupt (ks_options src)); subst; reflexivity. }
  rewrite <- E in *.
  destruct (C82_tap_holds _ _ _ _ _ _ _ _ _ _ _ _ _ _ _ k0 Hpos Hr Hl Hfu W Hst H0 Hall) as (h & xs & b & cs & Ty & Run & Hh & Hc); [now rewrite Hhold|].
  exists h, xs, b, cs. split; [exact Ty|]. split; [|split; assumption]. apply Hb. rewrite Hhold in Run. exact Run.
Qed.

(** C84, chords: the host sees what keymap.ncl says is down, the keys that came to form a
    chord being the key of that chord. *)
Theorem C84_chords :
  forall n src lo f g pos dbg fuel rows cols idx bootloader closed scans s2 s k0 times, position_ok pos ->
  writes n src lo -> sound lo -> chord_layout lo -> (length (lo_chords lo) <= 256)%nat -> (4 * (n + 2) <= f)%nat -> build f src = Ok g ->
  given (op_chord_timeout (ks_options src)) 200 (chc_timeout times) -> chc_required_idle times = op_chord_idle (ks_options src) ->
  N.of_nat (length (lo_base lo)) <= 65535 -> (11 <= fuel)%nat -> wiring_ok rows cols (length (lo_base lo)) idx ->
  let conf := cconf (gn_refs g) (gn_data g) pos dbg in
  held_still conf fuel rows cols (length (lo_base lo)) idx bootloader (ctx_from_config (gn_config g)) closed scans s2 s ->
  fw_first conf fuel bootloader (ctx_from_config (gn_config g)) k0 -> let_in conf fuel (fw_ops s) k0 = fw_inputs s ->
  N.of_nat (reports s2) + 96 * (chc_timeout times + 1) + 16 <= N.of_nat (reports s) ->
  exists h ys c cs, SpecCKeyboard.typed rows cols (length (lo_base lo)) idx scans h
  /\ layout_chord_run lo (chord_timing conf fuel times k0 (fw_ops s)) h [] ys c cs
  /\ host_sees (board_output (cb_board c)) s
  /\ km_calls (rl_keymap (fw_loop s)) = bootloader_calls bootloader cs.
Proof.
  intros n src lo f g pos dbg fuel rows cols idx bl closed scans s2 s k0 times Hpos Hw Hs Hsl Hfew Hf H Hto Hid Hl Hfu W conf Hst H0 Hall Hm.
  destruct (C72_keyboard_of_the_layout n src lo f g Hw Hs Hsl Hf H) as (_ & Hch & E & Hr & Hb).
  assert (Hfew' : (length (chc_chords (cf_chorded (gn_config g))) <= 256)%nat) by (rewrite Hch, map_length; exact Hfew).
  destruct (C64_configuration n src lo f g Hw Hs Hf H) as (_ & G1 & _). pose proof (given_unique _ _ _ _ G1 Hto) as Et. rewrite <- E in *.
  destruct (C82_chords _ _ _ _ _ _ _ _ _ _ _ _ _ _ _ k0 Hpos Hr Hl Hfu Hfew' W Hst H0 Hall) as (h & ys & c & cs & Ty & Run & Hh & Hc); [now rewrite Et|].
  exists h, ys, c, cs. split; [exact Ty|]. split; [|split; assumption]. apply Hb.
  rewrite (chord_options n src lo f g times Hw Hs Hf H Hto Hid) in Run. exact Run.
Qed.

(** C84, one-shot modifiers, one-shot layers and caps word: the host sees what the layout
    says is down after the inputs that found room. *)
Theorem C84_one_shots :
  forall n src lo f g pos dbg fuel rows cols idx bootloader closed scans s2 s sr,
  writes n src lo -> sound lo -> typing_layout lo -> (4 * (n + 2) <= f)%nat -> build f src = Ok g ->
  given (op_sticky_release (ks_options src)) OnModifiedKeyRelease sr ->
  N.of_nat (length (lo_base lo)) <= 65535 -> wiring_ok rows cols (length (lo_base lo)) idx ->
  held_still (cconf (gn_refs g) (gn_data g) pos dbg) fuel rows cols (length (lo_base lo)) idx bootloader (ctx_from_config (gn_config g)) closed scans s2 s ->
  (reports s2 + 48 <= reports s)%nat ->
  exists b, SpecCKeyboard.typed rows cols (length (lo_base lo)) idx scans (fw_inputs s)
  /\ layout_trun sr lo (fw_accepted s) b
  /\ host_sees (tboard_output b) s
  /\ km_calls (rl_keymap (fw_loop s)) = bootloader_calls bootloader (tb_calls b).
Proof.
  intros n src lo f g pos dbg fuel rows cols idx bl closed scans s2 s sr Hw Hs Hsl Hf H Hsr Hl W Hst Hm.
  destruct (C73_keyboard_of_the_layout n src lo f g Hw Hs Hsl Hf H) as (_ & E & Hr & Hg & Hb). pose proof (given_unique _ _ _ _ Hg Hsr) as E3. rewrite <- E in *.
  destruct (C82_one_shots _ _ _ _ _ _ _ _ _ _ _ _ _ _ _ Hr Hl W Hst Hm) as (b & Ty & Run & Hh & Hc).
  exists b. split; [exact Ty|]. split; [|split; assumption]. apply Hb. now rewrite <- E3.
Qed.

(** C84: and over Bluetooth; of all changes of the switches, if there are at most 31. *)
Theorem C84_bluetooth :
  forall n src lo f g pos dbg fuel keys l1 l3 s2 s sr,
  writes n src lo -> sound lo -> typing_layout lo -> (4 * (n + 2) <= f)%nat -> build f src = Ok g ->
  given (op_sticky_release (ks_options src)) OnModifiedKeyRelease sr ->
  let conf := cconf (gn_refs g) (gn_data g) pos dbg in
  N.of_nat keys <= 65536 -> reads_keys keys (l1 ++ l3) -> all_succeed (l1 ++ l3) ->
  bl_run conf fuel l1 (ble_new keys (km_new (ctx_from_config (gn_config g)))) = Ok s2 -> bl_run conf fuel l3 s2 = Ok s ->
  keys_still keys s2 s -> (ble_ticks s2 + 48 <= ble_ticks s)%nat ->
  let changed := map meant (scan_events keys (repeat false keys) (bl_scans s)) in (length changed <= 31)%nat ->
  exists b, layout_trun sr lo changed b /\ forall c, ~ due_evt (EvReport c) s -> ble_host_sees (tboard_output b) c s.
Proof.
  intros n src lo f g pos dbg fuel keys l1 l3 s2 s sr Hw Hs Hsl Hf H Hsr conf Hk Hl Ha H1 H3 Hst Hm changed Hc.
  destruct (C73_keyboard_of_the_layout n src lo f g Hw Hs Hsl Hf H) as (_ & E & Hr & Hg & Hb). pose proof (given_unique _ _ _ _ Hg Hsr) as E3.
  destruct (C83_typing _ _ _ _ _ _ _ _ _ _ _ _ Hr Hk Hl Ha H1 H3 Hst Hm) as (ops & b & _ & _ & Eacc & Run & _ & Hh).
  exists b. split; [|exact Hh]. apply Hb. rewrite (Eacc Hc), E3 in Run. exact Run.
Qed.

Print Assumptions C84_tap_holds.
Print Assumptions C84_chords.
Print Assumptions C84_one_shots.
Print Assumptions C84_bluetooth.

(** *** An example: the keyboard of C69 in one row.  Its first key, layer 1 when held, is
    held, and then its second key: the host sees B, which the second key is on layer 1.
    All that C84_tap_holds asks for is the case. *)
Fixpoint two_calm (cols : nat) (conf : kconf ref cctx cev cpks cks) (fuel : nat) (l : list fw_step) (s : fw) : bool :=
  match l with
  | [] => true
  | a :: t =>
      match a with
      | FwTimer _ => match rl_at (fw_loop s) with Some (_, StCopy _) => false | _ => true end
      | FwHost c => match rl_at (fw_loop s) with Some (d, StBusy) => negb (chan_eqb c d) | _ => true end
      | FwReset => false
      | _ => true
      end && match fw_do conf fuel 1 cols PropertiesCKeyboard.grid s a with Ok s' => two_calm cols conf fuel t s' | _ => true end
  end.
Lemma two_calm_ok cols conf fuel l : forall s, two_calm cols conf fuel l s = true -> fw_all_calm conf fuel 1 cols PropertiesCKeyboard.grid l s.
Proof.
  induction l as [|a l IH]; intros s H; cbn [two_calm fw_all_calm] in *; [exact Logic.I|]. apply andb_prop in H as [H1 H2]. split.
  - destruct a as [cl| |c| |]; cbn [fw_calm rl_calm]; try exact Logic.I; try discriminate; destruct (rl_at (fw_loop s)) as [[d [| | |i| | | |i|]]|]; try exact Logic.I; try discriminate.
    intros X. injection X as ->. now rewrite CReportFacts.chan_eqb_refl in H1.
  - destruct (fw_do conf fuel 1 cols PropertiesCKeyboard.grid s a); auto.
Qed.
Definition two_conf := cconf (gn_refs tap_gen) (gn_data tap_gen) bs_std false.
Definition two_ctx : cctx := ctx_from_config (gn_config tap_gen).
Definition two_1 : list fw_step := [FwEnumerate] ++ PropertiesCKeyboard.scan [0%nat] 14.
Definition two_2 : list fw_step := PropertiesCKeyboard.scan [0; 1]%nat 20 ++ PropertiesCKeyboard.send.
Definition two_3 : list fw_step := PropertiesCKeyboard.scan [0; 1]%nat 496.
Lemma two_fact :
  returns (run_ops two_conf 10 [OpSetCallback CbResetToBootloader 9; OpInit] (km_new two_ctx)) (fun k0 =>
  returns (fw_start 1 2 9 (PropertiesCKeyboard.hold_keys []) (km_new two_ctx)) (fun o => match o with
    | Some s0 => two_calm 2 two_conf 10 (two_1 ++ two_2 ++ two_3) s0 = true
        /\ returns (fw_run two_conf 10 1 2 PropertiesCKeyboard.grid (two_1 ++ two_2) s0) (fun s2 => returns (fw_run two_conf 10 1 2 PropertiesCKeyboard.grid two_3 s2) (fun s =>
             Nat.leb (reports s2 + 496) (reports s) = true /\ let_in two_conf 10 (fw_ops s) k0 = [Press 0; Press 1] /\ fw_inputs s = [Press 0; Press 1]
             /\ received ChKb (fw_loop s) = [[0; 0; 5; 0; 0; 0; 0; 0]]))
    | None => False
    end)).
Proof. vm_compute. repeat split; reflexivity. Qed.
Example C84_example : exists s2 s k0,
  writes 2 tap_src tap_lo /\ sound tap_lo /\ tap_layout tap_lo /\ build 16 tap_src = Ok tap_gen /\ position_ok bs_std
  /\ given (op_hold_timeout (ks_options tap_src)) 200 4 /\ given (op_hold_interrupt (ks_options tap_src)) IrIgnore IrHoldOnKeyTap /\ wiring_ok 1 2 (length (lo_base tap_lo)) PropertiesCKeyboard.grid
  /\ held_still two_conf 10 1 2 (length (lo_base tap_lo)) PropertiesCKeyboard.grid 9 two_ctx (PropertiesCKeyboard.hold_keys [0; 1]%nat) (switches (two_1 ++ two_2 ++ two_3)) s2 s
  /\ fw_first two_conf 10 9 two_ctx k0 /\ let_in two_conf 10 (fw_ops s) k0 = fw_inputs s
  /\ N.of_nat (reports s2) + 96 * (4 + 1) + 16 <= N.of_nat (reports s)
  /\ last (received ChKb (fw_loop s)) (repeat 0 8) = [0; 0; 5; 0; 0; 0; 0; 0].
Proof.
  destruct (PropertiesCKeyboard.fw_returns _ _ two_fact) as (k0 & E0 & F0). destruct (PropertiesCKeyboard.fw_returns _ _ F0) as ([s0|] & Es & F); [|destruct F]. destruct F as (C & F).
  destruct (PropertiesCKeyboard.fw_returns _ _ F) as (s2 & E2 & F2). destruct (PropertiesCKeyboard.fw_returns _ _ F2) as (s & E3 & Hm & Hl & Hi & Hr). apply Nat.leb_le in Hm.
  exists s2, s, k0. split; [exact tap_writes|]. split; [exact tap_sound|]. split; [exact tap_lo_ok|]. split; [vm_compute; reflexivity|]. split; [exact SchedulerFacts.bs_std_position_ok|].
  split; [reflexivity|]. split; [reflexivity|]. split.
  { split; unfold PropertiesCKeyboard.grid; [intros r c i ? ? X; injection X as <-; cbn [tap_lo lo_base length]; lia|intros r c r' c' i ? ? ? ? X Y; injection X as <-; injection Y as Y; lia]. }
  split; [|split; [exact E0|]; split; [congruence|]; split; [lia|]; now rewrite Hr].
  exists (PropertiesCKeyboard.hold_keys []), two_1, two_2, two_3, s0. split; [exact Es|]. split; [exact E2|]. split; [exact E3|]. split; [apply two_calm_ok; exact C|].
  split; [unfold steady; vm_compute; repeat constructor|]. split; [vm_compute; lia|]. split; [|reflexivity].
  unfold steady, two_3, PropertiesCKeyboard.scan. generalize 496%nat. intros m. induction m as [|m IH]; cbn; constructor; [reflexivity|exact IH].
Qed.

(** The keyboard of C72 in one row: its first two keys, held together, are D. *)
Definition pair_conf := cconf (gn_refs chord_gen1) (gn_data chord_gen1) bs_std false.
Definition pair_ctx : cctx := ctx_from_config (gn_config chord_gen1).
Definition pair_times : chorded_config := mkChConfig 4 [] None 0 0 0.
Definition pair_2 : list fw_step := [FwEnumerate] ++ PropertiesCKeyboard.scan [0; 1]%nat 20 ++ PropertiesCKeyboard.send.
Definition pair_3 : list fw_step := PropertiesCKeyboard.scan [0; 1]%nat 496.
Lemma pair_fact :
  returns (run_ops pair_conf 11 [OpSetCallback CbResetToBootloader 9; OpInit] (km_new pair_ctx)) (fun k0 =>
  returns (fw_start 1 3 9 (PropertiesCKeyboard.hold_keys []) (km_new pair_ctx)) (fun o => match o with
    | Some s0 => two_calm 3 pair_conf 11 (pair_2 ++ pair_3) s0 = true
        /\ returns (fw_run pair_conf 11 1 3 PropertiesCKeyboard.grid pair_2 s0) (fun s2 => returns (fw_run pair_conf 11 1 3 PropertiesCKeyboard.grid pair_3 s2) (fun s =>
             Nat.leb (reports s2 + 496) (reports s) = true /\ let_in pair_conf 11 (fw_ops s) k0 = [Press 0; Press 1] /\ fw_inputs s = [Press 0; Press 1]
             /\ received ChKb (fw_loop s) = [[0; 0; 7; 0; 0; 0; 0; 0]]))
    | None => False
    end)).
Proof. vm_compute. repeat split; reflexivity. Qed.
Example C84_chords_example : exists s2 s k0,
  writes 1 chord_src1 chord_lo1 /\ sound chord_lo1 /\ chord_layout chord_lo1 /\ (length (lo_chords chord_lo1) <= 256)%nat /\ build 12 chord_src1 = Ok chord_gen1 /\ position_ok bs_std
  /\ given (op_chord_timeout (ks_options chord_src1)) 200 (chc_timeout pair_times) /\ chc_required_idle pair_times = op_chord_idle (ks_options chord_src1) /\ wiring_ok 1 3 (length (lo_base chord_lo1)) PropertiesCKeyboard.grid
  /\ held_still pair_conf 11 1 3 (length (lo_base chord_lo1)) PropertiesCKeyboard.grid 9 pair_ctx (PropertiesCKeyboard.hold_keys [0; 1]%nat) (switches (pair_2 ++ pair_3)) s2 s
  /\ fw_first pair_conf 11 9 pair_ctx k0 /\ let_in pair_conf 11 (fw_ops s) k0 = fw_inputs s
  /\ N.of_nat (reports s2) + 96 * (chc_timeout pair_times + 1) + 16 <= N.of_nat (reports s)
  /\ last (received ChKb (fw_loop s)) (repeat 0 8) = [0; 0; 7; 0; 0; 0; 0; 0].
Proof.
  destruct (PropertiesCKeyboard.fw_returns _ _ pair_fact) as (k0 & E0 & F0). destruct (PropertiesCKeyboard.fw_returns _ _ F0) as ([s0|] & Es & F); [|destruct F]. destruct F as (C & F).
  destruct (PropertiesCKeyboard.fw_returns _ _ F) as (s2 & E2 & F2). destruct (PropertiesCKeyboard.fw_returns _ _ F2) as (s & E3 & Hm & Hl & Hi & Hr). apply Nat.leb_le in Hm.
  exists s2, s, k0. split; [exact chord_writes1|]. split; [exact chord_sound1|]. split; [exact chord_lo1_ok|]. split; [cbn; lia|]. split; [vm_compute; reflexivity|]. split; [exact SchedulerFacts.bs_std_position_ok|].
  split; [reflexivity|]. split; [reflexivity|]. split.
  { split; unfold PropertiesCKeyboard.grid; [intros r c i ? ? X; injection X as <-; cbn [chord_lo1 lo_base length]; lia|intros r c r' c' i ? ? ? ? X Y; injection X as <-; injection Y as Y; lia]. }
  split; [|split; [exact E0|]; split; [congruence|]; split; [cbn [pair_times chc_timeout]; lia|]; now rewrite Hr].
  exists (PropertiesCKeyboard.hold_keys []), [], pair_2, pair_3, s0. split; [exact Es|]. split; [exact E2|]. split; [exact E3|]. split; [apply two_calm_ok; exact C|].
  split; [unfold steady; vm_compute; repeat constructor|]. split; [vm_compute; lia|]. split; [|reflexivity].
  unfold steady, pair_3, PropertiesCKeyboard.scan. generalize 496%nat. intros m. induction m as [|m IH]; cbn; constructor; [reflexivity|exact IH].
Qed.

(** The keyboard of C73 in one row: the one-shot shift is tapped, and then A is held. *)
Definition shot_conf := cconf (gn_refs typing_gen) (gn_data typing_gen) bs_std false.
Definition shot_ctx : cctx := ctx_from_config (gn_config typing_gen).
Definition shot_1 : list fw_step := [FwEnumerate] ++ PropertiesCKeyboard.scan [0%nat] 14 ++ PropertiesCKeyboard.send ++ PropertiesCKeyboard.scan [] 14 ++ PropertiesCKeyboard.send.
Definition shot_2 : list fw_step := PropertiesCKeyboard.scan [3%nat] 20 ++ PropertiesCKeyboard.send.
Definition shot_3 : list fw_step := PropertiesCKeyboard.scan [3%nat] 50.
Lemma shot_fact :
  returns (fw_start 1 5 9 (PropertiesCKeyboard.hold_keys []) (km_new shot_ctx)) (fun o => match o with
    | Some s0 => two_calm 5 shot_conf 11 (shot_1 ++ shot_2 ++ shot_3) s0 = true
        /\ returns (fw_run shot_conf 11 1 5 PropertiesCKeyboard.grid (shot_1 ++ shot_2) s0) (fun s2 => returns (fw_run shot_conf 11 1 5 PropertiesCKeyboard.grid shot_3 s2) (fun s =>
             Nat.leb (reports s2 + 48) (reports s) = true /\ fw_accepted s = [Press 0; Release 0; Press 3]
             /\ last (received ChKb (fw_loop s)) (repeat 0 8) = [2; 0; 4; 0; 0; 0; 0; 0]))
    | None => False
    end).
Proof. vm_compute. repeat split; reflexivity. Qed.
Example C84_one_shots_example : exists s2 s,
  writes 2 typing_src typing_lo /\ sound typing_lo /\ typing_layout typing_lo /\ build 16 typing_src = Ok typing_gen
  /\ given (op_sticky_release (ks_options typing_src)) OnModifiedKeyRelease OnModifiedKeyRelease /\ wiring_ok 1 5 (length (lo_base typing_lo)) PropertiesCKeyboard.grid
  /\ held_still shot_conf 11 1 5 (length (lo_base typing_lo)) PropertiesCKeyboard.grid 9 shot_ctx (PropertiesCKeyboard.hold_keys [3%nat]) (switches (shot_1 ++ shot_2 ++ shot_3)) s2 s
  /\ (reports s2 + 48 <= reports s)%nat /\ fw_accepted s = [Press 0; Release 0; Press 3]
  /\ last (received ChKb (fw_loop s)) (repeat 0 8) = [2; 0; 4; 0; 0; 0; 0; 0].
Proof.
  destruct (PropertiesCKeyboard.fw_returns _ _ shot_fact) as ([s0|] & Es & F); [|destruct F]. destruct F as (C & F).
  destruct (PropertiesCKeyboard.fw_returns _ _ F) as (s2 & E2 & F2). destruct (PropertiesCKeyboard.fw_returns _ _ F2) as (s & E3 & Hm & Hi & Hr). apply Nat.leb_le in Hm.
  exists s2, s. split; [exact typing_writes|]. split; [exact typing_sound|]. split; [exact typing_lo_ok|]. split; [vm_compute; reflexivity|]. split; [reflexivity|]. split.
  { split; unfold PropertiesCKeyboard.grid; [intros r c i ? ? X; injection X as <-; cbn [typing_lo lo_base length]; lia|intros r c r' c' i ? ? ? ? X Y; injection X as <-; injection Y as Y; lia]. }
  split; [|split; [exact Hm|]; split; [exact Hi|exact Hr]].
  exists (PropertiesCKeyboard.hold_keys []), shot_1, shot_2, shot_3, s0. split; [exact Es|]. split; [exact E2|]. split; [exact E3|]. split; [apply two_calm_ok; exact C|].
  split; [unfold steady; vm_compute; repeat constructor|]. split; [vm_compute; lia|]. split; [|reflexivity].
  unfold steady, shot_3, PropertiesCKeyboard.scan. generalize 50%nat. intros m. induction m as [|m IH]; cbn; constructor; [reflexivity|exact IH].
Qed.
