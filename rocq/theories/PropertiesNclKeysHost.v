(** C84, continued: from keymap.ncl and the switches to the host, for keymaps with
    tap-dance keys and macro keys. *)
From Coq Require Import String.
From Verif Require Import StringMacro SpecText NclString BaseFacts Output Types Scheduler Keymap SimpleKeys TapHold TapDance Sticky Layered Automation Chorded Composite SpecScheduler SpecKeymap KeymapQueue KeymapApi
  SpecPlain SpecLayer SpecBoard SpecDecide Ncl NclCodegen SpecNcl SpecNclBoard SpecNclKeys PropertiesNcl
  CApi CReport SpecCReport CFirmware SpecCFirmware CKeyboard SpecCKeyboard SpecHost SpecTapBoard SpecDanceBoard SpecMacro SpecMacroBoard MacroBoardLive SpecTapping PropertiesNclDance PropertiesNclMacro PropertiesHostBoards
  SpecCCalls CBle SpecCBle SpecBleHost PropertiesBleHost PropertiesBleBoards PropertiesNclHost.
Import List.
Local Open Scope N_scope.

(** The generated references are the keys of the layout, under any layers: the tap-dance
    keys have the choices that are written, in order, and the others mean what is written. *)
Definition dances_as_written (lo : layout) (refs : list ref) (d : key_data) : Prop :=
  length refs = length (lo_base lo) /\
  forall i r on default, nth_error refs i = Some r ->
  let same choices ks := Forall2 (fun k choice => forall m, means d on default choice m <-> key_means k m) ks choices in
  (forall m, means d on default r m <-> exists k, SpecNclBoard.shows lo i on default k /\ key_means k m) /\
  (forall choices, dances d on default r choices ->
     exists k1 ks, SpecNclBoard.shows lo i on default (UTapDance k1 ks) /\ same choices (k1 :: ks)) /\
  (forall k1 ks, SpecNclBoard.shows lo i on default (UTapDance k1 ks) ->
     exists choices, dances d on default r choices /\ same choices (k1 :: ks)).
(** The same with macro keys, which run the macros that are written. *)
Definition macros_as_written (lo : layout) (refs : list ref) (d : key_data) (cf : automation_config) : Prop :=
  length refs = length (lo_base lo) /\
  forall i r on default, nth_error refs i = Some r ->
  let same a x := macro_of cf (ak_on_press a) = mc_press x /\ macro_of cf (ak_while_pressed a) = mc_while x /\ macro_of cf (ak_on_release a) = mc_release x in
  (forall m, means d on default r m <-> exists k, SpecNclBoard.shows lo i on default k /\ key_means k m) /\
  (forall a, runs d on default r a -> exists x, SpecNclBoard.shows lo i on default (UMacro x) /\ same a x) /\
  (forall x, SpecNclBoard.shows lo i on default (UMacro x) -> exists a, runs d on default r a /\ same a x).

(** C84, tap-dance keys: build the firmware from a keymap.ncl, and hold the switches still
    for long enough; the host sees what is down after the changes of the switches, each
    tap-dance key being the key that is written for the number of taps. *)
Theorem C84_tap_dances :
  forall n src lo f g pos dbg fuel rows cols idx bootloader closed scans s2 s timeout, position_ok pos ->
  writes n src lo -> sound lo -> layout_of (dance_key (length (lo_uppers lo))) lo -> (4 * (n + 2) <= f)%nat -> build f src = Ok g ->
  given (op_dance_timeout (ks_options src)) 200 timeout -> 0 < timeout ->
  N.of_nat (length (lo_base lo)) <= 65535 -> (10 <= fuel)%nat -> wiring_ok rows cols (length (lo_base lo)) idx ->
  held_still (cconf (gn_refs g) (gn_data g) pos dbg) fuel rows cols (length (lo_base lo)) idx bootloader (ctx_from_config (gn_config g)) closed scans s2 s ->
  N.of_nat (reports s2) + 2000 * (timeout + 1) + 16 <= N.of_nat (reports s) ->
  dances_as_written lo (gn_refs g) (gn_data g)
  /\ exists ds, SpecCKeyboard.typed rows cols (length (lo_base lo)) idx scans (fw_inputs s)
  /\ prompt_run (length (lo_uppers lo)) (gn_refs g) (gn_data g) timeout (fw_ops s) ds /\ da_dance ds = None /\ da_waiting ds = []
  /\ host_sees (board_output (da_board ds)) s
  /\ km_calls (rl_keymap (fw_loop s)) = bootloader_calls bootloader (da_calls ds).
Proof.
  intros n src lo f g pos dbg fuel rows cols idx bl closed scans s2 s D Hpos Hw Hs Hl Hf H HD HT Hk Hfu W Hst Hm.
  destruct (C81_keyboard_of_the_layout n src lo f g Hw Hs Hl Hf H) as (Hc & E & Hd & Hr & Hsame).
  assert (D = tdc_timeout (cf_tap_dance (gn_config g))) as ->. { unfold given in *. destruct (op_dance_timeout (ks_options src)); congruence. }
  split; [split; [exact E|exact Hsame]|]. rewrite <- E in *. rewrite <- Hc.
  now apply (C82_tap_dances (gn_refs g) (gn_data g) pos dbg 2 fuel (gn_config g) rows cols idx bl closed scans s2 s).
Qed.

(** C84, macro keys: the same; no macro that repeats while its key is pressed is held.
    All macros have come to their end. *)
Theorem C84_macros :
  forall n src lo f g pos dbg fuel rows cols idx bootloader closed scans s2 s, position_ok pos ->
  writes n src lo -> sound lo -> layout_of (macro_key (length (lo_uppers lo))) lo -> (4 * (n + 2) <= f)%nat -> build f src = Ok g ->
  N.of_nat (length (lo_base lo)) <= 65535 -> wiring_ok rows cols (length (lo_base lo)) idx ->
  let cf := cf_automation (gn_config g) in
  let plays := play_run (length (lo_uppers lo)) (gn_refs g) (gn_data g) cf in
  held_still (cconf (gn_refs g) (gn_data g) pos dbg) fuel rows cols (length (lo_base lo)) idx bootloader (ctx_from_config (gn_config g)) closed scans s2 s ->
  (forall ps, plays (fw_ops s2) ps -> holds_nothing (gn_refs g) (gn_data g) cf ps) ->
  N.of_nat (reports s2) + 100 * (mcost cf (auc_instructions cf) + 1) + 16 <= N.of_nat (reports s) ->
  macros_as_written lo (gn_refs g) (gn_data g) cf /\ given (op_instruction_duration (ks_options src)) 10 (auc_duration cf)
  /\ exists ps, SpecCKeyboard.typed rows cols (length (lo_base lo)) idx scans (fw_inputs s)
  /\ plays (fw_ops s) ps
  /\ dk_queue (pl_desk ps) = [] /\ dk_alarms (pl_desk ps) = [] /\ pl_waiting ps = []
  /\ (Forall leaves_no_key (auc_instructions cf) -> virtuals (bd_down (dk_board (pl_desk ps))) = [])
  /\ host_sees (board_output (dk_board (pl_desk ps))) s
  /\ km_calls (rl_keymap (fw_loop s)) = bootloader_calls bootloader (dk_calls (pl_desk ps)).
Proof.
  intros n src lo f g pos dbg fuel rows cols idx bl closed scans s2 s Hpos Hw Hs Hl Hf H Hk W cf plays Hst Hold Hm.
  destruct (C80_keyboard_of_the_layout n src lo f g Hw Hs Hl Hf H) as (Hc & E & Hd & Hr & Hsame).
  split; [split; [exact E|exact Hsame]|]. split; [exact Hd|]. unfold plays in *. rewrite <- E in *. rewrite <- Hc in *.
  now apply (C82_macros (gn_refs g) (gn_data g) pos dbg 1 fuel (gn_config g) rows cols idx bl closed scans s2 s).
Qed.

(** The same over Bluetooth: [ops] are the calls of the keymap's API that the firmware
    makes, whose inputs are the changes of the switches. *)
Theorem C84_bluetooth_tap_dances :
  forall n src lo f g pos dbg fuel keys l1 l3 s2 s timeout, position_ok pos ->
  writes n src lo -> sound lo -> layout_of (dance_key (length (lo_uppers lo))) lo -> (4 * (n + 2) <= f)%nat -> build f src = Ok g ->
  given (op_dance_timeout (ks_options src)) 200 timeout -> 0 < timeout -> (10 <= fuel)%nat ->
  let conf := cconf (gn_refs g) (gn_data g) pos dbg in
  N.of_nat keys <= 65536 -> reads_keys keys (l1 ++ l3) -> all_succeed (l1 ++ l3) ->
  bl_run conf fuel l1 (ble_new keys (km_new (ctx_from_config (gn_config g)))) = Ok s2 -> bl_run conf fuel l3 s2 = Ok s ->
  keys_still keys s2 s -> N.of_nat (ble_ticks s2) + 2000 * (timeout + 1) + 16 <= N.of_nat (ble_ticks s) ->
  dances_as_written lo (gn_refs g) (gn_data g)
  /\ exists ops ds, comes_from (bl_calls s) ops /\ inputs ops = map meant (scan_events keys (repeat false keys) (bl_scans s))
  /\ prompt_run (length (lo_uppers lo)) (gn_refs g) (gn_data g) timeout (OpSetMs 8 :: ops) ds /\ da_dance ds = None /\ da_waiting ds = []
  /\ forall c, ~ due_evt (EvReport c) s -> ble_host_sees (board_output (da_board ds)) c s.
Proof.
  intros n src lo f g pos dbg fuel keys l1 l3 s2 s D Hpos Hw Hs Hl Hf H HD HT Hfu conf Hk Hre Ha H1 H3 Hst Hm.
  destruct (C81_keyboard_of_the_layout n src lo f g Hw Hs Hl Hf H) as (Hc & E & Hd & Hr & Hsame).
  assert (D = tdc_timeout (cf_tap_dance (gn_config g))) as ->. { unfold given in *. destruct (op_dance_timeout (ks_options src)); congruence. }
  split; [split; [exact E|exact Hsame]|]. rewrite <- Hc.
  destruct (C85_tap_dances (gn_refs g) (gn_data g) pos dbg 2 fuel (gn_config g) keys l1 l3 s2 s Hpos Hr Hfu HT Hk Hre Ha H1 H3 Hst Hm) as (ops & ds & A1 & A2 & _ & A4 & A5 & A6 & _ & A8).
  exists ops, ds. auto 10.
Qed.
Theorem C84_bluetooth_macros :
  forall n src lo f g pos dbg fuel keys l1 l3 s2 s, position_ok pos ->
  writes n src lo -> sound lo -> layout_of (macro_key (length (lo_uppers lo))) lo -> (4 * (n + 2) <= f)%nat -> build f src = Ok g ->
  let conf := cconf (gn_refs g) (gn_data g) pos dbg in
  let cf := cf_automation (gn_config g) in
  let plays := play_run (length (lo_uppers lo)) (gn_refs g) (gn_data g) cf in
  N.of_nat keys <= 65536 -> reads_keys keys (l1 ++ l3) -> all_succeed (l1 ++ l3) ->
  bl_run conf fuel l1 (ble_new keys (km_new (ctx_from_config (gn_config g)))) = Ok s2 -> bl_run conf fuel l3 s2 = Ok s -> keys_still keys s2 s ->
  (forall ops ps, comes_from (bl_calls s2) ops -> plays (OpSetMs 8 :: ops) ps -> holds_nothing (gn_refs g) (gn_data g) cf ps) ->
  N.of_nat (ble_ticks s2) + 100 * (mcost cf (auc_instructions cf) + 1) + 16 <= N.of_nat (ble_ticks s) ->
  macros_as_written lo (gn_refs g) (gn_data g) cf /\ given (op_instruction_duration (ks_options src)) 10 (auc_duration cf)
  /\ exists ops ps, comes_from (bl_calls s) ops /\ inputs ops = map meant (scan_events keys (repeat false keys) (bl_scans s))
  /\ plays (OpSetMs 8 :: ops) ps
  /\ dk_queue (pl_desk ps) = [] /\ dk_alarms (pl_desk ps) = [] /\ pl_waiting ps = []
  /\ (Forall leaves_no_key (auc_instructions cf) -> virtuals (bd_down (dk_board (pl_desk ps))) = [])
  /\ forall c, ~ due_evt (EvReport c) s -> ble_host_sees (board_output (dk_board (pl_desk ps))) c s.
Proof.
  intros n src lo f g pos dbg fuel keys l1 l3 s2 s Hpos Hw Hs Hl Hf H conf cf plays Hk Hre Ha H1 H3 Hst Hold Hm.
  destruct (C80_keyboard_of_the_layout n src lo f g Hw Hs Hl Hf H) as (Hc & E & Hd & Hr & Hsame).
  split; [split; [exact E|exact Hsame]|]. split; [exact Hd|]. unfold plays in *. rewrite <- Hc in *.
  destruct (C85_macros (gn_refs g) (gn_data g) pos dbg 1 fuel (gn_config g) keys l1 l3 s2 s Hpos Hr Hk Hre Ha H1 H3 Hst Hold Hm) as (ops & ps & A1 & A2 & _ & A4 & A5 & A6 & A7 & A8 & _ & A10).
  exists ops, ps. auto 10.
Qed.

(** Layouts whose macros are all for the press of their keys: none is held. *)
Lemma press_layout lo : layout_of (press_macro_key (length (lo_uppers lo))) lo -> layout_of (macro_key (length (lo_uppers lo))) lo.
Proof.
  intros (A & B & C & X). split; [exact A|]. split; [|split; [|exact X]].
  - eapply Forall_impl; [|exact B]. intros a [Y|(x & ->)]; [now left|right; eauto].
  - eapply Forall_impl; [|exact C]. intros u Y. eapply Forall_impl; [|exact Y]. intros o Z q ->. destruct (Z q eq_refl) as [W|(x & ->)]; [now left|right; eauto].
Qed.
Lemma press_none_held n s lo f g : writes n s lo -> sound lo -> layout_of (press_macro_key (length (lo_uppers lo))) lo -> (4 * (n + 2) <= f)%nat -> build f s = Ok g ->
  forall r on def a, In r (gn_refs g) -> runs (gn_data g) on def r a -> macro_of (cf_automation (gn_config g)) (ak_while_pressed a) = [].
Proof.
  intros Hw Hs Hl Hf H r on def a Hr Hu. destruct (C80_keyboard_of_the_layout n s lo f g Hw Hs (press_layout lo Hl) Hf H) as (_ & _ & _ & _ & Hk).
  apply In_nth_error in Hr as (j & Hj). destruct (proj1 (proj2 (Hk _ _ _ _ Hj)) _ Hu) as (x & Hx & _ & X2 & _). rewrite X2.
  assert (Y : press_macro_key (length (lo_uppers lo)) (UMacro x)).
  { destruct Hl as (_ & B & C & _). rewrite Forall_forall in B, C. assert (Z : forall y, on_layer_is lo j y (UMacro x) -> press_macro_key (length (lo_uppers lo)) (UMacro x)).
    { intros y (_ & row & R1 & R2). apply nth_error_In in R1, R2. specialize (C _ R1). rewrite Forall_forall in C. now apply (C _ R2). }
    inversion Hx; subst; eauto. apply B. eapply nth_error_In; eassumption. }
  destruct Y as [((m & Y) & _)|(q' & Y)]; [inversion Y|]. now injection Y as ->.
Qed.

(** C84, macro keys such as those of [K.string_macro], over USB and over Bluetooth: with
    macros for the press of their keys only, all macros come to their end however the
    keys were typed and are held. *)
Theorem C84_press_macros :
  forall n src lo f g pos dbg fuel rows cols idx bootloader closed scans s2 s, position_ok pos ->
  writes n src lo -> sound lo -> layout_of (press_macro_key (length (lo_uppers lo))) lo -> (4 * (n + 2) <= f)%nat -> build f src = Ok g ->
  N.of_nat (length (lo_base lo)) <= 65535 -> wiring_ok rows cols (length (lo_base lo)) idx ->
  let cf := cf_automation (gn_config g) in
  let plays := play_run (length (lo_uppers lo)) (gn_refs g) (gn_data g) cf in
  held_still (cconf (gn_refs g) (gn_data g) pos dbg) fuel rows cols (length (lo_base lo)) idx bootloader (ctx_from_config (gn_config g)) closed scans s2 s ->
  N.of_nat (reports s2) + 100 * (mcost cf (auc_instructions cf) + 1) + 16 <= N.of_nat (reports s) ->
  macros_as_written lo (gn_refs g) (gn_data g) cf /\ given (op_instruction_duration (ks_options src)) 10 (auc_duration cf)
  /\ exists ps, SpecCKeyboard.typed rows cols (length (lo_base lo)) idx scans (fw_inputs s)
  /\ plays (fw_ops s) ps
  /\ dk_queue (pl_desk ps) = [] /\ dk_alarms (pl_desk ps) = [] /\ pl_waiting ps = []
  /\ (Forall leaves_no_key (auc_instructions cf) -> virtuals (bd_down (dk_board (pl_desk ps))) = [])
  /\ host_sees (board_output (dk_board (pl_desk ps))) s
  /\ km_calls (rl_keymap (fw_loop s)) = bootloader_calls bootloader (dk_calls (pl_desk ps)).
Proof.
  intros n src lo f g pos dbg fuel rows cols idx bl closed scans s2 s Hpos Hw Hs Hl Hf H Hk W cf plays Hst Hm.
  eapply C84_macros; try eassumption; [now apply press_layout|]. intros ps Hp. eapply none_held; [|exact Hp]. now apply (press_none_held n src lo f g).
Qed.
Theorem C84_bluetooth_press_macros :
  forall n src lo f g pos dbg fuel keys l1 l3 s2 s, position_ok pos ->
  writes n src lo -> sound lo -> layout_of (press_macro_key (length (lo_uppers lo))) lo -> (4 * (n + 2) <= f)%nat -> build f src = Ok g ->
  let conf := cconf (gn_refs g) (gn_data g) pos dbg in
  let cf := cf_automation (gn_config g) in
  let plays := play_run (length (lo_uppers lo)) (gn_refs g) (gn_data g) cf in
  N.of_nat keys <= 65536 -> reads_keys keys (l1 ++ l3) -> all_succeed (l1 ++ l3) ->
  bl_run conf fuel l1 (ble_new keys (km_new (ctx_from_config (gn_config g)))) = Ok s2 -> bl_run conf fuel l3 s2 = Ok s -> keys_still keys s2 s ->
  N.of_nat (ble_ticks s2) + 100 * (mcost cf (auc_instructions cf) + 1) + 16 <= N.of_nat (ble_ticks s) ->
  macros_as_written lo (gn_refs g) (gn_data g) cf /\ given (op_instruction_duration (ks_options src)) 10 (auc_duration cf)
  /\ exists ops ps, comes_from (bl_calls s) ops /\ inputs ops = map meant (scan_events keys (repeat false keys) (bl_scans s))
  /\ plays (OpSetMs 8 :: ops) ps
  /\ dk_queue (pl_desk ps) = [] /\ dk_alarms (pl_desk ps) = [] /\ pl_waiting ps = []
  /\ (Forall leaves_no_key (auc_instructions cf) -> virtuals (bd_down (dk_board (pl_desk ps))) = [])
  /\ forall c, ~ due_evt (EvReport c) s -> ble_host_sees (board_output (dk_board (pl_desk ps))) c s.
Proof.
  intros n src lo f g pos dbg fuel keys l1 l3 s2 s Hpos Hw Hs Hl Hf H conf cf plays Hk Hre Ha H1 H3 Hst Hm.
  eapply C84_bluetooth_macros; try eassumption; [now apply press_layout|]. intros ops ps _ Hp. eapply none_held; [|exact Hp]. now apply (press_none_held n src lo f g).
Qed.

Print Assumptions C84_tap_dances.
Print Assumptions C84_macros.
Print Assumptions C84_bluetooth_tap_dances.
Print Assumptions C84_bluetooth_macros.
Print Assumptions C84_press_macros.
Print Assumptions C84_bluetooth_press_macros.

Local Open Scope string_scope.
Local Open Scope N_scope.
Local Open Scope list_scope.
(** *** Examples, each a keyboard of two keys in one row; the first is for layer 1.

    The keyboard of C80 with instructions of 2 ms, and the text "b": the first key is
    held, and then the second.  The host has seen B go down and up again, and now sees
    nothing; all that C84_macros and C84_press_macros ask for is the case. *)
Definition b_value : val := match string_macro (text_of "b") with Some v => v | None => VNull end.
Definition b_src : keymap_src :=
  mkKeymapSrc [] [LKeys [VRec [("layer_modifier", VRec [("hold", VNum 1)])]; key 4]; LKeys [VNull; b_value]] []
    (mkOptions (Some 2) None None None None None None None).
Definition b_layout : layout :=
  mkLayout [ULayer (LmHold 1); UCode 4]
    [[None; Some (UMacro (mkMacro (match string_to_instructions (text_of "b") with Some l => l | None => [] end) [] []))]] [].
Lemma b_written : writes 1 b_src b_layout.
Proof.
  eexists _, _, _, [_]. split; [reflexivity|]. split; [apply lv_keys|]. split; [|split; [|split]].
  - constructor; [apply layer_key_written|]. constructor; [now apply key_written|constructor].
  - constructor; [apply lv_keys|constructor].
  - constructor; [|constructor]. constructor; [constructor|]. constructor; [|constructor]. constructor.
    destruct (proj2 (C80_string_macro (text_of "b")) b_value 0%nat eq_refl) as (l & E & W). rewrite E. exact W.
  - constructor.
Qed.
Lemma b_sound : sound b_layout.
Proof.
  split; [discriminate|]. split; [repeat constructor|]. split; [constructor|]. split; [|split; [|split; [constructor|split]]].
  - repeat apply Forall_cons; try apply Forall_nil; apply cf_leaf; reflexivity.
  - repeat apply Forall_cons; try apply Forall_nil; intros k E; try discriminate E; injection E as <-; apply cf_leaf; reflexivity.
  - intros i b. do 2 (destruct i as [|i]; [intros E; injection E as <-; cbn; auto; discriminate|]). destruct i; discriminate.
  - repeat apply Forall_cons; try apply Forall_nil; intros p H; cbn [positions positions_from parts] in H;
      repeat (destruct H as [<-|H]; [try (right; constructor); left; eexists; reflexivity|]); destruct H.
Qed.
Lemma b_macros : layout_of (press_macro_key 1) b_layout.
Proof.
  split; [reflexivity|]. split; [|split].
  - repeat apply Forall_cons; try apply Forall_nil; left; (split; [eexists; constructor|]); intros l E; try discriminate E.
    injection E as <-. cbn. lia.
  - repeat apply Forall_cons; try apply Forall_nil; intros k E; try discriminate E. injection E as <-. right. eauto.
  - right. exists 1%nat. split; [cbn; lia|reflexivity].
Qed.
Definition b_gen : generated := Eval vm_compute in match build 12 b_src with Ok g => g | _ => PropertiesNclTap.tap_gen end.
Definition b_conf := cconf (gn_refs b_gen) (gn_data b_gen) bs_std false.
Definition b_ctx : cctx := ctx_from_config (gn_config b_gen).
Definition b_1 : list fw_step := [FwEnumerate] ++ PropertiesCKeyboard.scan [0%nat] 14.
Definition b_some : list fw_step := PropertiesCKeyboard.scan [0; 1]%nat 1 ++ PropertiesCKeyboard.send.
Definition b_2 : list fw_step := concat (repeat b_some 30).
Definition b_3 : list fw_step := PropertiesCKeyboard.scan [0; 1]%nat 1016.
Lemma b_fact :
  returns (fw_start 1 2 9 (PropertiesCKeyboard.hold_keys []) (km_new b_ctx)) (fun o => match o with
    | Some s0 => two_calm 2 b_conf 10 (b_1 ++ b_2 ++ b_3) s0 = true
        /\ returns (fw_run b_conf 10 1 2 PropertiesCKeyboard.grid (b_1 ++ b_2) s0) (fun s2 => returns (fw_run b_conf 10 1 2 PropertiesCKeyboard.grid b_3 s2) (fun s =>
             Nat.leb (reports s2 + 1016) (reports s) = true
             /\ received ChKb (fw_loop s) = [[0; 0; 5; 0; 0; 0; 0; 0]; repeat 0 8]))
    | None => False
    end).
Proof. vm_compute. repeat split; reflexivity. Qed.
Lemma scans_steady cols ks m : steady 1 cols (PropertiesCKeyboard.hold_keys ks) (PropertiesCKeyboard.scan ks m).
Proof. unfold steady, PropertiesCKeyboard.scan. induction m as [|m IH]; cbn; constructor; [reflexivity|exact IH]. Qed.
Lemma two_wired : wiring_ok 1 2 2 PropertiesCKeyboard.grid.
Proof.
  split; unfold PropertiesCKeyboard.grid; [intros r c i ? ? X; injection X as <-; lia|intros r c r' c' i ? ? ? ? X Y; injection X as <-; injection Y as Y; lia].
Qed.
Example C84_macros_example : exists s2 s,
  let cf := cf_automation (gn_config b_gen) in
  writes 1 b_src b_layout /\ sound b_layout /\ layout_of (press_macro_key (length (lo_uppers b_layout))) b_layout /\ build 12 b_src = Ok b_gen /\ position_ok bs_std
  /\ wiring_ok 1 2 (length (lo_base b_layout)) PropertiesCKeyboard.grid
  /\ held_still b_conf 10 1 2 (length (lo_base b_layout)) PropertiesCKeyboard.grid 9 b_ctx (PropertiesCKeyboard.hold_keys [0; 1]%nat) (switches (b_1 ++ b_2 ++ b_3)) s2 s
  /\ (forall ps, play_run (length (lo_uppers b_layout)) (gn_refs b_gen) (gn_data b_gen) cf (fw_ops s2) ps -> holds_nothing (gn_refs b_gen) (gn_data b_gen) cf ps)
  /\ N.of_nat (reports s2) + 100 * (mcost cf (auc_instructions cf) + 1) + 16 <= N.of_nat (reports s)
  /\ received ChKb (fw_loop s) = [[0; 0; 5; 0; 0; 0; 0; 0]; repeat 0 8].
Proof.
  destruct (PropertiesCKeyboard.fw_returns _ _ b_fact) as ([s0|] & Es & F); [|destruct F]. destruct F as (C & F).
  destruct (PropertiesCKeyboard.fw_returns _ _ F) as (s2 & E2 & F2). destruct (PropertiesCKeyboard.fw_returns _ _ F2) as (s & E3 & Hm & Hr). apply Nat.leb_le in Hm.
  exists s2, s. cbv zeta. split; [exact b_written|]. split; [exact b_sound|]. split; [exact b_macros|]. split; [vm_compute; reflexivity|]. split; [exact SchedulerFacts.bs_std_position_ok|].
  split; [exact two_wired|]. split; [|split; [|split; [|exact Hr]]].
  - exists (PropertiesCKeyboard.hold_keys []), b_1, b_2, b_3, s0. split; [exact Es|]. split; [exact E2|]. split; [exact E3|]. split; [apply two_calm_ok; exact C|].
    split; [unfold steady; vm_compute; repeat constructor|]. split; [vm_compute; lia|]. split; [apply scans_steady|reflexivity].
  - intros ps Hp. eapply none_held; [|exact Hp]. intros r on def a _ Hu. apply runs_in in Hu. cbn in Hu. destruct Hu as [<-|[]]. reflexivity.
  - assert (X : mcost (cf_automation (gn_config b_gen)) (auc_instructions (cf_automation (gn_config b_gen))) = 9) by reflexivity. rewrite X. lia.
Qed.

(** The keyboard of C81 with a timeout of 1 ms: the first key is held, and then the
    second, which is A if it is held.  All that C84_tap_dances asks for is the case but
    the time: the run goes on for 216 ms, in which the host already sees A, and not for
    the 4016 ms of the theorem, which take minutes to compute. *)
Definition abc_quick : keymap_src :=
  mkKeymapSrc [] [LKeys [VRec [("layer_modifier", VRec [("hold", VNum 1)])]; key 27]; LKeys [VNull; abc]] []
    (mkOptions None None None None (Some 1) None None None).
Lemma abc_quick_written : writes 2 abc_quick abc_layout.
Proof. exact abc_written. Qed.
Definition abc_gen : generated := Eval vm_compute in match build 16 abc_quick with Ok g => g | _ => b_gen end.
Definition abc_conf := cconf (gn_refs abc_gen) (gn_data abc_gen) bs_std false.
Definition abc_ctx : cctx := ctx_from_config (gn_config abc_gen).
Definition abc_3 : list fw_step := PropertiesCKeyboard.scan [0; 1]%nat 216.
Lemma abc_fact :
  returns (fw_start 1 2 9 (PropertiesCKeyboard.hold_keys []) (km_new abc_ctx)) (fun o => match o with
    | Some s0 => two_calm 2 abc_conf 10 (b_1 ++ b_2 ++ abc_3) s0 = true
        /\ returns (fw_run abc_conf 10 1 2 PropertiesCKeyboard.grid (b_1 ++ b_2) s0) (fun s2 => returns (fw_run abc_conf 10 1 2 PropertiesCKeyboard.grid abc_3 s2) (fun s =>
             Nat.leb (reports s2 + 216) (reports s) = true
             /\ received ChKb (fw_loop s) = [[0; 0; 4; 0; 0; 0; 0; 0]]))
    | None => False
    end).
Proof. vm_compute. repeat split; reflexivity. Qed.
Example C84_tap_dances_example : exists s2 s,
  writes 2 abc_quick abc_layout /\ sound abc_layout /\ layout_of (dance_key (length (lo_uppers abc_layout))) abc_layout /\ build 16 abc_quick = Ok abc_gen /\ position_ok bs_std
  /\ given (op_dance_timeout (ks_options abc_quick)) 200 1 /\ wiring_ok 1 2 (length (lo_base abc_layout)) PropertiesCKeyboard.grid
  /\ held_still abc_conf 10 1 2 (length (lo_base abc_layout)) PropertiesCKeyboard.grid 9 abc_ctx (PropertiesCKeyboard.hold_keys [0; 1]%nat) (switches (b_1 ++ b_2 ++ abc_3)) s2 s
  /\ (reports s2 + 216 <= reports s)%nat /\ received ChKb (fw_loop s) = [[0; 0; 4; 0; 0; 0; 0; 0]].
Proof.
  destruct (PropertiesCKeyboard.fw_returns _ _ abc_fact) as ([s0|] & Es & F); [|destruct F]. destruct F as (C & F).
  destruct (PropertiesCKeyboard.fw_returns _ _ F) as (s2 & E2 & F2). destruct (PropertiesCKeyboard.fw_returns _ _ F2) as (s & E3 & Hm & Hr). apply Nat.leb_le in Hm.
  exists s2, s. split; [exact abc_quick_written|]. split; [exact abc_sound|]. split; [exact abc_dances|]. split; [vm_compute; reflexivity|]. split; [exact SchedulerFacts.bs_std_position_ok|].
  split; [reflexivity|]. split; [exact two_wired|]. split; [|split; [exact Hm|exact Hr]].
  exists (PropertiesCKeyboard.hold_keys []), b_1, b_2, abc_3, s0. split; [exact Es|]. split; [exact E2|]. split; [exact E3|]. split; [apply two_calm_ok; exact C|].
  split; [unfold steady; vm_compute; repeat constructor|]. split; [vm_compute; lia|]. split; [apply scans_steady|reflexivity].
Qed.
