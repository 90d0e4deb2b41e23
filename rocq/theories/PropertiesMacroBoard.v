(** C77: keyboards with layers and macro keys. *)
From Verif Require Import BaseFacts Output Types Scheduler Reporter Keymap SimpleKeys TapHold TapDance Sticky CapsWord Layered Automation Chorded Composite Samples SpecScheduler SpecKeymap
  KeymapHist KeymapInv KeymapQueue KeymapApi CtxFacts SpecPlain PlainFacts SpecLayer SpecKinds SpecBoard BoardFacts SpecTapBoard TapBoardFacts TapBoardTotal TapBoardLive
  SpecMacro MacroFacts SpecDanceBoard SpecMacroBoard MacroBoardFacts MacroBoardLive PropertiesKeymap PropertiesTapBoard PropertiesDanceBoard.
From Coq Require Import Permutation.
Local Open Scope N_scope.

(** What a keymap shows of the keyboard: the reports, the layers, the callbacks that
    ran, the inputs that wait, and whether anything is to happen. *)
Definition displays (conf : kconf ref cctx cev cpks cks) (setup : list op) (s : playing) (k : ckeymap) : Prop :=
  km_pressed_keys conf k = Ok (board_output (dk_board (pl_desk s)))
  /\ (forall l, is_on (cx_layered (km_ctx k)) l = bd_on (dk_board (pl_desk s)) l) /\ lyx_default (cx_layered (km_ctx k)) = bd_default (dk_board (pl_desk s))
  /\ km_calls k = filter_map (registered setup) (dk_calls (pl_desk s))
  /\ km_inq k = pl_waiting s
  /\ (km_has_scheduled_events k = false <-> dk_alarms (pl_desk s) = [] /\ pl_waiting s = []).
Lemma sim_displays refs d pos dbg n cf L setup now s k : (forall cs, filter_map (lm_get L) cs = filter_map (registered setup) cs) -> psim d n cf L false now s k -> displays (cconf refs d pos dbg) setup s k.
Proof.
  intros Hreg (H & Hq & _). unfold displays. rewrite (ms_calls _ _ _ _ _ _ _ _ _ H), Hreg. pose proof (ms_layers _ _ _ _ _ _ _ _ _ H) as (_ & Hon & Hdf & _).
  split; [eapply mheld_outputs; exact (ms_held _ _ _ _ _ _ _ _ _ H)|]. split; [exact Hon|]. split; [exact Hdf|]. split; [reflexivity|]. split; [exact Hq|].
  unfold km_has_scheduled_events. rewrite (ms_pending _ _ _ _ _ _ _ _ _ H), Hq. pose proof (Permutation_length (ms_alarms _ _ _ _ _ _ _ _ _ H)) as P. rewrite map_length in P.
  destruct (sc_scheduled (km_sched k)), (dk_alarms (pl_desk s)), (pl_waiting s); cbn in *; try lia; split; intros X; try discriminate X; try (destruct X as (X & Y); discriminate); auto.
Qed.

(** C77: whatever the calls, the keymap shows the keyboard of SpecMacroBoard.v: a macro
    key starts the macros of its table, and these are played one instruction at a time,
    each after the one before is over, pressing and releasing keys of their own. *)
Theorem C77_pressed :
  forall refs d pos dbg height fuel setup ops cf k0 k, position_ok pos ->
  Forall (macro_board_key (cf_layer_count cf) d (cf_automation cf) height) refs ->
  registers_two setup -> Forall (fun o => plain_op o = true) ops ->
  run_ops (cconf refs d pos dbg) fuel setup (km_new (ctx_from_config cf)) = Ok k0 ->
  run_ops (cconf refs d pos dbg) fuel ops k0 = Ok k ->
  exists s, play_run (cf_layer_count cf) refs d (cf_automation cf) ops s
  /\ displays (cconf refs d pos dbg) setup s k.
Proof.
  intros refs d pos dbg height fuel setup ops cf k0 k Hpos Hr Hset Ho H0 H.
  destruct (setup_total (cconf refs d pos dbg) fuel setup Hset (ctx_from_config cf)) as (L & EL). rewrite H0 in EL. injection EL as ->.
  pose proof (registered_same _ _ _ _ _ _ _ _ H0) as Hreg.
  destruct (run_play refs d pos dbg cf fuel Hpos (ex_intro _ height Hr) L ops k Ho H) as (s & Hrun & Hc).
  exists s. split; [exact Hrun|]. eapply sim_displays; eassumption.
Qed.

(** C77: in every run, at most eight macros have instructions left, and as long as
    there is one, exactly one next step is due; otherwise none. *)
Theorem C77_one_at_a_time : forall n refs d cf ops s, play_run n refs d cf ops s ->
  (length (dk_queue (pl_desk s)) <= 8)%nat /\ Forall (fun m => m <> []) (dk_queue (pl_desk s))
  /\ nexts (dk_alarms (pl_desk s)) = match dk_queue (pl_desk s) with [] => 0%nat | _ => 1%nat end.
Proof.
  intros n refs d cf ops s H. destruct (run_ok _ _ _ _ _ _ H) as (A & B & E & _). split; [exact B|]. split; [eapply Forall_impl; [|exact A]; cbn; tauto|].
  rewrite Nat.add_0_r in E. exact E.
Qed.

(** C77: once the keymap has nothing scheduled, every macro was played to its end and
    no input waits; if the macros only tap keys, and the caller presses no virtual
    keys, no key pressed by a macro is still down. *)
Theorem C77_settled :
  forall refs d pos dbg height fuel setup ops cf k0 k, position_ok pos ->
  Forall (macro_board_key (cf_layer_count cf) d (cf_automation cf) height) refs ->
  registers_two setup -> Forall (fun o => plain_op o = true) ops ->
  run_ops (cconf refs d pos dbg) fuel setup (km_new (ctx_from_config cf)) = Ok k0 ->
  run_ops (cconf refs d pos dbg) fuel ops k0 = Ok k -> km_has_scheduled_events k = false ->
  exists s, play_run (cf_layer_count cf) refs d (cf_automation cf) ops s
  /\ displays (cconf refs d pos dbg) setup s k
  /\ dk_queue (pl_desk s) = [] /\ dk_alarms (pl_desk s) = [] /\ pl_waiting s = []
  /\ (Forall leaves_no_key (auc_instructions (cf_automation cf)) -> Forall (fun o => match o with OpInput x => ~ is_virtual_input x | _ => True end) ops ->
      virtuals (bd_down (dk_board (pl_desk s))) = []).
Proof.
  intros refs d pos dbg height fuel setup ops cf k0 k Hpos Hr Hset Ho H0 H Hev.
  destruct (C77_pressed _ _ _ _ _ _ _ _ _ _ _ Hpos Hr Hset Ho H0 H) as (s & Hrun & Hd). exists s. split; [exact Hrun|]. split; [exact Hd|].
  destruct Hd as (_ & _ & _ & _ & _ & Hs). destruct (proj1 Hs Hev) as (Ha & Hw). split; [eapply nothing_left; [eapply run_ok; exact Hrun|exact Ha]|]. split; [exact Ha|]. split; [exact Hw|].
  intros Ht Hv. destruct (run_released _ _ _ _ Ht _ _ Hv Hrun) as (_ & Hp & _). rewrite Ha in Hp. now apply Permutation_sym, Permutation_nil in Hp.
Qed.
(** In every run of such a keyboard, the keys that macros hold down are those that are
    to be released. *)
Theorem C77_taps_are_released : forall n refs d cf ops s, Forall leaves_no_key (auc_instructions cf) ->
  Forall (fun o => match o with OpInput x => ~ is_virtual_input x | _ => True end) ops -> play_run n refs d cf ops s ->
  Permutation (virtuals (bd_down (dk_board (pl_desk s)))) (releases (dk_alarms (pl_desk s))).
Proof. intros n refs d cf ops s Ht Hv H. apply (run_released _ _ _ _ Ht _ _ Hv H). Qed.

(** C77: left alone, and if no macro is started because a key is held, the keymap
    settles: after 100 times as many ticks as all the instructions of the table take. *)
Theorem C77_settles :
  forall refs d pos dbg height fuel setup ops cf k0 t k, position_ok pos ->
  Forall (macro_board_key (cf_layer_count cf) d (cf_automation cf) height) refs ->
  registers_two setup -> Forall (fun o => plain_op o = true) ops -> 0 < ck_ms (clocks_run ops) ->
  run_ops (cconf refs d pos dbg) fuel setup (km_new (ctx_from_config cf)) = Ok k0 ->
  (forall s, play_run (cf_layer_count cf) refs d (cf_automation cf) ops s -> holds_nothing refs d (cf_automation cf) s) ->
  100 * (mcost (cf_automation cf) (auc_instructions (cf_automation cf)) + 1) <= N.of_nat t ->
  run_ops (cconf refs d pos dbg) fuel (ops ++ repeat OpTick t) k0 = Ok k ->
  km_has_scheduled_events k = false.
Proof.
  intros refs d pos dbg height fuel setup ops cf k0 t k Hpos Hr Hset Ho Hms H0 Hn Ht H.
  pose proof (C17_bounded_state _ _ _ _ _ (cconf refs d pos dbg) fuel (setup ++ ops) (ctx_from_config cf)) as Hb. rewrite run_ops_app, H0 in Hb. cbn [bind] in Hb.
  destruct (setup_total (cconf refs d pos dbg) fuel setup Hset (ctx_from_config cf)) as (L & EL). pose proof EL as EL'. rewrite H0 in EL'. injection EL' as ->.
  rewrite run_ops_app in H. inv_bind H. destruct (Hb _ E) as (_ & _ & Hq & _ & Hsc).
  destruct (run_play refs d pos dbg cf fuel Hpos (ex_intro _ height Hr) L ops a Ho E) as (s & Hrun & Hc).
  assert (Hpot : pot (cf_automation cf) (now_after ops) s <= N.of_nat t).
  { eapply N.le_trans; [|exact Ht]. apply pot_bound; [eapply run_ok; exact Hrun| |].
    - destruct Hc as (Hm & _). pose proof (Permutation_length (ms_alarms _ _ _ _ _ _ _ _ _ Hm)) as P. rewrite map_length in P. rewrite <- P. exact Hsc.
    - destruct Hc as (_ & <- & _). exact Hq. }
  destruct (settle refs d pos dbg cf fuel Hpos (ex_intro _ height Hr) L t ops s a k Ho E Hrun Hc (Hn s Hrun) Hms Hpot H) as (s' & Hrun' & Hc' & Hz).
  apply (sim_displays refs d pos dbg) with (setup := setup) in Hc'; [|exact (registered_same _ _ _ _ _ _ _ _ H0)]. destruct Hc' as (_ & _ & _ & _ & _ & Hs). apply (proj2 Hs).
  destruct (pot_zero _ _ _ (run_ok _ _ _ _ _ _ Hrun') Hz) as (A & B & _). auto.
Qed.

(** C77: if the macro keys are all at one place of the keyboard, then as long as that
    key is held, and it has a macro for being held, the keymap goes on playing. *)
Theorem C77_held_goes_on :
  forall refs d pos dbg height fuel setup ops cf k0 k i, position_ok pos ->
  Forall (macro_board_key (cf_layer_count cf) d (cf_automation cf) height) refs ->
  registers_two setup -> Forall (fun o => plain_op o = true) ops ->
  (forall j r on def a, nth_error refs (N.to_nat j) = Some r -> runs d on def r a -> j = i) ->
  run_ops (cconf refs d pos dbg) fuel setup (km_new (ctx_from_config cf)) = Ok k0 ->
  run_ops (cconf refs d pos dbg) fuel ops k0 = Ok k ->
  exists s, play_run (cf_layer_count cf) refs d (cf_automation cf) ops s
  /\ displays (cconf refs d pos dbg) setup s k
  /\ (forall a, In (i, a) (dk_macros (pl_desk s)) -> macro_of (cf_automation cf) (ak_while_pressed a) <> [] ->
      km_has_scheduled_events k = true
      /\ (dk_queue (pl_desk s) <> [] \/ exists t, In (t, AlDone i) (dk_alarms (pl_desk s)))).
Proof.
  intros refs d pos dbg height fuel setup ops cf k0 k i Hpos Hr Hset Ho Hi H0 H.
  destruct (C77_pressed _ _ _ _ _ _ _ _ _ _ _ Hpos Hr Hset Ho H0 H) as (s & Hrun & Hd). exists s. split; [exact Hrun|]. split; [exact Hd|].
  intros a Hin Hw. destruct (run_keeps _ _ _ _ i Hi _ _ Hrun) as (_ & X). destruct X as [X|(a' & X & _ & Hl)]; rewrite X in Hin; [destruct Hin|].
  destruct Hin as [Hin|[]]. injection Hin as ->. specialize (Hl Hw). split; [|exact Hl]. destruct (km_has_scheduled_events k) eqn:Ek; [reflexivity|exfalso].
  destruct Hd as (_ & _ & _ & _ & _ & Hs). destruct (proj1 Hs Ek) as (Ea & _). destruct Hl as [Hq|(t & Ht)]; [|rewrite Ea in Ht; destruct Ht].
  apply Hq. eapply nothing_left; [eapply run_ok; exact Hrun|exact Ea].
Qed.

(** A keyboard with one layer above the base, and these keys: one that types A and B;
    one that types C as long as it is held, and then D; one that is A, and on layer 1
    types left control and A; the key for layer 1; a letter. *)
Definition macro_instructions : list instruction :=
  [InTap (out 4); InTap (out 5); InTap (out 6); InTap (out 7); InPress (out 224); InTap (out 4); InWait 3; InRelease (out 224)].
Definition macro_data : key_data :=
  mkData [mkAutoKey (mkExec 0 2) exec_empty exec_empty; mkAutoKey exec_empty (mkExec 2 1) (mkExec 3 1); mkAutoKey (mkExec 4 4) exec_empty exec_empty]
    [] [] [] [] [LmHold 1] [mkLayeredKey kA [Some (RAutomation 2)]] [] [] [].
Definition macro_refs : list ref := [RAutomation 0; RAutomation 1; RLayered (LyLayered 0); RLayered (LyModifier 0); kD].
Definition macro_config (l : list instruction) : config :=
  mkConfig (mkAutoConfig l 2) (cf_chorded sample_config) sticky_config_default tapdance_config_default (cf_tap_hold sample_config) 1.
Lemma macro_refs_ok l : (8 <= length l)%nat -> Forall (macro_board_key 1 macro_data (mkAutoConfig l 2) 1) macro_refs.
Proof.
  intros Hl. assert (K : forall h c, board_key 1 macro_data h (RKeyboard (KbKeyCode c))) by (intros h c; eapply bk_plain; reflexivity).
  assert (R : forall e, ex_start e + ex_length e <= 8 -> exec_in_range (mkAutoConfig l 2) e) by (intros e He; right; cbn [auc_instructions]; unfold u16 in *; lia).
  repeat apply Forall_cons; try apply Forall_nil.
  - eapply mbk_macro; [reflexivity|..]; apply R; vm_compute; discriminate.
  - eapply mbk_macro; [reflexivity|..]; apply R; vm_compute; discriminate.
  - eapply mbk_layered; [reflexivity|reflexivity|apply mbk_key, K|]. intros r [H|[]]. injection H as <-. eapply mbk_macro; [reflexivity|..]; apply R; vm_compute; discriminate.
  - apply mbk_key. eapply bk_modifier; [reflexivity|cbn; lia].
  - apply mbk_key, K.
Qed.
Local Notation mconf := (cconf macro_refs macro_data bs_std false).
Definition mstart : ckeymap := km_new (ctx_from_config (macro_config macro_instructions)).
Definition lctrl : key_output := out 224.
Definition reported (ops : list op) : res (list (list key_output)) :=
  fold_left (fun r m => let! l := r in let! k := run_ops mconf 60 (firstn m ops) mstart in let! p := km_pressed_keys mconf k in Ok (l ++ [p])) (seq 1 (length ops)) (Ok []).
(** The first key tapped: A, then B, and nothing is left.  The second key held: C again
    and again; released: D.  The third key on layer 1: left control with A, for as long
    as it says. *)
Example C77_example :
  Forall (macro_board_key (cf_layer_count (macro_config macro_instructions)) macro_data (cf_automation (macro_config macro_instructions)) 1) macro_refs
  /\ registers_two [] /\ position_ok bs_std
  /\ (let ops := [P 0; OpTick; OpTick; Rl 0; OpTick; OpTick; OpTick; OpTick; OpTick] in
      Forall (fun o => plain_op o = true) ops
      /\ reported ops = Ok [[out 4]; [out 4]; []; []; [out 5]; [out 5]; []; []; []]
      /\ returns (run_ops mconf 60 ops mstart) (fun k => km_has_scheduled_events k = false))
  /\ reported (P 1 :: repeat OpTick 8 ++ Rl 1 :: repeat OpTick 4)
     = Ok [[out 6]; [out 6]; []; [out 6]; [out 6]; []; [out 6]; [out 6]; []; [out 7]; [out 7]; []; []; []]
  /\ reported (P 3 :: OpTick :: P 2 :: repeat OpTick 8)
     = Ok [[]; []; [lctrl]; [lctrl]; [lctrl; out 4]; [lctrl; out 4]; [lctrl]; [lctrl]; [lctrl]; [lctrl]; []].
Proof.
  split; [apply macro_refs_ok; cbn; lia|]. split; [exists CbReset, CbReset; constructor|]. split; [exact SchedulerFacts.bs_std_position_ok|].
  cbv zeta. split; [split; [repeat constructor|]|]; vm_compute; repeat split; reflexivity.
Qed.

(** Keyboards whose keys have no macro for being held: their runs start none. *)
Theorem C77_none_held : forall n refs d cf ops s, (forall r on default a, In r refs -> runs d on default r a -> macro_of cf (ak_while_pressed a) = []) ->
  play_run n refs d cf ops s -> holds_nothing refs d cf s.
Proof. exact none_held. Qed.
(** Such a keyboard, whose keys type A B and C D; both tapped at once. *)
Definition tap_data : key_data := mkData [mkAutoKey (mkExec 0 2) exec_empty exec_empty; mkAutoKey (mkExec 2 1) exec_empty (mkExec 3 1)] [] [] [] [] [] [] [] [] [].
Definition tap_instructions : list instruction := [InTap (out 4); InTap (out 5); InTap (out 6); InTap (out 7)].
Definition tap_refs : list ref := [RAutomation 0; RAutomation 1].
Local Notation pconf := (cconf tap_refs tap_data bs_std false).
Example C77_settles_example :
  let cf := macro_config tap_instructions in let ops := [P 0; P 1; Rl 0; Rl 1] in let k0 := km_new (ctx_from_config cf) in
  Forall (macro_board_key (cf_layer_count cf) tap_data (cf_automation cf) 0) tap_refs
  /\ Forall (fun o => plain_op o = true) ops /\ 0 < ck_ms (clocks_run ops)
  /\ (forall a, In a (kd_automation tap_data) -> macro_of (cf_automation cf) (ak_while_pressed a) = [])
  /\ Forall leaves_no_key (auc_instructions (cf_automation cf)) /\ Forall (fun o => match o with OpInput x => ~ is_virtual_input x | _ => True end) ops
  /\ 100 * (mcost (cf_automation cf) (auc_instructions (cf_automation cf)) + 1) <= N.of_nat 3700
  /\ returns (run_ops pconf 60 (ops ++ repeat OpTick 4) k0) (fun k => km_has_scheduled_events k = true /\ km_pressed_keys pconf k = Ok [out 5])
  /\ returns (run_ops pconf 60 (ops ++ repeat OpTick 20) k0) (fun k => km_has_scheduled_events k = false /\ km_pressed_keys pconf k = Ok []).
Proof.
  cbv zeta. split.
  { apply Forall_cons; [|apply Forall_cons; [|apply Forall_nil]]; (eapply mbk_macro; [reflexivity|..]); (left; reflexivity) || (right; vm_compute; discriminate). }
  split; [repeat constructor|]. split; [reflexivity|]. split; [intros a [<-|[<-|[]]]; reflexivity|]. split; [repeat constructor|]. split; [repeat constructor; cbn; tauto|].
  split; [vm_compute; discriminate|]. vm_compute. repeat split; reflexivity.
Qed.

(** One key with a macro for being held, and a letter: it is held, and goes on. *)
Definition hold_data : key_data := mkData [mkAutoKey exec_empty (mkExec 2 1) exec_empty] [] [] [] [] [] [] [] [] [].
Definition hold_refs : list ref := [kD; RAutomation 0].
Local Notation hconf := (cconf hold_refs hold_data bs_std false).
Example C77_held_goes_on_example :
  let cf := macro_config tap_instructions in let ops := P 1 :: repeat OpTick 40 in let k0 := km_new (ctx_from_config cf) in
  Forall (macro_board_key (cf_layer_count cf) hold_data (cf_automation cf) 0) hold_refs
  /\ (forall j r on def a, nth_error hold_refs (N.to_nat j) = Some r -> runs hold_data on def r a -> j = 1)
  /\ returns (run_ops hconf 60 ops k0) (fun k => km_has_scheduled_events k = true).
Proof.
  cbv zeta. split.
  { apply Forall_cons; [apply mbk_key; eapply bk_plain; reflexivity|apply Forall_cons; [|apply Forall_nil]]. eapply mbk_macro; [reflexivity|..]; (left; reflexivity) || (right; vm_compute; discriminate). }
  split; [|vm_compute; reflexivity]. intros j r on def a Hj Hr. destruct (N.to_nat j) as [|[|m]] eqn:E; cbn in Hj; [injection Hj as <-; inversion Hr|lia|destruct m; discriminate Hj].
Qed.

Definition stopping : list op := P 0 :: OpTick :: P 1 :: repeat OpTick 20.
Lemma returns_inv {A} (m : res A) P : returns m P -> exists x, m = Ok x /\ P x.
Proof. destruct m; cbn; [eauto|contradiction|contradiction]. Qed.
Lemma stops : returns (run_ops (cconf macro_refs macro_data bs_std false) 60 stopping (km_new (ctx_from_config (macro_config macro_instructions)))) (fun k => km_has_scheduled_events k = false).
Proof. vm_compute. reflexivity. Qed.
Lemma stopping_inputs : (length (filter (fun o : op => match o with OpInput _ => true | _ => false end) stopping) <= 31)%nat.
Proof. apply Nat.leb_le. vm_compute. reflexivity. Qed.
Lemma stopping_pressed : In (OpInput (Press 1)) stopping.
Proof. right. right. now left. Qed.
Lemma stopping_held : ~ In (OpInput (Release 1)) stopping.
Proof. intros Hin. cbn in Hin. repeat (destruct Hin as [Hin|Hin]; [discriminate Hin|]). exact Hin. Qed.
Lemma stopping_plain : Forall (fun o => plain_op o = true) stopping.
Proof. repeat constructor. Qed.
(** C77: with macro keys at two places it can stop: a macro that waits behind that of
    another key is played, but when it is over it is the other key that is told. *)
Theorem C77_while_pressed_refuted :
  ~ (forall refs d pos dbg height fuel ops cf k i q a, position_ok pos ->
     Forall (macro_board_key (cf_layer_count cf) d (cf_automation cf) height) refs ->
     nth_error refs (N.to_nat i) = Some (RAutomation q) -> nth_error (kd_automation d) (N.to_nat q) = Some a -> macro_of (cf_automation cf) (ak_while_pressed a) <> [] ->
     Forall (fun o => plain_op o = true) ops -> (length (filter (fun o => match o with OpInput _ => true | _ => false end) ops) <= 31)%nat ->
     In (OpInput (Press i)) ops -> ~ In (OpInput (Release i)) ops ->
     run_ops (cconf refs d pos dbg) fuel ops (km_new (ctx_from_config cf)) = Ok k ->
     km_has_scheduled_events k = true).
Proof.
  intros H. destruct (returns_inv _ _ stops) as (k & E & X).
  assert (Y : km_has_scheduled_events k = true); [|rewrite X in Y; discriminate Y].
  refine (H macro_refs macro_data bs_std false 1%nat 60%nat stopping (macro_config macro_instructions) k 1 1 (mkAutoKey exec_empty (mkExec 2 1) (mkExec 3 1))
    SchedulerFacts.bs_std_position_ok (macro_refs_ok macro_instructions _) eq_refl eq_refl _ stopping_plain stopping_inputs stopping_pressed stopping_held E).
  - cbn. lia.
  - discriminate.
Qed.

Print Assumptions C77_pressed.
Print Assumptions C77_one_at_a_time.
Print Assumptions C77_settled.
Print Assumptions C77_taps_are_released.
Print Assumptions C77_settles.
Print Assumptions C77_held_goes_on.
Print Assumptions C77_none_held.
Print Assumptions C77_while_pressed_refuted.
