(** C68: keyboards with layers and tap-hold keys. *)
From Verif Require Import BaseFacts Output Types Scheduler Keymap SimpleKeys TapHold TapDance Sticky Layered Chorded Composite Samples SpecScheduler SpecKeymap
  KeymapQueue KeymapApi CtxFacts SpecPlain PlainFacts SpecLayer SpecTap TapFacts SpecDecide PropertiesDecide SpecBoard BoardFacts SpecTapBoard TapBoardFacts TapBoardTotal TapBoardLive.
Local Open Scope N_scope.

(** C68: the inputs and the decisions determine the keyboard and its calls. *)
Theorem C68_unique : forall n refs d ir timing ir' timing' h later later' xs b b' cs cs',
  tap_run n refs d ir timing h later xs b cs -> tap_run n refs d ir' timing' h later' xs b' cs' ->
  same_board b b' /\ cs = cs'.
Proof.
  intros n refs d ir timing ir' timing' h later later' xs b b' cs cs' H1 H2.
  destruct (tap_run_fun _ _ _ _ _ _ _ _ _ _ _ _ H1 _ _ _ _ [] [] H2 eq_refl) as (A & B & _). auto.
Qed.

(** C68: what a decision says about the inputs after the press.  A key is tapped
    when it is released, and before that nothing made it a hold. *)
Theorem C68_tapped : forall ir timing before i later, agrees ir timing before i later Tapped ->
  exists seen rest, later = seen ++ Release i :: rest /\ ~ In (Release i) seen /\ timing before i Tapped (seen ++ [Release i])
  /\ (ir = IrHoldOnKeyPress -> forall j, ~ In (Press j) seen)
  /\ (ir = IrHoldOnKeyTap -> forall a j b c, seen = a ++ Press j :: b ++ Release j :: c -> exists j', In (Press j') b).
Proof.
  intros ir timing before i later (seen & last & rest & -> & Hf & Hr & Ht).
  assert (Hl : last = Release i).
  { destruct last as [j|j|ko|ko]; cbn in Hr; try discriminate; [now destruct ir|]. destruct (N.eqb_spec j i) as [->|]; [reflexivity|].
    destruct ir; try discriminate. destruct (latest_press (map EvInput seen)) as [x|]; [|discriminate]. now destruct (j =? x). }
  subst last. exists seen, rest. split; [reflexivity|]. pose proof (undecided_release _ _ _ _ Hf) as Hnr. split; [exact Hnr|]. split; [exact Ht|]. split.
  - intros -> j Hj. apply in_split in Hj as (a & z & ->). pose proof (first_some _ _ _ _ Hf a (Press j) z eq_refl) as X. discriminate X.
  - intros -> a j b c ->. pose proof (first_some _ _ _ _ Hf (a ++ Press j :: b) (Release j) c) as X. rewrite <- app_assoc in X. specialize (X eq_refl).
    cbn [app tap_hold_rule] in X. destruct (j =? i); [discriminate|].
    replace (a ++ Press j :: b) with ((a ++ [Press j]) ++ b) in X by now rewrite <- app_assoc.
    rewrite latest_app, map_app in X. cbn [map] in X. rewrite latest_press_app in X.
    destruct (latest_press (map EvInput b)) as [y|] eqn:Eb; [|now rewrite N.eqb_refl in X].
    exists y. apply last_press_split in Eb as (s1 & s2 & -> & _). apply in_or_app. right. now left.
Qed.
(** It is interrupted, if it is configured so, by the press of a key, or by the
    release of the key pressed last; and it was not released before that. *)
Theorem C68_interrupted : forall ir timing before i later, agrees ir timing before i later Interrupted ->
  ir <> IrIgnore /\ exists seen last rest, later = seen ++ last :: rest /\ ~ In (Release i) seen /\ timing before i Interrupted (seen ++ [last])
  /\ (ir = IrHoldOnKeyPress -> (exists j, last = Press j) /\ forall j, ~ In (Press j) seen)
  /\ (ir = IrHoldOnKeyTap -> exists j a b, last = Release j /\ j <> i /\ seen = a ++ Press j :: b /\ forall j', ~ In (Press j') b).
Proof.
  intros ir timing before i later (seen & last & rest & -> & Hf & Hr & Ht). pose proof (undecided_release _ _ _ _ Hf) as Hnr.
  split; [intros ->; destruct last as [j|j|ko|ko]; cbn in Hr; try discriminate; destruct (j =? i); discriminate|].
  exists seen, last, rest. split; [reflexivity|]. split; [exact Hnr|]. split; [exact Ht|]. split.
  - intros ->. split.
    + destruct last as [j|j|ko|ko]; cbn in Hr; try discriminate; [now exists j|]. destruct (j =? i); discriminate.
    + intros j Hj. apply in_split in Hj as (a & z & ->). pose proof (first_some _ _ _ _ Hf a (Press j) z eq_refl) as X. discriminate X.
  - intros ->. destruct last as [j|j|ko|ko]; cbn in Hr; try discriminate. destruct (N.eqb_spec j i) as [|Hne]; [discriminate|].
    destruct (latest_press (map EvInput seen)) as [x|] eqn:E; [|discriminate]. destruct (N.eqb_spec j x) as [<-|]; [|discriminate].
    apply last_press_split in E as (a & b & -> & Hb). exists j, a, b. auto.
Qed.
(** Its time passes before it is released and before it is interrupted. *)
Theorem C68_timed_out : forall ir timing before i later, agrees ir timing before i later TimedOut ->
  exists seen rest, later = seen ++ rest /\ ~ In (Release i) seen /\ timing before i TimedOut seen
  /\ (ir = IrHoldOnKeyPress -> forall j, ~ In (Press j) seen)
  /\ (ir = IrHoldOnKeyTap -> forall a j b c, seen = a ++ Press j :: b ++ Release j :: c -> exists j', In (Press j') b).
Proof.
  intros ir timing before i later (seen & rest & -> & Hf & Ht). pose proof (undecided_release _ _ _ _ Hf) as Hnr.
  exists seen, rest. split; [reflexivity|]. split; [exact Hnr|]. split; [exact Ht|]. split.
  - intros -> j Hj. apply in_split in Hj as (a & z & ->). pose proof (first_some _ _ _ _ Hf a (Press j) z eq_refl) as X. discriminate X.
  - intros -> a j b c ->. pose proof (first_some _ _ _ _ Hf (a ++ Press j :: b) (Release j) c) as X. rewrite <- app_assoc in X. specialize (X eq_refl).
    cbn [app tap_hold_rule] in X. destruct (j =? i); [discriminate|].
    replace (a ++ Press j :: b) with ((a ++ [Press j]) ++ b) in X by now rewrite <- app_assoc.
    rewrite latest_app, map_app in X. cbn [map] in X. rewrite latest_press_app in X.
    destruct (latest_press (map EvInput b)) as [y|] eqn:Eb; [|now rewrite N.eqb_refl in X].
    exists y. apply last_press_split in Eb as (s1 & s2 & -> & _). apply in_or_app. right. now left.
Qed.

(** C68: at any time the outputs, the layers and the calls are those of the keyboard
    after the inputs taken so far, for decisions that agree with the inputs and with
    the time; the other inputs are still waiting, and if a key is undecided it is the
    first of these, and nothing in what the keymap has seen after it decides it. *)
Theorem C68_pressed :
  forall refs d pos dbg height fuel setup ops cf k0 k, Forall (tap_board_key (cf_layer_count cf) d height) refs -> (height + 8 <= fuel)%nat ->
  registers_two setup -> Forall (fun o => plain_op o = true) ops ->
  run_ops (cconf refs d pos dbg) fuel setup (km_new (ctx_from_config cf)) = Ok k0 ->
  run_ops (cconf refs d pos dbg) fuel ops k0 = Ok k ->
  in_turn (let_in (cconf refs d pos dbg) fuel ops k0) ->
  exists taken waiting xs b cs, let_in (cconf refs d pos dbg) fuel ops k0 = taken ++ waiting
  /\ tap_run (cf_layer_count cf) refs d (thc_interrupt (cf_tap_hold cf))
       (run_timing (cconf refs d pos dbg) fuel (cf_tap_hold cf) k0 ops) taken waiting xs b cs
  /\ km_pressed_keys (cconf refs d pos dbg) k = Ok (board_output b)
  /\ (forall l, is_on (cx_layered (km_ctx k)) l = bd_on b l) /\ lyx_default (cx_layered (km_ctx k)) = bd_default b
  /\ km_calls k = filter_map (registered setup) cs
  /\ match undecided k with
     | None => waiting = km_inq k
     | Some (i, _) => exists seen, waiting = Press i :: seen ++ km_inq k
         /\ first_decision (tap_hold_rule (thc_interrupt (cf_tap_hold cf)) i) [] (map EvInput seen) = None
     end.
Proof.
  intros refs d pos dbg height fuel setup ops cf k0 k Hr Hf Hset Ho H0 H Ht.
  destruct (setup_total (cconf refs d pos dbg) fuel setup Hset (ctx_from_config cf)) as (L & EL). rewrite H0 in EL. injection EL as ->.
  pose proof (callbacks_registered _ _ _ _ _ H0) as Hreg. cbn [set_callbacks km_callbacks km_new] in Hreg.
  assert (Hreg' : forall cs, filter_map (lm_get L) cs = filter_map (registered setup) cs).
  { intros cs. induction cs as [|c cs IH]; cbn; [reflexivity|]. unfold registered at 1. rewrite <- (Hreg c : _ = registered_in setup c None). destruct (lm_get L c); now rewrite IH. }
  replace fuel with (S (S (S (S (S (S (S (S (height + (fuel - height - 8)))))))))) in * by lia.
  destruct (run_core refs d pos dbg cf height (fuel - height - 8) Hr L ops k Ho H Ht) as (_ & _ & _ & h & b & xs & cs & Hc & X).
  destruct X as [(Ea & Hrun & Hb & _)|(i & q & key & qd & due & Ea & Hrun & Hu & _)].
  - exists h, (km_inq k), xs, b, cs. split; [exact Ea|]. split; [exact Hrun|]. destruct Hb as (_ & (_ & Hon & Hdf & _) & Hh & _ & _ & Hp).
    split; [eapply outputs_held; exact Hh|]. split; [exact Hon|]. split; [exact Hdf|]. split; [now rewrite Hc, Hreg'|].
    unfold undecided. now rewrite Hp.
  - exists h, (Press i :: qd ++ km_inq k), xs, b, cs. split; [exact Ea|]. split; [exact Hrun|]. destruct Hu as (Hp & (_ & (_ & Hon & Hdf & _) & Hh & _) & _ & _ & _ & Hfd).
    split; [eapply outputs_held; exact Hh|]. split; [exact Hon|]. split; [exact Hdf|]. split; [now rewrite Hc, Hreg'|].
    unfold undecided. rewrite Hp. cbn. exists qd. auto.
Qed.

(** C68: once the keymap has nothing scheduled, every input has been taken. *)
Theorem C68_settled :
  forall refs d pos dbg height fuel setup ops cf k0 k, position_ok pos ->
  Forall (tap_board_key (cf_layer_count cf) d height) refs -> (height + 8 <= fuel)%nat ->
  registers_two setup -> Forall (fun o => plain_op o = true) ops ->
  run_ops (cconf refs d pos dbg) fuel setup (km_new (ctx_from_config cf)) = Ok k0 ->
  run_ops (cconf refs d pos dbg) fuel ops k0 = Ok k ->
  in_turn (let_in (cconf refs d pos dbg) fuel ops k0) -> km_has_scheduled_events k = false ->
  exists xs b cs, tap_run (cf_layer_count cf) refs d (thc_interrupt (cf_tap_hold cf))
       (run_timing (cconf refs d pos dbg) fuel (cf_tap_hold cf) k0 ops) (let_in (cconf refs d pos dbg) fuel ops k0) [] xs b cs
  /\ km_boot_keyboard_report (cconf refs d pos dbg) k = Ok (as_hid_boot_keyboard_report (board_output b))
  /\ (forall l, is_on (cx_layered (km_ctx k)) l = bd_on b l) /\ lyx_default (cx_layered (km_ctx k)) = bd_default b
  /\ km_calls k = filter_map (registered setup) cs.
Proof.
  intros refs d pos dbg height fuel setup ops cf k0 k Hpos Hr Hf Hset Ho H0 H Ht Hev.
  destruct (C68_pressed _ _ _ _ _ _ _ _ _ _ _ Hr Hf Hset Ho H0 H Ht) as (taken & waiting & xs & b & cs & Ea & Hrun & Hp & Hon & Hdf & Hc & Hw).
  assert (Hall : run_ops (cconf refs d pos dbg) fuel (setup ++ ops) (km_new (ctx_from_config cf)) = Ok k) by (rewrite run_ops_app, H0; exact H).
  destruct (undecided k) as [[i p]|] eqn:Eu.
  { destruct (C52_asks_to_be_ticked _ _ _ _ _ _ _ _ _ Hpos Hall Eu) as (X & _). congruence. }
  assert (Hq : km_inq k = []).
  { unfold km_has_scheduled_events in Hev. destruct (km_inq k); [reflexivity|]. rewrite orb_true_r in Hev. discriminate. }
  rewrite Hq in Hw. subst waiting. rewrite app_nil_r in Ea. exists xs, b, cs. rewrite Ea. split; [exact Hrun|].
  split; [unfold km_boot_keyboard_report; rewrite Hp; reflexivity|]. auto.
Qed.

(** C68: left alone, the keymap settles: after 96 times as many ticks as the timeout
    has milliseconds, and 96 more, it has nothing scheduled, whatever was going on. *)
Theorem C68_settles :
  forall refs d pos dbg height fuel setup ops cf k0 n k, position_ok pos ->
  Forall (tap_board_key (cf_layer_count cf) d height) refs -> (height + 8 <= fuel)%nat ->
  registers_two setup -> Forall (fun o => plain_op o = true) ops -> one_pace ops ->
  run_ops (cconf refs d pos dbg) fuel setup (km_new (ctx_from_config cf)) = Ok k0 ->
  in_turn (let_in (cconf refs d pos dbg) fuel ops k0) ->
  96 * (thc_timeout (cf_tap_hold cf) + 1) <= N.of_nat n ->
  run_ops (cconf refs d pos dbg) fuel (ops ++ repeat OpTick n) k0 = Ok k ->
  km_has_scheduled_events k = false
  /\ let_in (cconf refs d pos dbg) fuel (ops ++ repeat OpTick n) k0 = let_in (cconf refs d pos dbg) fuel ops k0.
Proof.
  intros refs d pos dbg height fuel setup ops cf k0 n k Hpos Hr Hf Hset Ho Hp H0 Ht Hn H.
  destruct (setup_total (cconf refs d pos dbg) fuel setup Hset (ctx_from_config cf)) as (L & EL). rewrite H0 in EL. injection EL as ->.
  replace fuel with (S (S (S (S (S (S (S (S (height + (fuel - height - 8)))))))))) in * by lia. split.
  - eapply (settle_all refs d pos dbg cf height (fuel - height - 8) Hr Hpos L); [|exact Ho|exact Hp|exact Ht| |exact H].
    + intros ops' k' u Hk Hu. eapply C52_asks_to_be_ticked; [exact Hpos| |exact Hu]. rewrite run_ops_app, H0. exact Hk.
    + unfold u16 in *. lia.
  - clear. generalize (set_callbacks (km_new (ctx_from_config cf)) L : ckeymap) as k1. induction ops as [|o ops IH]; intros k1; cbn [app let_in].
    + revert k1. induction n as [|n IH]; intros k1; [reflexivity|]. cbn [repeat let_in app]. destruct (run_op _ _ k1 OpTick); [apply IH|reflexivity..].
    + destruct (run_op _ _ k1 o); [now rewrite IH|reflexivity..].
Qed.

(** C68: up to 31 inputs are never dropped; so these theorems then speak of all inputs. *)
Theorem C68_nothing_dropped :
  forall refs d pos dbg height fuel setup ops cf k0 k, Forall (tap_board_key (cf_layer_count cf) d height) refs -> (height + 8 <= fuel)%nat ->
  registers_two setup -> Forall (fun o => plain_op o = true) ops ->
  run_ops (cconf refs d pos dbg) fuel setup (km_new (ctx_from_config cf)) = Ok k0 ->
  run_ops (cconf refs d pos dbg) fuel ops k0 = Ok k -> in_turn (inputs ops) -> (length (inputs ops) <= 31)%nat ->
  let_in (cconf refs d pos dbg) fuel ops k0 = inputs ops.
Proof.
  intros refs d pos dbg height fuel setup ops cf k0 k Hr Hf Hset Ho H0 H Ht Hl.
  destruct (setup_total (cconf refs d pos dbg) fuel setup Hset (ctx_from_config cf)) as (L & EL). rewrite H0 in EL. injection EL as ->.
  replace fuel with (S (S (S (S (S (S (S (S (height + (fuel - height - 8)))))))))) in * by lia. eapply all_let_in; eassumption.
Qed.

(** C68: the keymap keeps running as long as the inputs fit, the clock does not
    overflow, no more than 16 inputs wait behind an undecided key, and there are not
    32 presses within the timeout. *)
Theorem C68_keeps_running :
  forall refs d pos dbg height fuel setup ops cf k0, position_ok pos ->
  Forall (tap_board_key (cf_layer_count cf) d height) refs -> N.of_nat (length refs) <= 65535 -> (height + 8 <= fuel)%nat ->
  registers_two setup -> Forall (fun o => plain_op o = true) ops -> one_pace ops ->
  run_ops (cconf refs d pos dbg) fuel setup (km_new (ctx_from_config cf)) = Ok k0 ->
  in_turn (let_in (cconf refs d pos dbg) fuel ops k0) ->
  fits (length refs) (chc_max_pressed (cf_chorded cf)) (let_in (cconf refs d pos dbg) fuel ops k0) ->
  ck_now (clocks_run ops) + thc_timeout (cf_tap_hold cf) <= u32_max ->
  (forall a o z k, ops = a ++ o :: z -> run_ops (cconf refs d pos dbg) fuel a k0 = Ok k ->
     ~ crowded (cconf refs d pos dbg) fuel (cf_tap_hold cf) k0 a
     /\ (undecided k <> None -> (behind k + length (let_in (cconf refs d pos dbg) fuel [o] k) <= 16)%nat)) ->
  exists k, run_ops (cconf refs d pos dbg) fuel ops k0 = Ok k.
Proof.
  intros refs d pos dbg height fuel setup ops cf k0 Hpos Hr Hmany Hf Hset Ho Hp H0 Ht Hfit Hclk Hc.
  destruct (setup_total (cconf refs d pos dbg) fuel setup Hset (ctx_from_config cf)) as (L & EL). rewrite H0 in EL. injection EL as ->.
  replace fuel with (S (S (S (S (S (S (S (S (height + (fuel - height - 8)))))))))) in * by lia.
  destruct (run_total refs d pos dbg cf height (fuel - height - 8) Hr Hpos Hmany L ops Ho Hp Ht Hfit Hclk Hc) as (k & E & _). now exists k.
Qed.
(** There are never 32 such presses at different times if the timeout is below 31 ms,
    nor after fewer than 32 calls. *)
Theorem C68_not_crowded : forall conf fuel cf k0 ops, Forall (fun o => plain_op o = true) ops -> thc_timeout cf < 31 \/ (length ops < 32)%nat ->
  ~ crowded conf fuel cf k0 ops.
Proof.
  intros conf fuel cf k0 ops Ho Hc (times & Hl & Hnd & H). destruct Hc as [Hc|Hc].
  - assert (X : incl times (map (fun j => ck_now (clocks_run ops) - N.of_nat j) (seq 0 31))).
    { intros t Hin. destruct (H t Hin) as (A & a & o & z & before & i & -> & B & _). apply in_map_iff. exists (N.to_nat (ck_now (clocks_run (a ++ o :: z)) - t)).
      assert (Y : t <= ck_now (clocks_run (a ++ o :: z))).
      { rewrite <- B. unfold clocks_run. rewrite fold_left_app. apply clocks_mono. now apply Forall_app in Ho. }
      split; [unfold u16 in *; lia|]. apply in_seq. unfold u16 in *; lia. }
    apply (NoDup_incl_length Hnd) in X. rewrite map_length, seq_length in X. lia.
  - assert (X : incl times (map (fun j => ck_now (clocks_run (firstn j ops))) (seq 0 (length ops)))).
    { intros t Hin. destruct (H t Hin) as (_ & a & o & z & before & i & -> & B & _). apply in_map_iff. exists (length a).
      split; [now rewrite firstn_app, firstn_all, Nat.sub_diag, firstn_O, app_nil_r|]. apply in_seq. rewrite app_length. cbn. lia. }
    apply (NoDup_incl_length Hnd) in X. rewrite map_length, seq_length in X. lia.
Qed.

(** A keyboard with one layer above the base: a key that is A when tapped and layer 1
    when held, a layered key, a layered key that is B when tapped and left control
    when held on the base layer, a letter. *)
Definition tap_data : key_data :=
  mkData [] [] [] [] [] [LmHold 1] [mkLayeredKey kC [Some kD]; mkLayeredKey (RTapHold 1) [Some kD]] [] []
    [mkTapHold kA (RLayered (LyModifier 0)); mkTapHold kB kLCtrl].
Definition tap_refs : list ref := [RTapHold 0; RLayered (LyLayered 0); RLayered (LyLayered 1); kD].
Definition tap_config (ir : interrupt_response) (idle : option u16) : config :=
  mkConfig (cf_automation sample_config) (cf_chorded sample_config) sticky_config_default tapdance_config_default (mkTHConfig 4 ir idle) 1.
Lemma tap_refs_ok : Forall (tap_board_key 1 tap_data 2) tap_refs.
Proof.
  assert (K : forall h c, board_key 1 tap_data h (RKeyboard (KbKeyCode c))) by (intros h c; eapply bk_plain; reflexivity).
  repeat apply Forall_cons; try apply Forall_nil.
  - eapply tb_tap_hold; [reflexivity|apply K|]. eapply bk_modifier; [reflexivity|cbn; lia].
  - apply tb_key. eapply bk_layered; [reflexivity|reflexivity|apply K|]. intros r [H|[]]. injection H as <-. apply K.
  - eapply tb_layered; [reflexivity|reflexivity|eapply tb_tap_hold; [reflexivity|apply K|apply K]|]. intros r [H|[]]. injection H as <-. apply tb_key, K.
  - apply tb_key, K.
Qed.
Local Notation tconf := (cconf tap_refs tap_data bs_std false).
Definition tstart ir idle : ckeymap := km_new (ctx_from_config (tap_config ir idle)).
Lemma in_turn_dec h : (fix go (l : down) (h : list input_event) : bool :=
  match h with [] => true | x :: t => match x with Press i => negb (existsb (is_key i) l) | _ => true end && go (down_step l x) t end) [] h = true -> in_turn h.
Proof.
  intros H before i later ->. unfold down_after. revert H. generalize (@nil (u16 + key_output)) as l.
  induction before as [|x t IH]; intros l H; cbn [fold_left]; [|apply andb_true_iff in H as (_ & H); now apply IH].
  apply andb_true_iff in H as (H & _). now apply negb_true_iff.
Qed.
(** The first key held while the second is tapped: layer 1, so D.  The first key
    tapped: A.  The third held for four ticks: left control. *)
Example C68_example :
  Forall (tap_board_key 1 tap_data 2) tap_refs /\ (2 + 8 <= 10)%nat /\ registers_two [] /\ position_ok bs_std
  /\ (let ops := [P 0; OpTick; P 1; OpTick; Rl 1; OpTick; OpTick; OpTick] in
      Forall (fun o => plain_op o = true) ops /\ in_turn (let_in tconf 10 ops (tstart IrHoldOnKeyTap None))
      /\ let_in tconf 10 ops (tstart IrHoldOnKeyTap None) = [Press 0; Press 1; Release 1]
      /\ returns (run_ops tconf 10 (firstn 4 ops) (tstart IrHoldOnKeyTap None)) (fun k => km_pressed_keys tconf k = Ok [] /\ option_map fst (undecided k) = Some 0)
      /\ returns (run_ops tconf 10 (firstn 7 ops) (tstart IrHoldOnKeyTap None)) (fun k => km_pressed_keys tconf k = Ok [out 7] /\ undecided k = None)
      /\ returns (run_ops tconf 10 ops (tstart IrHoldOnKeyTap None)) (fun k => km_pressed_keys tconf k = Ok [] /\ is_on (cx_layered (km_ctx k)) 1 = true))
  /\ (let ops := [P 0; OpTick; Rl 0; P 1; OpTick; OpTick; OpTick] in
      returns (run_ops tconf 10 (firstn 3 ops) (tstart IrHoldOnKeyTap None)) (fun k => km_pressed_keys tconf k = Ok [out 4])
      /\ returns (run_ops tconf 10 ops (tstart IrHoldOnKeyTap None)) (fun k => km_pressed_keys tconf k = Ok [out 6]))
  /\ (let ops := [P 2; OpTick; OpTick; OpTick; OpTick] in
      returns (run_ops tconf 10 (firstn 4 ops) (tstart IrHoldOnKeyTap None)) (fun k => km_pressed_keys tconf k = Ok [])
      /\ returns (run_ops tconf 10 ops (tstart IrHoldOnKeyTap None)) (fun k => km_pressed_keys tconf k = Ok [ko_from_key_code 224])).
Proof.
  split; [exact tap_refs_ok|]. split; [lia|]. split; [exists CbReset, CbReset; constructor|]. split; [exact SchedulerFacts.bs_std_position_ok|].
  split; [|vm_compute; repeat split; reflexivity]. cbv zeta. split; [repeat constructor|]. split; [apply in_turn_dec; vm_compute; reflexivity|].
  vm_compute. repeat split; reflexivity.
Qed.
(** With a required idle time of 10 ms, the second press comes too soon: a tap at once. *)
Example C68_hurried_example :
  let ops := ticks 12 ++ [P 3; OpTick; Rl 3; OpTick; OpTick; P 2; OpTick] in
  in_turn (let_in tconf 10 ops (tstart IrIgnore (Some 10)))
  /\ returns (run_ops tconf 10 ops (tstart IrIgnore (Some 10))) (fun k => km_pressed_keys tconf k = Ok [out 5] /\ undecided k = None)
  /\ returns (run_ops tconf 10 (ticks 12 ++ [P 2; OpTick]) (tstart IrIgnore (Some 10))) (fun k => km_pressed_keys tconf k = Ok [] /\ option_map fst (undecided k) = Some 2).
Proof. cbv zeta. split; [apply in_turn_dec; vm_compute; reflexivity|]. vm_compute. repeat split; reflexivity. Qed.

Lemma steady_pace ops : Forall (fun o => match o with OpSetMs _ => false | _ => true end <> false) ops -> one_pace ops.
Proof. intros H a ms z ->. apply Forall_app in H as (_ & H). inversion H. contradiction. Qed.
(** Three keys pressed at once, the first two undecided in turn; 500 ticks later. *)
Example C68_settles_example :
  let ops := [P 0; P 2; P 3] in let k0 := tstart IrIgnore None in
  Forall (fun o => plain_op o = true) ops /\ one_pace ops /\ in_turn (let_in tconf 10 ops k0) /\ 96 * (thc_timeout (cf_tap_hold (tap_config IrIgnore None)) + 1) <= N.of_nat 500
  /\ returns (run_ops tconf 10 ops k0) (fun k => km_has_scheduled_events k = true /\ undecided k <> None /\ km_inq k = [Press 2; Press 3])
  /\ returns (run_ops tconf 10 (ops ++ repeat OpTick 500) k0) (fun k => km_has_scheduled_events k = false /\ km_pressed_keys tconf k = Ok [out 7; out 7]).
Proof.
  cbv zeta. split; [repeat constructor|]. split; [apply steady_pace; repeat (constructor; [discriminate|]); constructor|].
  split; [apply in_turn_dec; vm_compute; reflexivity|]. split; [cbn; lia|]. split; vm_compute; repeat split; try reflexivity; discriminate.
Qed.

(** The condition on the inputs behind an undecided key, call by call. *)
Fixpoint never_behind (ops : list op) (conf : kconf ref cctx cev cpks cks) (fuel : nat) (k : ckeymap) : bool :=
  match ops with
  | [] => true
  | o :: t => match undecided k with Some _ => (behind k + length (let_in conf fuel [o] k) <=? 16)%nat | None => true end
              && match run_op conf fuel k o with Ok k' => never_behind t conf fuel k' | _ => true end
  end.
Lemma never_behind_spec conf fuel ops : forall k0, never_behind ops conf fuel k0 = true ->
  forall a o z k, ops = a ++ o :: z -> run_ops conf fuel a k0 = Ok k -> undecided k <> None -> (behind k + length (let_in conf fuel [o] k) <= 16)%nat.
Proof.
  induction ops as [|p ops IH]; intros k0 H a o z k E Hr Hu; [destruct a; discriminate|]. cbn [never_behind] in H. apply andb_true_iff in H as (H1 & H2).
  destruct a as [|p' a]; cbn in E; injection E as -> ->.
  - unfold run_ops in Hr. cbn in Hr. injection Hr as <-. destruct (undecided k0); [now apply Nat.leb_le|contradiction].
  - unfold run_ops in Hr. cbn [fold_res] in Hr. inv_bind Hr. rewrite E in H2. eapply IH; [exact H2|reflexivity|exact Hr|exact Hu].
Qed.
Definition fits_check (nkeys most : nat) (h : list input_event) : bool :=
  forallb (fun x => match x with Press i => (N.to_nat i <? nkeys)%nat | _ => true end) h
  && forallb (fun n => let l := down_after (firstn n h) in (length l <=? 16)%nat && ((most =? 0)%nat || (length (keys_down l) <=? most)%nat)) (seq 0 (S (length h))).
Lemma fits_check_spec nkeys most h : fits_check nkeys most h = true -> fits nkeys most h.
Proof.
  intros H. apply andb_true_iff in H as (H1 & H2). rewrite forallb_forall in H1, H2. split.
  - intros i Hi. apply Nat.ltb_lt. exact (H1 _ Hi).
  - intros n. cbv zeta. replace (firstn n h) with (firstn (Nat.min n (length h)) h).
    + specialize (H2 (Nat.min n (length h))). cbv zeta in H2. rewrite andb_true_iff, orb_true_iff, Nat.leb_le, Nat.eqb_eq, Nat.leb_le in H2. apply H2. apply in_seq. lia.
    + destruct (Nat.le_ge_cases n (length h)); [now rewrite Nat.min_l|]. rewrite Nat.min_r by lia. rewrite firstn_all. symmetry. now apply firstn_all2.
Qed.
Definition taps (n : nat) : list op := concat (repeat [P 0; OpTick; OpTick; Rl 0; OpTick; OpTick] n).
Lemma taps_plain n : Forall (fun o => plain_op o = true) (taps n).
Proof. induction n; [constructor|]. unfold taps in *. cbn. repeat constructor. exact IHn. Qed.
Lemma taps_pace n : one_pace (taps n).
Proof.
  intros a ms z E. exfalso. assert (X : Forall (fun o => o <> OpSetMs ms) (taps n)) by (clear; induction n; [constructor|]; unfold taps in *; cbn; repeat (constructor; [discriminate|]); exact IHn).
  rewrite E in X. apply Forall_app in X as (_ & X). inversion X. congruence.
Qed.
(** Forty taps of the first key, with its timeout of 4 ms. *)
Example C68_keeps_running_example :
  let k0 := tstart IrIgnore None in let ops := taps 40 in
  Forall (fun o => plain_op o = true) ops /\ one_pace ops /\ in_turn (let_in tconf 10 ops k0) /\ fits 4 (chc_max_pressed (cf_chorded sample_config)) (let_in tconf 10 ops k0)
  /\ ck_now (clocks_run ops) + 4 <= u32_max
  /\ (forall a o z k, ops = a ++ o :: z -> run_ops tconf 10 a k0 = Ok k ->
      ~ crowded tconf 10 (cf_tap_hold (tap_config IrIgnore None)) k0 a /\ (undecided k <> None -> (behind k + length (let_in tconf 10 [o] k) <= 16)%nat))
  /\ returns (run_ops tconf 10 ops k0) (fun k => km_pressed_keys tconf k = Ok [] /\ undecided k = None).
Proof.
  cbv zeta. split; [apply taps_plain|]. split; [apply taps_pace|]. split; [apply in_turn_dec; vm_compute; reflexivity|].
  split; [apply fits_check_spec; vm_compute; reflexivity|]. split; [vm_compute; discriminate|]. split; [|vm_compute; repeat split; reflexivity].
  intros a o z k E Hr. split.
  - apply C68_not_crowded; [|left; reflexivity]. pose proof (taps_plain 40) as X. rewrite E in X. now apply Forall_app in X.
  - eapply never_behind_spec; [|exact E|exact Hr]. vm_compute. reflexivity.
Qed.
(** C68: with the documented timeout of 200 ms the keymap panics at the 33rd of such
    taps, although none of its keys is held and no input waits: cancelled timers stay
    in the scheduler until they are due. *)
Definition slow_config : config :=
  mkConfig (cf_automation sample_config) (cf_chorded sample_config) sticky_config_default tapdance_config_default (mkTHConfig 200 IrIgnore None) 1.
Lemma quick_taps :
  let k0 := km_new (ctx_from_config slow_config) in
  in_turn (let_in tconf 10 (taps 33) k0) /\ fits 4 (chc_max_pressed (cf_chorded sample_config)) (let_in tconf 10 (taps 33) k0) /\ ck_now (clocks_run (taps 33)) + 200 <= u32_max
  /\ (forall a o z k, taps 33 = a ++ o :: z -> run_ops tconf 10 a k0 = Ok k -> undecided k <> None -> (behind k + length (let_in tconf 10 [o] k) <= 16)%nat)
  /\ returns (run_ops tconf 10 (taps 32) k0) (fun k => km_pressed_keys tconf k = Ok [] /\ undecided k = None /\ km_inq k = [])
  /\ run_ops tconf 10 (taps 33) k0 = Panic.
Proof.
  cbv zeta. split; [apply in_turn_dec; vm_compute; reflexivity|]. split; [apply fits_check_spec; vm_compute; reflexivity|]. split; [vm_compute; discriminate|].
  split; [apply never_behind_spec; vm_compute; reflexivity|]. split; [vm_compute; repeat split; reflexivity|vm_compute; reflexivity].
Qed.
Theorem C68_quick_taps_refuted :
  ~ (forall refs d pos dbg height fuel ops cf, position_ok pos ->
     Forall (tap_board_key (cf_layer_count cf) d height) refs -> N.of_nat (length refs) <= 65535 -> (height + 8 <= fuel)%nat ->
     Forall (fun o => plain_op o = true) ops -> one_pace ops ->
     let k0 := km_new (ctx_from_config cf) in
     in_turn (let_in (cconf refs d pos dbg) fuel ops k0) ->
     fits (length refs) (chc_max_pressed (cf_chorded cf)) (let_in (cconf refs d pos dbg) fuel ops k0) ->
     ck_now (clocks_run ops) + thc_timeout (cf_tap_hold cf) <= u32_max ->
     (forall a o z k, ops = a ++ o :: z -> run_ops (cconf refs d pos dbg) fuel a k0 = Ok k -> undecided k <> None ->
        (behind k + length (let_in (cconf refs d pos dbg) fuel [o] k) <= 16)%nat) ->
     exists k, run_ops (cconf refs d pos dbg) fuel ops k0 = Ok k).
Proof.
  intros H. destruct quick_taps as (A & B & C & D & _ & E).
  destruct (H tap_refs tap_data bs_std false 2%nat 10%nat (taps 33) slow_config SchedulerFacts.bs_std_position_ok tap_refs_ok) as (k & X); [vm_compute; discriminate|lia|apply taps_plain|apply taps_pace|exact A|exact B|exact C|exact D|].
  rewrite E in X. discriminate X.
Qed.

Print Assumptions C68_unique.
Print Assumptions C68_tapped.
Print Assumptions C68_interrupted.
Print Assumptions C68_timed_out.
Print Assumptions C68_pressed.
Print Assumptions C68_settled.
Print Assumptions C68_settles.
Print Assumptions C68_nothing_dropped.
Print Assumptions C68_keeps_running.
Print Assumptions C68_not_crowded.
Print Assumptions C68_quick_taps_refuted.
