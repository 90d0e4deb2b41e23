(** C62: a keyboard with layers is exactly what its layers say. *)
From Verif Require Import BaseFacts Output Types Scheduler Keymap SimpleKeys Sticky Layered Chorded Composite Samples SpecKeymap KeymapQueue KeymapApi
  SpecPlain PlainFacts SpecLayer SpecBoard BoardFacts.
Local Open Scope N_scope.

(** C62: the keyboard one has in mind is determined by its inputs, and exists for
    every sequence of inputs that names keys of the keymap. *)
Theorem C62_unique : forall n refs d h b1 b2,
  board_run n refs d h b1 -> board_run n refs d h b2 -> same_board b1 b2.
Proof. intros n refs d h b1 b2 H1 H2. exact (board_fun _ _ _ _ _ H1 _ H2). Qed.
Theorem C62_exists : forall n refs d height h, Forall (board_key n d height) refs ->
  (forall i, In (Press i) h -> (N.to_nat i < length refs)%nat) -> exists b, board_run n refs d h b.
Proof. exact board_total. Qed.

(** C62: at any time the outputs are those of the keyboard after the inputs taken
    from the queue so far, and the layers are its layers; the other inputs are
    still waiting.  Callbacks may have been registered before. *)
Theorem C62_pressed :
  forall refs d pos dbg height fuel setup ops cf k, Forall (board_key (cf_layer_count cf) d height) refs ->
  registers_two setup -> Forall (fun o => plain_op o = true) ops ->
  run_ops (cconf refs d pos dbg) fuel (setup ++ ops) (km_new (ctx_from_config cf)) = Ok k ->
  exists taken b, accepted ops = taken ++ km_inq k
  /\ board_run (cf_layer_count cf) refs d taken b
  /\ km_pressed_keys (cconf refs d pos dbg) k = Ok (board_output b)
  /\ (forall l, is_on (cx_layered (km_ctx k)) l = bd_on b l) /\ lyx_default (cx_layered (km_ctx k)) = bd_default b.
Proof.
  intros refs d pos dbg height fuel setup ops cf k Hr Hset Ho H.
  destruct (setup_total (cconf refs d pos dbg) fuel setup Hset (ctx_from_config cf)) as (L & EL).
  unfold run_ops in H, EL. rewrite fold_res_app, EL in H. cbn [bind] in H.
  pose proof (run_board refs d pos dbg _ height Hr L fuel ops cf k eq_refl Ho H) as ((b & Hrun & Hb) & _ & Hq & _).
  exists (q_done (queue_run ops)), b. rewrite (accepted_done ops Ho), Hq. split; [reflexivity|]. split; [exact Hrun|].
  pose proof Hb as (_ & (_ & Hon & Hdf & _) & Hh & _). split; [eapply outputs_held; exact Hh|]. split; assumption.
Qed.
(** C62: the functions called are those registered for the callbacks that the
    keyboard asks for, one for each press of a callback key, in order. *)
Theorem C62_callbacks :
  forall refs d pos dbg height fuel setup ops cf k, Forall (board_key (cf_layer_count cf) d height) refs ->
  registers_two setup -> Forall (fun o => plain_op o = true) ops ->
  run_ops (cconf refs d pos dbg) fuel (setup ++ ops) (km_new (ctx_from_config cf)) = Ok k ->
  exists taken cs, accepted ops = taken ++ km_inq k
  /\ board_calls (cf_layer_count cf) refs d taken cs
  /\ km_calls k = filter_map (registered setup) cs.
Proof.
  intros refs d pos dbg height fuel setup ops cf k Hr Hset Ho H.
  destruct (setup_total (cconf refs d pos dbg) fuel setup Hset (ctx_from_config cf)) as (L & EL).
  pose proof (callbacks_registered _ _ _ _ _ EL) as Hreg.
  unfold run_ops in H, EL. rewrite fold_res_app, EL in H. cbn [bind] in H.
  pose proof (run_board refs d pos dbg _ height Hr L fuel ops cf k eq_refl Ho H) as (_ & _ & Hq & _ & _ & cs & Hcs & E).
  exists (q_done (queue_run ops)), cs. rewrite (accepted_done ops Ho), Hq. split; [reflexivity|]. split; [exact Hcs|].
  rewrite E. clear -Hreg. induction cs as [|c cs IH]; cbn; [reflexivity|]. unfold registered at 1. rewrite <- (Hreg c : _ = registered_in setup c None).
  cbn [set_callbacks km_callbacks]. destruct (lm_get L c); now rewrite IH.
Qed.

(** C62: after 32 ticks without input, they are those after all inputs accepted. *)
Theorem C62_settled :
  forall refs d pos dbg height fuel setup ops cf k m, Forall (board_key (cf_layer_count cf) d height) refs ->
  registers_two setup -> Forall (fun o => plain_op o = true) ops -> (32 <= m)%nat ->
  run_ops (cconf refs d pos dbg) fuel (setup ++ ops ++ repeat OpTick m) (km_new (ctx_from_config cf)) = Ok k ->
  exists b cs, board_run (cf_layer_count cf) refs d (accepted ops) b
  /\ km_pressed_keys (cconf refs d pos dbg) k = Ok (board_output b)
  /\ (forall l, is_on (cx_layered (km_ctx k)) l = bd_on b l) /\ lyx_default (cx_layered (km_ctx k)) = bd_default b
  /\ board_calls (cf_layer_count cf) refs d (accepted ops) cs
  /\ km_calls k = filter_map (registered setup) cs.
Proof.
  intros refs d pos dbg height fuel setup ops cf k m Hr Hset Ho Hm H.
  assert (Hticks : Forall (fun o => plain_op o = true) (repeat OpTick m)) by (apply Forall_forall; intros o Hi; apply repeat_spec in Hi; now subst).
  assert (Ho' : Forall (fun o => plain_op o = true) (ops ++ repeat OpTick m)) by (apply Forall_app; split; assumption).
  destruct (C62_pressed _ _ _ _ _ _ _ _ _ _ Hr Hset Ho' H) as (taken & b & Ea & Hb).
  destruct (C62_callbacks _ _ _ _ _ _ _ _ _ _ Hr Hset Ho' H) as (taken' & cs & Ea' & Hcs).
  destruct (setup_total (cconf refs d pos dbg) fuel setup Hset (ctx_from_config cf)) as (L & EL).
  unfold run_ops in H, EL. rewrite fold_res_app, EL in H. cbn [bind] in H.
  pose proof (run_board refs d pos dbg _ height Hr L fuel _ cf k eq_refl Ho' H) as (_ & _ & Hq & _).
  assert (Hl : (length (q_waiting (queue_run ops)) <= 31)%nat) by apply queue_bound.
  assert (Hw : q_waiting (queue_run (ops ++ repeat OpTick m)) = []).
  { unfold queue_run. rewrite fold_left_app. apply queue_drained. fold (queue_run ops). destruct (q_busy (queue_run ops)); lia. }
  rewrite Hq, Hw, app_nil_r, accepted_ticks in Ea, Ea'. subst taken taken'. exists b, cs. destruct Hb as (B1 & B2 & B3 & B4). destruct Hcs as (C1 & C2).
  repeat (split; [assumption|]). assumption.
Qed.

(** C62: nothing panics while the accepted inputs name keys of the keymap, at most
    16 things are down at a time and no more keys than the chord context can track,
    and the 32-bit clock has not run out. *)
Theorem C62_never_panics :
  forall refs d pos dbg height fuel setup ops cf, Forall (board_key (cf_layer_count cf) d height) refs -> N.of_nat (length refs) <= 65535 ->
  (height + 4 <= fuel)%nat -> registers_two setup -> Forall (fun o => plain_op o = true) ops ->
  fits (length refs) (chc_max_pressed (cf_chorded cf)) (accepted ops) -> ck_now (clocks_run ops) <= u32_max ->
  exists k, run_ops (cconf refs d pos dbg) fuel (setup ++ ops) (km_new (ctx_from_config cf)) = Ok k.
Proof.
  intros refs d pos dbg height fuel setup ops cf Hr Hl Hf Hset Ho Hfit Hc. rewrite (accepted_done ops Ho) in Hfit. apply fits_app in Hfit.
  destruct (setup_total (cconf refs d pos dbg) fuel setup Hset (ctx_from_config cf)) as (L & EL).
  destruct (run_board_total refs d pos dbg _ height Hr L (fuel - height - 4) cf ops eq_refl Hl Ho Hfit Hc) as (k & E & _).
  exists k. unfold run_ops in *. rewrite fold_res_app, EL. cbn [bind].
  replace fuel with (S (S (S (S (height + (fuel - height - 4)))))) by lia. exact E.
Qed.

(** C62, put together: press and release keys in any order and at any pace within
    these limits, wait 32 ticks, and the keyboard reports exactly what its layers
    say is down, and has made exactly the calls its callback keys ask for. *)
Theorem C62_reports_what_the_layers_say :
  forall refs d pos dbg height fuel setup ops cf, Forall (board_key (cf_layer_count cf) d height) refs -> N.of_nat (length refs) <= 65535 ->
  (height + 4 <= fuel)%nat -> registers_two setup -> Forall (fun o => plain_op o = true) ops ->
  fits (length refs) (chc_max_pressed (cf_chorded cf)) (accepted ops) ->
  ck_now (clocks_run ops) + 32 * ck_ms (clocks_run ops) <= u32_max ->
  exists k b cs, run_ops (cconf refs d pos dbg) fuel (setup ++ ops ++ repeat OpTick 32) (km_new (ctx_from_config cf)) = Ok k
  /\ board_run (cf_layer_count cf) refs d (accepted ops) b
  /\ km_boot_keyboard_report (cconf refs d pos dbg) k = Ok (as_hid_boot_keyboard_report (board_output b))
  /\ board_calls (cf_layer_count cf) refs d (accepted ops) cs
  /\ km_calls k = filter_map (registered setup) cs.
Proof.
  intros refs d pos dbg height fuel setup ops cf Hr Hl Hf Hset Ho Hfit Hc.
  assert (Hticks : Forall (fun o => plain_op o = true) (repeat OpTick 32)) by (apply Forall_forall; intros o Hi; apply repeat_spec in Hi; now subst).
  destruct (C62_never_panics refs d pos dbg height fuel setup (ops ++ repeat OpTick 32) cf Hr Hl Hf) as (k & E).
  - exact Hset.
  - apply Forall_app. split; assumption.
  - rewrite accepted_ticks. exact Hfit.
  - rewrite clocks_ticks. exact Hc.
  - destruct (C62_settled _ _ _ _ _ _ _ _ _ _ 32 Hr Hset Ho (le_n _) E) as (b & cs & Hb & Hp & _ & _ & Hcs & Ecs). exists k, b, cs. split; [exact E|]. split; [exact Hb|].
    split; [|split; assumption]. unfold km_boot_keyboard_report. rewrite Hp. reflexivity.
Qed.

(** A keyboard with three layers above the base: a letter, a nested layered key, a
    key held for layer 1, one toggling it, one held for layer 2, one making layer 1
    the default, a callback key. *)
Definition board_refs : list ref :=
  [kB; RLayered (LyLayered 0); RLayered (LyLayered 1); RLayered (LyModifier 0); RLayered (LyModifier 1);
   RLayered (LyModifier 4); RLayered (LyModifier 3); RCallback 0].
Lemma board_refs_ok : Forall (board_key 3 sample_data 2) board_refs.
Proof.
  assert (K : forall h c, board_key 3 sample_data h (RKeyboard (KbKeyCode c))) by (intros h c; eapply bk_plain; reflexivity).
  assert (L0 : forall h, board_key 3 sample_data (S h) (RLayered (LyLayered 0))).
  { intros h. eapply bk_layered; [reflexivity|reflexivity|apply K|]. intros r H. cbn in H. repeat (destruct H as [H|H]; [try discriminate H; injection H as <-; apply K|]). destruct H. }
  repeat apply Forall_cons; try apply Forall_nil; try apply K; try apply L0;
    try (eapply bk_modifier; [reflexivity|cbn; lia]); try (eapply bk_callback; reflexivity).
  eapply bk_layered; [reflexivity|reflexivity|apply K|]. intros r H. cbn in H.
  repeat (destruct H as [H|H]; [try discriminate H; injection H as <-; apply L0|]). destruct H.
Qed.
Local Ltac step_in H t := match type of H with board_run _ _ _ ?h ?b =>
  let T := open_constr:(board_step 3 board_refs sample_data b _ _) in
  let X := fresh in assert (X : T) by t; apply (run_input _ _ _ _ _ _ _ H) in X; clear H; rename X into H; cbn in H end.
(** Layers 1 and 2 held, the nested key pressed (layer 2 says it is what it is on
    layer 1), both layers left, the key pressed again with another: the first keeps
    the meaning it had when pressed. *)
Example C62_example :
  let ops := [P 3; OpTick; OpTick; P 5; OpTick; OpTick; P 2; OpTick; OpTick; Rl 5; Rl 3; OpTick; OpTick; P 1; P 2] in
  Forall (fun o => plain_op o = true) ops
  /\ accepted ops = [Press 3; Press 5; Press 2; Release 5; Release 3; Press 1; Press 2]
  /\ fits 8 16 (accepted ops)
  /\ board_run 3 board_refs sample_data (accepted ops)
       (mkBoard [inl (2, Sends (out 7)); inl (1, Sends (out 6))]
                (fun l => negb (l =? 1) && (negb (l =? 2) && ((l =? 2) || ((l =? 1) || false)))) None)
  /\ returns (run_ops (cconf board_refs sample_data bs_std false) 6 (ops ++ repeat OpTick 32) (km_new sample_ctx)) (fun k =>
       km_boot_keyboard_report (cconf board_refs sample_data bs_std false) k = Ok [0; 0; 7; 6; 0; 0; 0; 0]).
Proof.
  cbv zeta. split; [repeat constructor|]. split; [reflexivity|]. split; [|split].
  - split.
    + intros i Hi. cbn in Hi. repeat (destruct Hi as [Hi|Hi]; [try discriminate Hi; injection Hi as <-; cbn; lia|]). destruct Hi.
    + intros n. do 8 (destruct n as [|n]; [vm_compute; split; [lia|right; lia]|]). cbv zeta.
      rewrite firstn_all2 by (cbn; lia). vm_compute. split; [lia|right; lia].
  - pose proof (run_start 3 board_refs sample_data) as H.
    step_in H ltac:(eapply (press_key _ _ _ _ 3); [reflexivity|reflexivity|eapply means_switches; reflexivity]).
    step_in H ltac:(eapply (press_key _ _ _ _ 5); [reflexivity|reflexivity|eapply means_switches; reflexivity]).
    match type of H with board_run _ _ _ _ ?b => assert (M : means sample_data (bd_on b) (bd_default b) (RLayered (LyLayered 1)) (Sends (out 7))) end.
    { eapply means_layered with (r := RLayered (LyLayered 0)); [reflexivity| |eapply means_layered with (r := kD); [reflexivity| |apply means_sends; reflexivity]].
      - apply on_layer with (l := 2); [reflexivity|split; [lia|reflexivity]|]. intros l' r' O _. cbn in O. destruct (l' =? 2) eqn:E2; [apply N.eqb_eq in E2; lia|].
        destruct (l' =? 1) eqn:E1; [apply N.eqb_eq in E1; lia|discriminate].
      - apply on_layer with (l := 1); [reflexivity|split; [lia|reflexivity]|]. intros l' r' O (_ & D). cbn in O. destruct (l' =? 2) eqn:E2; [apply N.eqb_eq in E2; subst; discriminate D|].
        destruct (l' =? 1) eqn:E1; [apply N.eqb_eq in E1; lia|discriminate]. }
    step_in H ltac:(eapply (press_key _ _ _ _ 2); [reflexivity|reflexivity|exact M]). clear M.
    step_in H ltac:(apply (release_key _ _ _ _ 5 (Switches (LmHold 2))); cbn; tauto).
    step_in H ltac:(apply (release_key _ _ _ _ 3 (Switches (LmHold 1))); cbn; tauto).
    match type of H with board_run _ _ _ _ ?b => assert (M : means sample_data (bd_on b) (bd_default b) (RLayered (LyLayered 0)) (Sends (out 6))) end.
    { eapply means_layered with (r := kC); [reflexivity| |apply means_sends; reflexivity]. apply (on_base (mkLayeredKey kC [Some kD; None; None])); [|discriminate]. intros l' r' O _. cbn in O.
      destruct (l' =? 1); [discriminate|]. destruct (l' =? 2); discriminate. }
    step_in H ltac:(eapply (press_key _ _ _ _ 1); [reflexivity|reflexivity|exact M]). clear M.
    step_in H ltac:(apply (press_again _ _ _ _ 2); reflexivity).
    exact H.
  - vm_compute. repeat split; reflexivity.
Qed.

(** Two callbacks registered, one of them twice; the callback key pressed twice. *)
Example C62_callbacks_example :
  let cb := nth 0 (kd_callback sample_data) CbReset in
  let setup := [OpSetCallback cb 1; OpInit; OpSetCallback (CbCustom 9 9) 2; OpSetCallback cb 3] in
  let ops := [P 7; OpTick; P 0; OpTick; Rl 7; OpTick; P 7] in
  registers_two setup /\ Forall (fun o => plain_op o = true) ops
  /\ board_calls 3 board_refs sample_data (accepted ops) [cb; cb]
  /\ returns (run_ops (cconf board_refs sample_data bs_std false) 6 (setup ++ ops ++ repeat OpTick 32) (km_new sample_ctx)) (fun k => km_calls k = [3; 3]).
Proof.
  cbv zeta. split; [|split; [repeat constructor|split; [|vm_compute; reflexivity]]].
  - exists (nth 0 (kd_callback sample_data) CbReset), (CbCustom 9 9).
    repeat apply Forall_cons; try apply Forall_nil; (now left) || (right; eexists; (left; reflexivity) || (right; reflexivity)).
  - change (accepted _) with (((([] ++ [Press 7]) ++ [Press 0]) ++ [Release 7]) ++ [Press 7]).
    pose proof (run_start 3 board_refs sample_data) as H0. pose proof H0 as H.
    step_in H ltac:(eapply (press_key _ _ _ _ 7); [reflexivity|reflexivity|eapply means_calls; reflexivity]). pose proof H as H1.
    step_in H ltac:(eapply (press_key _ _ _ _ 0); [reflexivity|reflexivity|eapply means_sends; reflexivity]). pose proof H as H2.
    step_in H ltac:(eapply (release_key _ _ _ _ 7); cbn; left; reflexivity).
    change [nth 0 (kd_callback sample_data) CbReset; nth 0 (kd_callback sample_data) CbReset]
      with (((([] ++ [nth 0 (kd_callback sample_data) CbReset]) ++ []) ++ []) ++ [nth 0 (kd_callback sample_data) CbReset]).
    eapply bc_input; [exact H| |].
    + eapply bc_input; [exact H2| |now apply sc_none].
      eapply bc_input; [exact H1| |eapply sc_key; [reflexivity|reflexivity|eapply means_sends; reflexivity|discriminate]].
      eapply bc_input; [exact H0|constructor|eapply sc_call; [reflexivity|reflexivity|eapply means_calls; reflexivity]].
    + eapply sc_call; [reflexivity|reflexivity|eapply means_calls; reflexivity].
Qed.

(** C62: a default-layer key sets the default layer at its release too, so the
    default layer is not always that of the default-layer key pressed last. *)
Definition two_defaults : key_data := mkData [] [] [] [] [] [LmDefault 1; LmDefault 2] [mkLayeredKey kA [Some kB; Some kC; None]] [] [] [].
Definition two_default_refs : list ref := [RLayered (LyModifier 0); RLayered (LyModifier 1); RLayered (LyLayered 0)].
Theorem C62_default_pressed_last_refuted :
  Forall (board_key 3 two_defaults 1) two_default_refs
  /\ returns (run_ops (cconf two_default_refs two_defaults bs_std false) 6
       [P 0; OpTick; OpTick; P 1; OpTick; OpTick; Rl 0; OpTick; OpTick; Rl 1; OpTick; OpTick; P 2; OpTick] (km_new sample_ctx)) (fun k =>
       km_pressed_keys (cconf two_default_refs two_defaults bs_std false) k = Ok [out 6])
  /\ returns (run_ops (cconf two_default_refs two_defaults bs_std false) 6
       [P 0; OpTick; OpTick; P 1; OpTick; OpTick; Rl 1; OpTick; OpTick; Rl 0; OpTick; OpTick; P 2; OpTick] (km_new sample_ctx)) (fun k =>
       km_pressed_keys (cconf two_default_refs two_defaults bs_std false) k = Ok [out 5]).
Proof.
  split; [|vm_compute; repeat split; reflexivity].
  repeat apply Forall_cons; try apply Forall_nil; try (eapply bk_modifier; [reflexivity|cbn; lia]).
  eapply bk_layered; [reflexivity|reflexivity|eapply bk_plain; reflexivity|]. intros r H. cbn in H.
  repeat (destruct H as [H|H]; [try discriminate H; injection H as <-; eapply bk_plain; reflexivity|]). destruct H.
Qed.

Print Assumptions C62_unique.
Print Assumptions C62_exists.
Print Assumptions C62_pressed.
Print Assumptions C62_callbacks.
Print Assumptions C62_settled.
Print Assumptions C62_never_panics.
Print Assumptions C62_reports_what_the_layers_say.
Print Assumptions C62_default_pressed_last_refuted.
