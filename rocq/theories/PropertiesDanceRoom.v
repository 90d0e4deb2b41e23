(** C76: keyboards with layers and tap-dance keys keep running. *)
From Verif Require Import BaseFacts Output Types Scheduler Reporter Keymap SimpleKeys TapHold TapDance Sticky CapsWord Layered Automation Chorded Composite Samples SpecScheduler SpecKeymap
  KeymapHist KeymapInv KeymapQueue KeymapApi CtxFacts SpecPlain PlainFacts SpecLayer SpecTap TapFacts SpecDecide PropertiesDecide SpecBoard BoardFacts SpecTapBoard TapBoardFacts TapBoardTotal TapBoardLive
  SpecDanceBoard DanceBoardFacts DanceBoardLive SpecDanceRoom DanceBoardTotal PropertiesTapBoard PropertiesDanceBoard.
Local Open Scope N_scope.

(** C76: as long as the keyboard of SpecDanceBoard.v has room for the next call, presses
    are not taken at 32 different times within the timeout, and the clock does not
    overflow, the keymap keeps running, and shows that keyboard. *)
Theorem C76_keeps_running :
  forall refs d pos dbg height fuel setup ops cf k0, position_ok pos ->
  Forall (dance_board_key (cf_layer_count cf) d height) refs -> N.of_nat (length refs) <= 65535 -> (height + 8 <= fuel)%nat ->
  registers_two setup -> Forall (fun o => plain_op o = true) ops -> one_pace ops ->
  let timeout := tdc_timeout (cf_tap_dance cf) in
  let keyboard := prompt_run (cf_layer_count cf) refs d timeout in
  0 < timeout -> now_after ops + timeout <= u32_max ->
  run_ops (cconf refs d pos dbg) fuel setup (km_new (ctx_from_config cf)) = Ok k0 ->
  (forall a o z s, ops = a ++ o :: z -> keyboard a s ->
     ~ hectic (cf_layer_count cf) refs d timeout a /\ room (length refs) (chc_max_pressed (cf_chorded cf)) s o) ->
  exists k s, run_ops (cconf refs d pos dbg) fuel ops k0 = Ok k /\ keyboard ops s /\ shows (cconf refs d pos dbg) setup s k.
Proof.
  intros refs d pos dbg height fuel setup ops cf k0 Hpos Hr Hmany Hf Hset Ho Hp timeout keyboard HT Hclk H0 Hc.
  destruct (setup_total (cconf refs d pos dbg) fuel setup Hset (ctx_from_config cf)) as (L & EL). rewrite H0 in EL. injection EL as ->.
  pose proof (registered_same _ _ _ _ _ _ _ _ H0) as Hreg.
  replace fuel with (S (S (S (S (S (S (S (S (height + (fuel - height - 8)))))))))) in * by lia.
  destruct (run_all refs d pos dbg cf height (fuel - height - 8) Hr Hpos Hmany L HT ops Ho Hp Hclk Hc) as (k & s & E & Hrun & Hcore & _).
  exists k, s. split; [exact E|]. split; [exact Hrun|]. eapply core_shows; eassumption.
Qed.

(** Presses are never taken at 32 different times if the timeout is below 31 ms, nor
    before 31 ms have passed, nor by fewer than 32 calls. *)
Theorem C76_not_hectic : forall n refs d timeout ops, Forall (fun o => plain_op o = true) ops -> timeout < 31 \/ now_after ops < 31 \/ (length ops < 32)%nat ->
  ~ hectic n refs d timeout ops.
Proof.
  intros n refs d timeout ops Ho Hc (times & Hl & Hnd & H). destruct Hc as [Hc|[Hc|Hc]].
  - assert (X : incl times (map (fun j => now_after ops - N.of_nat j) (seq 0 31))).
    { intros t Hin. destruct (H t Hin) as (A & a & o & z & s & i & -> & B & _). apply in_map_iff. exists (N.to_nat (now_after (a ++ o :: z) - t)).
      assert (Y : t <= now_after (a ++ o :: z)).
      { rewrite <- B. unfold now_after, clocks_run. rewrite fold_left_app. apply clocks_mono. now apply Forall_app in Ho. }
      split; [lia|]. apply in_seq. lia. }
    apply (NoDup_incl_length Hnd) in X. rewrite map_length, seq_length in X. lia.
  - assert (X : incl times (map (fun j => now_after ops - N.of_nat j) (seq 0 31))).
    { intros t Hin. destruct (H t Hin) as (A & a & o & z & s & i & -> & B & _). apply in_map_iff. exists (N.to_nat (now_after (a ++ o :: z) - t)).
      assert (Y : t <= now_after (a ++ o :: z)).
      { rewrite <- B. unfold now_after, clocks_run. rewrite fold_left_app. apply clocks_mono. now apply Forall_app in Ho. }
      split; [lia|]. apply in_seq. lia. }
    apply (NoDup_incl_length Hnd) in X. rewrite map_length, seq_length in X. lia.
  - assert (X : incl times (map (fun j => now_after (firstn j ops)) (seq 0 (length ops)))).
    { intros t Hin. destruct (H t Hin) as (_ & a & o & z & s & i & -> & B & _). apply in_map_iff. exists (length a).
      split; [now rewrite firstn_app, firstn_all, Nat.sub_diag, firstn_O, app_nil_r|]. apply in_seq. rewrite app_length. cbn. lia. }
    apply (NoDup_incl_length Hnd) in X. rewrite map_length, seq_length in X. lia.
Qed.

(** ** Cases *)
(** The room, looked up in the keymap. *)
Definition in_range (nkeys : nat) (x : input_event) : bool := match x with Press i => (N.to_nat i <? nkeys)%nat | _ => true end.
Definition has_room (nkeys most : nat) (k : ckeymap) (o : op) : bool :=
  match km_pending k with
  | None => (length (km_pressed k) <? 16)%nat && (length (km_pressed k) <? most)%nat
      && forallb (in_range nkeys) (km_inq k ++ match o with OpInput x => [x] | _ => [] end)
  | Some p => (length (pd_queued p) + length (km_inq k) + 1 <=? 16)%nat
  end.
Fixpoint always (q : ckeymap -> op -> bool) (conf : kconf ref cctx cev cpks cks) (fuel : nat) (k : ckeymap) (ops : list op) : bool :=
  match ops with
  | [] => true
  | o :: t => q k o && match run_op conf fuel k o with Ok k' => always q conf fuel k' t | _ => match t with [] => true | _ => false end end
  end.
Lemma keys_down_length (l : down) : (length (keys_down l) <= length l)%nat.
Proof. induction l as [|[j|ko] l IH]; [cbn; lia| |]; rewrite ?keys_key, ?keys_virt; cbn [length]; lia. Qed.
Lemma remove_length {A} (q : A -> bool) l : (length (remove_first q l) <= length l)%nat.
Proof. induction l as [|x l IH]; [cbn; lia|]. cbn [remove_first]. destruct (q x); cbn [length]; lia. Qed.
Lemma down_step_length l x : (length (down_step l x) <= length l + 1)%nat.
Proof.
  unfold down_step. destruct x as [i|i|ko|ko].
  - destruct (existsb _ l); [lia|]. rewrite app_length. cbn. lia.
  - pose proof (remove_length (is_key i) l). lia.
  - rewrite app_length. cbn. lia.
  - pose proof (remove_length (is_virtual ko) l). lia.
Qed.
Lemma has_room_spec d n height L nkeys most s s' k o : dcore d n height L s' k -> same_dancing s s' -> has_room nkeys most k o = true -> room nkeys most s o.
Proof.
  intros (_ & _ & _ & Hq & _ & X) ((A & _) & D & W & U & _) H. unfold has_room in H. unfold room. rewrite D. destruct (da_dance s') as [dn|] eqn:Ed.
  - destruct X as (q & pad & (Hp & _) & _). rewrite Hp in H. unfold dwaits in H. cbn [pd_queued] in H. rewrite map_length in H. apply Nat.leb_le in H. rewrite W, <- Hq. destruct o; lia.
  - destruct X as ((_ & _ & Hh & _ & _ & Hp) & _). rewrite Hp in H. apply andb_true_iff in H as (H & H3). apply andb_true_iff in H as (H1 & H2).
    apply Nat.ltb_lt in H1, H2. rewrite forallb_forall in H3.
    assert (Hlen : length (keys_held s) = length (km_pressed k)).
    { rewrite held_shape, D, app_nil_r. unfold shape. rewrite map_length, A. clear -Hh. induction Hh; cbn; congruence. }
    intros x Hx. assert (Hin : In x (km_inq k ++ match o with OpInput x => [x] | _ => [] end)).
    { unfold next_input in Hx. rewrite Hq, <- W. destruct (da_busy s); [discriminate|]. destruct o; try discriminate Hx.
      - destruct (_ <? _)%nat; [|discriminate]. destruct (da_waiting s ++ [ev]) as [|y w]; [discriminate|]. injection Hx as <-. now left.
      - destruct (da_waiting s) as [|y w]; [discriminate|]. injection Hx as <-. now left. }
    split; [intros i ->; apply Nat.ltb_lt; exact (H3 _ Hin)|]. cbv zeta. pose proof (down_step_length (keys_held s) x) as Y. pose proof (keys_down_length (down_step (keys_held s) x)). split; [lia|right; lia].
Qed.
Lemma always_spec q refs d pos dbg height fuel cf ops : position_ok pos -> Forall (dance_board_key (cf_layer_count cf) d height) refs -> (height + 8 <= fuel)%nat ->
  Forall (fun o => plain_op o = true) ops -> one_pace ops -> 0 < tdc_timeout (cf_tap_dance cf) ->
  always q (cconf refs d pos dbg) fuel (km_new (ctx_from_config cf)) ops = true ->
  forall a o z s, ops = a ++ o :: z -> prompt_run (cf_layer_count cf) refs d (tdc_timeout (cf_tap_dance cf)) a s ->
  exists k s' L, dcore d (cf_layer_count cf) height L s' k /\ same_dancing s s' /\ q k o = true.
Proof.
  intros Hpos Hr Hf Ho Hp HT H a o z s E Hrun.
  replace fuel with (S (S (S (S (S (S (S (S (height + (fuel - height - 8)))))))))) in * by lia. set (f := (fuel - height - 8)%nat) in *.
  assert (X : exists k, run_ops (cconf refs d pos dbg) (S (S (S (S (S (S (S (S (height + f))))))))) a (km_new (ctx_from_config cf)) = Ok k /\ q k o = true).
  { rewrite E in H. clear -H. revert H. generalize (km_new (Ev := cev) (PKS := cpks) (KS := cks) (R := ref) (ctx_from_config cf)) as k. induction a as [|p a IH]; intros k H; cbn [app always] in H; apply andb_true_iff in H as (H1 & H2).
    - exists k. split; [reflexivity|exact H1].
    - unfold run_ops in *. cbn [fold_res]. destruct (run_op _ _ k p) as [k'| |]; [|destruct a; discriminate H2..]. cbn [bind]. now apply IH. }
  destruct X as (k & Ek & Hk). subst ops. apply Forall_app in Ho as (Ho & _). apply pace_app in Hp.
  destruct (run_prompt refs d pos dbg cf height f Hr Hpos [] a k Ho Hp HT Ek) as (s' & Hrun' & Hc').
  exists k, s', []. split; [exact Hc'|]. split; [|exact Hk]. eapply C76_one_outcome; eassumption.
Qed.
Lemma always_room refs d pos dbg height fuel cf ops : position_ok pos -> Forall (dance_board_key (cf_layer_count cf) d height) refs -> (height + 8 <= fuel)%nat ->
  Forall (fun o => plain_op o = true) ops -> one_pace ops -> 0 < tdc_timeout (cf_tap_dance cf) ->
  always (has_room (length refs) (chc_max_pressed (cf_chorded cf))) (cconf refs d pos dbg) fuel (km_new (ctx_from_config cf)) ops = true ->
  forall a o z s, ops = a ++ o :: z -> prompt_run (cf_layer_count cf) refs d (tdc_timeout (cf_tap_dance cf)) a s -> room (length refs) (chc_max_pressed (cf_chorded cf)) s o.
Proof.
  intros. edestruct always_spec as (k & s' & L & Hc & Hs & Hk); try eassumption. eapply has_room_spec; eassumption.
Qed.
(** Forty taps of the first key, with its timeout of 4 ms. *)
Example C76_keeps_running_example :
  let ops := PropertiesTapBoard.taps 40 in let keyboard := prompt_run (cf_layer_count dance_config) dance_refs dance_data 4 in
  N.of_nat (length dance_refs) <= 65535 /\ Forall (fun o => plain_op o = true) ops /\ one_pace ops /\ now_after ops + 4 <= u32_max
  /\ (forall a o z s, ops = a ++ o :: z -> keyboard a s ->
       ~ hectic (cf_layer_count dance_config) dance_refs dance_data 4 a /\ room (length dance_refs) (chc_max_pressed (cf_chorded dance_config)) s o)
  /\ returns (run_ops (cconf dance_refs dance_data bs_std false) 10 ops dstart) (fun k => SpecDecide.undecided k = Some (0, PksTapDance (mkTDPks 0))).
Proof.
  cbv zeta. split; [vm_compute; discriminate|]. split; [apply taps_plain|]. split; [apply taps_pace|]. split; [vm_compute; discriminate|]. split; [|vm_compute; reflexivity].
  intros a o z s E Hr. split.
  - apply C76_not_hectic; [|now left]. pose proof (taps_plain 40) as X. rewrite E in X. now apply Forall_app in X.
  - revert E Hr. apply (always_room dance_refs dance_data bs_std false 2 10 dance_config); [exact SchedulerFacts.bs_std_position_ok|exact dance_refs_ok|lia|apply taps_plain|apply taps_pace|reflexivity|]. vm_compute. reflexivity.
Qed.

(** Neither condition can be left out.  With a timeout of 200 ms, the 33rd press of a
    key tapped every 4 ms finds the list of timers full; and the 17th input while a
    tap-dance key is undecided finds the list of events behind it full. *)
Definition slow_dance_config : config :=
  mkConfig (cf_automation sample_config) (cf_chorded sample_config) sticky_config_default (mkTDConfig 200) (cf_tap_hold sample_config) 1.
Definition quick_dance : list op := PropertiesTapBoard.taps 32 ++ [P 0].
Definition keys_behind : list op := P 0 :: concat (repeat [OpTick; P 3; OpTick; Rl 3] 8) ++ [OpTick; P 3].
Theorem C76_quick_taps_refuted :
  ~ (forall refs d pos dbg height fuel ops cf, position_ok pos ->
     Forall (dance_board_key (cf_layer_count cf) d height) refs -> N.of_nat (length refs) <= 65535 -> (height + 8 <= fuel)%nat ->
     Forall (fun o => plain_op o = true) ops -> one_pace ops -> 0 < tdc_timeout (cf_tap_dance cf) -> now_after ops + tdc_timeout (cf_tap_dance cf) <= u32_max ->
     (forall a o z s, ops = a ++ o :: z -> prompt_run (cf_layer_count cf) refs d (tdc_timeout (cf_tap_dance cf)) a s -> room (length refs) (chc_max_pressed (cf_chorded cf)) s o) ->
     exists k, run_ops (cconf refs d pos dbg) fuel ops (km_new (ctx_from_config cf)) = Ok k).
Proof.
  intros H. assert (Hpl : Forall (fun o => plain_op o = true) quick_dance) by (apply Forall_app; split; [apply taps_plain|repeat constructor]).
  assert (Hpace : one_pace quick_dance) by (apply steady_pace; apply Forall_forall; intros o Ho; revert o Ho; apply Forall_forall; vm_compute; repeat (constructor; [discriminate|]); constructor).
  destruct (H dance_refs dance_data bs_std false 2%nat 10%nat quick_dance slow_dance_config SchedulerFacts.bs_std_position_ok dance_refs_ok) as (k & X);
    [vm_compute; discriminate|lia|exact Hpl|exact Hpace|reflexivity|vm_compute; discriminate| |].
  - apply (always_room dance_refs dance_data bs_std false 2 10 slow_dance_config); [exact SchedulerFacts.bs_std_position_ok|exact dance_refs_ok|lia|exact Hpl|exact Hpace|reflexivity|]. vm_compute. reflexivity.
  - vm_compute in X. discriminate X.
Qed.

Theorem C76_many_inputs_refuted :
  ~ (forall refs d pos dbg height fuel ops cf, position_ok pos ->
     Forall (dance_board_key (cf_layer_count cf) d height) refs -> N.of_nat (length refs) <= 65535 -> (height + 8 <= fuel)%nat ->
     Forall (fun o => plain_op o = true) ops -> one_pace ops -> 0 < tdc_timeout (cf_tap_dance cf) -> now_after ops + tdc_timeout (cf_tap_dance cf) <= u32_max ->
     (forall a o z, ops = a ++ o :: z -> ~ hectic (cf_layer_count cf) refs d (tdc_timeout (cf_tap_dance cf)) a) ->
     (forall a o z s, ops = a ++ o :: z -> prompt_run (cf_layer_count cf) refs d (tdc_timeout (cf_tap_dance cf)) a s ->
        da_dance s = None -> room (length refs) (chc_max_pressed (cf_chorded cf)) s o) ->
     exists k, run_ops (cconf refs d pos dbg) fuel ops (km_new (ctx_from_config cf)) = Ok k).
Proof.
  intros H. assert (Hpl : Forall (fun o => plain_op o = true) keys_behind) by (repeat constructor).
  assert (Hpace : one_pace keys_behind) by (apply steady_pace; repeat (constructor; [discriminate|]); constructor).
  destruct (H dance_refs dance_data bs_std false 2%nat 10%nat keys_behind slow_dance_config SchedulerFacts.bs_std_position_ok dance_refs_ok) as (k & X);
    [vm_compute; discriminate|lia|exact Hpl|exact Hpace|reflexivity|vm_compute; discriminate| | |].
  - intros a o z E. apply C76_not_hectic; [rewrite E in Hpl; now apply Forall_app in Hpl|]. right. left.
    apply N.le_lt_trans with (now_after keys_behind); [|vm_compute; reflexivity].
    rewrite E. unfold now_after, clocks_run. rewrite fold_left_app. apply clocks_mono. rewrite E in Hpl. now apply Forall_app in Hpl.
  - intros a o z s E Hr Hd. 
    edestruct (always_spec (fun k o => match km_pending k with None => has_room 4 (chc_max_pressed (cf_chorded slow_dance_config)) k o | _ => true end)
      dance_refs dance_data bs_std false 2%nat 10%nat slow_dance_config keys_behind) as (k & s' & L & Hc & Hs & Hk);
      [exact SchedulerFacts.bs_std_position_ok|exact dance_refs_ok|lia|exact Hpl|exact Hpace|reflexivity|vm_compute; reflexivity|exact E|exact Hr|].
    eapply has_room_spec; [exact Hc|exact Hs|]. destruct Hs as (_ & Hd' & _). rewrite Hd in Hd'. destruct Hc as (_ & _ & _ & _ & _ & Hc). rewrite <- Hd' in Hc.
    destruct Hc as ((_ & _ & _ & _ & _ & Hp) & _). rewrite Hp in Hk. exact Hk.
  - vm_compute in X. discriminate X.
Qed.

Print Assumptions C76_keeps_running.
Print Assumptions C76_not_hectic.
Print Assumptions C76_quick_taps_refuted.
Print Assumptions C76_many_inputs_refuted.
