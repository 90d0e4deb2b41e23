(** C38: a keymap of plain keys reports exactly what is down. *)
From Verif Require Import BaseFacts Output Types Scheduler Keymap SimpleKeys Chorded Composite Samples SpecKeymap KeymapQueue KeymapApi
  SpecPlain PlainFacts.
Local Open Scope N_scope.

(** A key is down when its last press has not been followed by a release, and
    counted once, in the order the keys went down. *)
Theorem C38_down : forall h i,
  In i (keys_down (down_after h)) <-> exists h1 h2, h = h1 ++ Press i :: h2 /\ ~ In (Release i) h2.
Proof. exact down_iff. Qed.
Theorem C38_down_once : forall h, NoDup (keys_down (down_after h)).
Proof. exact down_nodup. Qed.

(** C38: at any time the outputs are those of what is down after the inputs taken
    from the queue so far; the other inputs are still waiting. *)
Theorem C38_pressed :
  forall refs d pos dbg outs, Forall2 (plain_key d) refs outs ->
  forall fuel ops cf k, Forall (fun o => plain_op o = true) ops ->
  run_ops (cconf refs d pos dbg) fuel ops (km_new (ctx_from_config cf)) = Ok k ->
  exists taken, accepted ops = taken ++ km_inq k
  /\ km_pressed_keys (cconf refs d pos dbg) k = Ok (map (out_of outs) (down_after taken)).
Proof.
  intros refs d pos dbg outs Hr fuel ops cf k Ho H. pose proof (run_plain _ _ _ _ _ Hr _ _ _ _ Ho H) as Hs.
  exists (q_done (queue_run ops)). rewrite (accepted_done ops Ho). pose proof Hs as (_ & -> & _). split; [reflexivity|].
  exact (sim_outputs _ _ _ _ _ Hr _ _ Hs).
Qed.

(** C38: after 32 ticks without input, the outputs are those of what is down after
    all inputs accepted. *)
Theorem C38_settled :
  forall refs d pos dbg outs, Forall2 (plain_key d) refs outs ->
  forall fuel ops cf k n, Forall (fun o => plain_op o = true) ops -> (32 <= n)%nat ->
  run_ops (cconf refs d pos dbg) fuel (ops ++ repeat OpTick n) (km_new (ctx_from_config cf)) = Ok k ->
  km_pressed_keys (cconf refs d pos dbg) k = Ok (map (out_of outs) (down_after (accepted ops))).
Proof.
  intros refs d pos dbg outs Hr fuel ops cf k n Ho Hn H.
  assert (Hticks : Forall (fun o => plain_op o = true) (repeat OpTick n)) by (apply Forall_forall; intros o Hi; apply repeat_spec in Hi; now subst).
  assert (Ho' : Forall (fun o => plain_op o = true) (ops ++ repeat OpTick n)) by (apply Forall_app; split; assumption).
  pose proof (run_plain _ _ _ _ _ Hr _ _ _ _ Ho' H) as Hs. rewrite (sim_outputs _ _ _ _ _ Hr _ _ Hs). do 3 f_equal.
  pose proof (accepted_done _ Ho') as E. pose proof (accepted_done _ Ho) as E0.
  assert (Hl : (length (q_waiting (queue_run ops)) <= 31)%nat) by apply queue_bound.
  assert (Hw : q_waiting (queue_run (ops ++ repeat OpTick n)) = []).
  { unfold queue_run. rewrite fold_left_app. apply queue_drained. fold (queue_run ops). destruct (q_busy (queue_run ops)); lia. }
  rewrite Hw, app_nil_r in E. rewrite <- E. apply accepted_ticks.
Qed.

(** C38: nothing panics while the accepted inputs name keys of the keymap, at most
    16 things are down at a time and no more keys than the chord context can track,
    and the 32-bit clock has not run out. *)
Theorem C38_never_panics :
  forall refs d pos dbg outs, Forall2 (plain_key d) refs outs -> N.of_nat (length refs) <= 65535 ->
  forall fuel ops cf, (4 <= fuel)%nat -> Forall (fun o => plain_op o = true) ops ->
  fits (length refs) (chc_max_pressed (cf_chorded cf)) (accepted ops) -> ck_now (clocks_run ops) <= u32_max ->
  exists k, run_ops (cconf refs d pos dbg) fuel ops (km_new (ctx_from_config cf)) = Ok k.
Proof.
  intros refs d pos dbg outs Hr Hl fuel ops cf Hf Ho Hfit Hc. rewrite (accepted_done ops Ho) in Hfit. apply fits_app in Hfit.
  destruct (run_total _ d pos dbg outs Hr (fuel - 4) cf ops Hl Ho Hfit Hc) as (k & E & _).
  exists k. replace fuel with (S (S (S (S (fuel - 4))))) by lia. exact E.
Qed.

(** C38, put together: press and release keys in any order and at any pace within
    these limits, wait 32 ticks, and the keyboard reports exactly what is down. *)
Theorem C38_reports_what_is_down :
  forall refs d pos dbg outs, Forall2 (plain_key d) refs outs -> N.of_nat (length refs) <= 65535 ->
  forall fuel ops cf, (4 <= fuel)%nat -> Forall (fun o => plain_op o = true) ops ->
  fits (length refs) (chc_max_pressed (cf_chorded cf)) (accepted ops) ->
  ck_now (clocks_run ops) + 32 * ck_ms (clocks_run ops) <= u32_max ->
  exists k, run_ops (cconf refs d pos dbg) fuel (ops ++ repeat OpTick 32) (km_new (ctx_from_config cf)) = Ok k
  /\ km_boot_keyboard_report (cconf refs d pos dbg) k = Ok (as_hid_boot_keyboard_report (map (out_of outs) (down_after (accepted ops)))).
Proof.
  intros refs d pos dbg outs Hr Hl fuel ops cf Hf Ho Hfit Hc.
  assert (Hticks : Forall (fun o => plain_op o = true) (repeat OpTick 32)) by (apply Forall_forall; intros o Hi; apply repeat_spec in Hi; now subst).
  destruct (C38_never_panics refs d pos dbg outs Hr Hl fuel (ops ++ repeat OpTick 32) cf Hf) as (k & E).
  - apply Forall_app. split; assumption.
  - rewrite accepted_ticks. exact Hfit.
  - rewrite clocks_ticks. exact Hc.
  - exists k. split; [exact E|]. unfold km_boot_keyboard_report. rewrite (C38_settled _ _ _ _ _ Hr _ _ _ _ 32 Ho (le_n _) E). reflexivity.
Qed.

(** C38, the limit of 16 is needed: the 17th thing down panics. *)
Definition letters : list ref := map (fun n => RKeyboard (KbKeyCode (N.of_nat n))) (seq 4 20).
Definition no_chords : config :=
  mkConfig (cf_automation sample_config) (mkChConfig 200 [] None 0 0 0) (cf_sticky sample_config) (cf_tap_dance sample_config)
    (cf_tap_hold sample_config) (cf_layer_count sample_config).
Theorem C38_seventeen_keys_refuted :
  let presses n := concat (map (fun i => [P (N.of_nat i); OpTick; OpTick]) (seq 0 n)) in
  returns (run_ops (cconf letters sample_data bs_std false) 60 (presses 16%nat) (km_new (ctx_from_config no_chords))) (fun k =>
    km_pressed_keys (cconf letters sample_data bs_std false) k = Ok (map (fun i => out (N.of_nat i)) (seq 4 16)))
  /\ run_ops (cconf letters sample_data bs_std false) 60 (presses 17%nat) (km_new (ctx_from_config no_chords)) = Panic.
Proof. vm_compute. repeat split; reflexivity. Qed.

Definition five_refs : list ref := [kA; RConsumer (CnUsageCode 9); RMouse (MsButton 1); RKeyboard (KbModifiers 2); RKeyboard (KbKeyCodeAndModifier 0)].
Definition five_data : key_data := mkData [] [] [] [] [mkKeyboardKey 6 1] [] [] [] [] [].
Definition five_outs : list key_output :=
  [out 4; ko_from_consumer_code 9; ko_from_mouse_output (mkMouse 1 0 0 0 0); ko_from_key_modifiers 2; ko_from_key_code_with_modifiers 6 1].
Example C38_example :
  let ops := [P 0; P 4; P 4; P 3; Rl 0; OpTick; P 1; P 2; Rl 3; OpInput (VirtualKeyPress (out 30))] in
  Forall2 (plain_key five_data) five_refs five_outs
  /\ Forall (fun o => plain_op o = true) ops
  /\ fits 5 4 (accepted ops)
  /\ down_after (accepted ops) = [inl 4; inl 1; inl 2; inr (out 30)]
  /\ returns (run_ops (cconf five_refs five_data bs_std false) 4 (ops ++ repeat OpTick 32) (km_new sample_ctx)) (fun k =>
       km_boot_keyboard_report (cconf five_refs five_data bs_std false) k = Ok [1; 0; 6; 30; 0; 0; 0; 0]).
Proof.
  cbv zeta. split; [|split; [|split; [|split]]].
  - repeat constructor. cbn. eexists. split; reflexivity.
  - repeat constructor.
  - split.
    + intros i Hi. cbn in Hi. repeat (destruct Hi as [Hi|Hi]; [try discriminate Hi; injection Hi as <-; cbn; lia|]). destruct Hi.
    + intros n. do 9 (destruct n as [|n]; [vm_compute; split; [lia|right; lia]|]). cbv zeta.
      rewrite firstn_all2 by (cbn; lia). vm_compute. split; [lia|right; lia].
  - reflexivity.
  - vm_compute. repeat split; reflexivity.
Qed.

Print Assumptions C38_down.
Print Assumptions C38_down_once.
Print Assumptions C38_pressed.
Print Assumptions C38_settled.
Print Assumptions C38_never_panics.
Print Assumptions C38_reports_what_is_down.
Print Assumptions C38_seventeen_keys_refuted.
