(** C83: the Bluetooth keyboard from the switches to the host, with any keymap. *)
From Verif Require Import BaseFacts Output OutputFacts Types Split Scheduler Reporter Keymap SimpleKeys TapHold TapDance Sticky Composite Samples SpecOutput SpecWrap WrapFacts SpecKeymap KeymapInv KeymapQueue KeymapApi
  CApi CFirmware SpecCFirmware CReport CCalls SpecCCalls CCallsFacts SpecHost HostFacts CBle SpecCBle CBleFacts PropertiesCBle SpecPlain PlainFacts SpecLayer SpecBoard SpecTyping PropertiesTyping CKeyboard SpecCKeyboard CBleMap SpecHid HidFacts PropertiesHid SpecBleHost BleHostFacts.
Local Open Scope N_scope.

Lemma ble_app R Ctx Ev PKS KS (conf : kconf R Ctx Ev PKS KS) fuel l1 l2 s : bl_run conf fuel (l1 ++ l2) s = let! s1 := bl_run conf fuel l1 s in bl_run conf fuel l2 s1.
Proof. unfold bl_run. apply fold_res_app. Qed.
Lemma start_reached R Ctx Ev PKS KS (conf : kconf R Ctx Ev PKS KS) fuel ctx : reached conf fuel ctx (keymap_set_ms_per_tick (keymap_init (km_new ctx)) 8).
Proof. exists [OpInit; OpSetMs 8]. reflexivity. Qed.
(** While the switches are held still, the keymap gets no inputs. *)
Lemma still_calls R Ctx Ev PKS KS (conf : kconf R Ctx Ev PKS KS) fuel keys ctx l1 l3 s2 s :
  N.of_nat keys <= 65536 -> reads_keys keys (l1 ++ l3) -> bl_run conf fuel l1 (ble_new keys (km_new ctx)) = Ok s2 -> bl_run conf fuel l3 s2 = Ok s -> keys_still keys s2 s ->
  exists cs rs, bl_calls s = bl_calls s2 ++ cs /\ Forall (fun c => no_input c = true) cs /\ ble_plain conf fuel cs (bl_keymap s2) = Ok (bl_keymap s, rs) /\ bl_made s = bl_made s2 ++ rs
    /\ reached conf fuel ctx (bl_keymap s2).
Proof.
  intros Hk Hl H1 H3 (n & Hs). assert (R1 : reads_keys keys l1) by (intros raw ok X; apply (Hl raw ok), in_or_app; auto).
  assert (H13 : bl_run conf fuel (l1 ++ l3) (ble_new keys (km_new ctx)) = Ok s) by (rewrite ble_app, H1; exact H3).
  destruct (run_calls conf fuel l3 _ _ H3) as (cs & Ec).
  pose proof (C58_events _ _ _ _ _ _ _ _ _ _ _ Hk R1 H1) as E1. pose proof (C58_events _ _ _ _ _ _ _ _ _ _ _ Hk Hl H13) as E2.
  pose proof (C58_plain _ _ _ _ _ _ _ _ _ _ _ Hk R1 H1) as P1. pose proof (C58_plain _ _ _ _ _ _ _ _ _ _ _ Hk Hl H13) as P2.
  rewrite Ec, ble_plain_app, P1 in P2. cbn [bind] in P2. inv_bind P2. destruct a as [k2 rs]. injection P2 as <- <-.
  exists cs, rs. split; [exact Ec|]. split; [|split; [exact E|split; [reflexivity|]]].
  - apply no_inputs. rewrite Ec, Hs, ble_events_app, scan_events_app, E1, scan_events_still, app_nil_r in E2. apply (app_inv_head (scan_events keys (repeat false keys) (bl_scans s2))). now rewrite app_nil_r.
  - eapply plain_reached; [|exact P1]. apply start_reached.
Qed.

(** C83: whatever the keys are: when the keymap, left alone, comes to put out [kos], and
    it was ticked 16 times more than it takes to come to that with the switches held
    still, then the host sees [kos], of each kind of report, whenever none of that kind
    is due, as long as none was lost. *)
Theorem C83_host_sees :
  forall R Ctx Ev PKS KS (conf : kconf R Ctx Ev PKS KS) fuel keys ctx l1 l3 s2 s quiet kos,
  N.of_nat keys <= 65536 -> reads_keys keys (l1 ++ l3) -> all_succeed (l1 ++ l3) ->
  bl_run conf fuel l1 (ble_new keys (km_new ctx)) = Ok s2 -> bl_run conf fuel l3 s2 = Ok s ->
  keys_still keys s2 s -> comes_to conf fuel quiet (bl_keymap s2) kos -> (ble_ticks s2 + quiet + 16 <= ble_ticks s)%nat ->
  km_pressed_keys conf (bl_keymap s) = Ok kos /\ forall c, ~ due_evt (EvReport c) s -> ble_host_sees kos c s.
Proof.
  intros R Ctx Ev PKS KS conf fuel keys ctx l1 l3 s2 s quiet kos Hk Hl Ha H1 H3 Hs Hq Hn.
  destruct (still_calls _ _ _ _ _ _ _ _ _ _ _ _ _ Hk Hl H1 H3 Hs) as (cs & rs & Ec & Hc & Hp & Hm & Hr).
  rewrite (ticks_app _ _ _ Ec) in Hn.
  destruct (calls_report conf fuel ctx quiet cs _ _ _ kos Hr Hc Hp Hq ltac:(lia)) as (rs' & r & -> & Hu & Hko). split; [exact Hko|].
  intros c Hd. assert (H13 : bl_run conf fuel (l1 ++ l3) (ble_new keys (km_new ctx)) = Ok s) by (rewrite ble_app, H1; exact H3).
  pose proof (C60_synced _ _ _ _ _ _ _ _ _ _ _ c Ha H13 Hd) as Hh. unfold host_should in Hh. rewrite Hm, app_assoc, last_last in Hh. unfold ble_host_sees. destruct c; rewrite Hh.
  - intros Hb page u. now apply C75_ble_keyboard.
  - intros page u v. now apply C75_ble_mouse.
  - intros Hb Hl1 page u. now apply C75_ble_consumer.
Qed.

(** C83: while a key is held the keymap is ticked every 12 units of 0.625 ms, if events
    are handled before time passes; so the host sees [kos] that long after the switches
    were found as they are. *)
Theorem C83_in_time :
  forall R Ctx Ev PKS KS (conf : kconf R Ctx Ev PKS KS) fuel keys ctx l1 l3 s2 s quiet kos,
  (keys <= 255)%nat -> reads_keys keys (l1 ++ l3) -> all_succeed (l1 ++ l3) ->
  bl_run conf fuel l1 (ble_new keys (km_new ctx)) = Ok s2 -> bl_run conf fuel l3 s2 = Ok s ->
  keys_still keys s2 s -> SpecCBle.keys_down (last (bl_scans s2) (repeat false keys)) <> 0%nat -> bl_prompt conf fuel l3 s2 ->
  comes_to conf fuel quiet (bl_keymap s2) kos -> (13 + 12 * (quiet + 16) <= units l3)%nat ->
  km_pressed_keys conf (bl_keymap s) = Ok kos /\ forall c, ~ due_evt (EvReport c) s -> ble_host_sees kos c s.
Proof.
  intros R Ctx Ev PKS KS conf fuel keys ctx l1 l3 s2 s quiet kos Hk Hl Ha H1 H3 Hs Hd Hpr Hq Hn.
  eapply C83_host_sees; try eassumption; [lia|].
  assert (T2 := run_token conf fuel l1 _ _ (token_new keys (km_new ctx)) H1).
  destruct (run_far conf fuel l3 s2 s T2 Hpr H3) as (A & B).
  - intros a b s1 -> E1. destruct (bl_irq s1) eqn:Ei; [|reflexivity]. exfalso.
    assert (E01 : bl_run conf fuel (l1 ++ a) (ble_new keys (km_new ctx)) = Ok s1) by (rewrite ble_app, H1; exact E1).
    assert (R01 : reads_keys keys (l1 ++ a)) by (intros raw ok X; apply (Hl raw ok); rewrite app_assoc; apply in_or_app; auto).
    pose proof (C59_asleep_idle _ _ _ _ _ _ _ _ _ _ _ Hk R01 E01 Ei) as Z.
    destruct Hs as (n & Hs). destruct (run_scans conf fuel a _ _ E1) as (ra & Ea). rewrite ble_app, E1 in H3. destruct (run_scans conf fuel b _ _ H3) as (rb & Eb).
    rewrite Eb, Ea, <- app_assoc in Hs. apply app_inv_head in Hs.
    assert (X : ra = repeat (last (bl_scans s2) (repeat false keys)) (length ra)).
    { clear -Hs. revert n Hs. induction ra as [|x ra IH]; intros n Hs; [reflexivity|]. destruct n as [|n]; cbn [repeat app] in Hs; [discriminate|]. injection Hs as -> Hs. cbn [length repeat]. f_equal. eapply IH. exact Hs. }
    rewrite Ea, last_app_def in Z. destruct ra as [|x ra _] using rev_ind; [contradiction|]. rewrite last_last in Z. apply Hd. rewrite <- Z. f_equal.
    assert (Y : In x (ra ++ [x])) by (apply in_or_app; right; now left). rewrite X in Y. apply repeat_spec in Y. now symmetry.
  - pose proof (far_le s2 T2). lia.
Qed.

Print Assumptions C83_host_sees.
Print Assumptions C83_in_time.

(** C83: and for a keymap that comes to rest, the host sees what it then puts out. *)
Theorem C83_at_rest :
  forall R Ctx Ev PKS KS (conf : kconf R Ctx Ev PKS KS) fuel keys ctx l1 l3 s2 s quiet kos,
  N.of_nat keys <= 65536 -> reads_keys keys (l1 ++ l3) -> all_succeed (l1 ++ l3) ->
  bl_run conf fuel l1 (ble_new keys (km_new ctx)) = Ok s2 -> bl_run conf fuel l3 s2 = Ok s ->
  keys_still keys s2 s -> comes_to_rest conf fuel quiet (bl_keymap s2) -> (ble_ticks s2 + quiet + 16 <= ble_ticks s)%nat ->
  km_pressed_keys conf (bl_keymap s) = Ok kos ->
  km_has_scheduled_events (bl_keymap s) = false /\ forall c, ~ due_evt (EvReport c) s -> ble_host_sees kos c s.
Proof.
  intros R Ctx Ev PKS KS conf fuel keys ctx l1 l3 s2 s quiet kos Hk Hl Ha H1 H3 Hs Hq Hn Hkos.
  destruct (still_calls _ _ _ _ _ _ _ _ _ _ _ _ _ Hk Hl H1 H3 Hs) as (cs & rs & Ec & Hc & Hp & _ & _).
  destruct (calls_as_ticks conf fuel _ _ _ _ Hc Hp) as (m & kt & Em & Hsm & Hm). rewrite (ticks_app _ _ _ Ec) in Hn.
  assert (Hd : forall n k', (quiet <= n)%nat -> run_ops conf fuel (repeat OpTick n) (bl_keymap s2) = Ok k' ->
    exists kq, run_ops conf fuel (repeat OpTick quiet) (bl_keymap s2) = Ok kq /\ km_pressed k' = km_pressed kq /\ km_has_scheduled_events k' = false).
  { intros n k' Hn' E. replace n with (quiet + (n - quiet))%nat in E by lia. rewrite repeat_app in E. unfold run_ops in E. rewrite fold_res_app in E. inv_bind E.
    exists a. split; [assumption|]. destruct (idle_ticks conf fuel _ _ _ (Hq a E0) E) as (A & A' & _). auto. }
  destruct (Hd m kt ltac:(lia) Em) as (kq & Eq & Pq & Zq).
  assert (Hkt : km_pressed_keys conf kt = Ok kos /\ km_has_scheduled_events (bl_keymap s) = false).
  { unfold same_but_reporter in Hsm. destruct kt, (bl_keymap s). injection Hsm; intros; subst. split; [exact Hkos|exact Zq]. }
  destruct Hkt as (Hkt & Hz). split; [exact Hz|].
  eapply C83_host_sees; try eassumption; [|rewrite (ticks_app _ _ _ Ec); exact Hn].
  intros n k' Hn' E. destruct (Hd n k' Hn' E) as (kq' & Eq' & Pq' & _). assert (kq' = kq) as -> by congruence. unfold km_pressed_keys in *. now rewrite Pq', <- Pq.
Qed.

(** C83, for keyboards of ordinary, layer, one-shot and caps-word keys: once ticked 48
    times, the host sees what the keyboard sends after the changes of the switches; all
    of them, if there are at most 31. *)
Theorem C83_typing :
  forall refs d pos dbg height fuel cf keys l1 l3 s2 s, Forall (tkey (cf_layer_count cf) d height) refs ->
  let conf := cconf refs d pos dbg in
  N.of_nat keys <= 65536 -> reads_keys keys (l1 ++ l3) -> all_succeed (l1 ++ l3) ->
  bl_run conf fuel l1 (ble_new keys (km_new (ctx_from_config cf))) = Ok s2 -> bl_run conf fuel l3 s2 = Ok s ->
  keys_still keys s2 s -> (ble_ticks s2 + 48 <= ble_ticks s)%nat ->
  let changed := map meant (scan_events keys (repeat false keys) (bl_scans s)) in
  exists ops b, comes_from (bl_calls s2) ops /\ inputs ops = changed /\ ((length changed <= 31)%nat -> accepted ops = changed)
  /\ trun (stc_release (cf_sticky cf)) (cf_layer_count cf) refs d (accepted ops) b
  /\ km_pressed_keys conf (bl_keymap s) = Ok (tboard_output b)
  /\ forall c, ~ due_evt (EvReport c) s -> ble_host_sees (tboard_output b) c s.
Proof.
  intros refs d pos dbg height fuel cf keys l1 l3 s2 s Hr conf Hk Hl Ha H1 H3 Hs Hn changed.
  assert (R1 : reads_keys keys l1) by (intros raw ok X; apply (Hl raw ok), in_or_app; auto).
  pose proof (C58_events _ _ _ _ _ _ _ _ _ _ _ Hk R1 H1) as E1. pose proof (C58_plain _ _ _ _ _ _ _ _ _ _ _ Hk R1 H1) as P1.
  destruct (still_calls _ _ _ _ _ _ _ _ _ _ _ _ _ Hk Hl H1 H3 Hs) as (cs & rs & Ec & Hc & Hp & _ & _).
  destruct (plain_ops conf fuel _ _ _ _ P1) as (ops & Ho & Er).
  assert (Ein : inputs ops = changed).
  { rewrite (from_inputs _ _ Ho), E1. subst changed. destruct Hs as (n & ->). now rewrite scan_events_app, scan_events_still, app_nil_r. }
  assert (Hall : forall n k', (32 <= n)%nat -> run_ops conf fuel (repeat OpTick n) (bl_keymap s2) = Ok k' ->
    exists b, trun (stc_release (cf_sticky cf)) (cf_layer_count cf) refs d (accepted ops) b /\ km_pressed_keys conf k' = Ok (tboard_output b)).
  { intros n k' Hn' E. destruct (C70_settled refs d pos dbg height fuel [OpInit] (OpSetMs 8 :: ops) cf k' n Hr) as (b & Hb & Hpb & _).
    - exists CbReset, CbReset. constructor; [now left|constructor].
    - constructor; [reflexivity|]. eapply from_plain. exact Ho.
    - exact Hn'.
    - fold conf. cbn [app]. unfold run_ops in *. cbn [fold_res run_op bind]. rewrite fold_res_app. unfold keymap_init, keymap_set_ms_per_tick in Er. rewrite Er. exact E.
    - exists b. split; [exact Hb|exact Hpb]. }
  destruct (calls_as_ticks conf fuel _ _ _ _ Hc Hp) as (m & kt & Em & _ & Hm). assert (Hn2 := Hn). rewrite (ticks_app _ _ _ Ec) in Hn2.
  destruct (Hall m kt ltac:(lia) Em) as (b & Hb & _).
  exists ops, b. split; [exact Ho|]. split; [exact Ein|]. split; [intros Hf; rewrite <- Ein in *; apply few_accepted; cbn; exact Hf|]. split; [exact Hb|].
  eapply C83_host_sees; try eassumption; [|instantiate (1 := 32%nat); lia].
  intros n k' Hn' E. destruct (Hall n k' Hn' E) as (b' & Hb' & Hp'). assert (b' = b) as -> by (eapply C70_unique; eassumption). exact Hp'.
Qed.

Print Assumptions C83_at_rest.
Print Assumptions C83_typing.

(** *** Examples.  A keymap that is at rest after some ticks. *)
Lemma rest_comes R Ctx Ev PKS KS (conf : kconf R Ctx Ev PKS KS) fuel q k kos :
  returns (run_ops conf fuel (repeat OpTick q) k) (fun k' => km_has_scheduled_events k' = false /\ km_pressed_keys conf k' = Ok kos) ->
  comes_to conf fuel q k kos /\ comes_to_rest conf fuel q k.
Proof.
  intros H. destruct (run_ops conf fuel (repeat OpTick q) k) as [kq| |] eqn:Eq; try contradiction. destruct H as (Hz & Hp). split.
  - intros n k' Hn E. replace n with (q + (n - q))%nat in E by lia. rewrite repeat_app in E. unfold run_ops in *. rewrite fold_res_app, Eq in E. cbn [bind] in E.
    destruct (idle_ticks conf fuel _ _ _ Hz E) as (A & _). unfold km_pressed_keys in *. now rewrite A.
  - intros k' E. congruence.
Qed.
Definition same_scans (keys : nat) (a b : list (list bool)) : Prop := b = a ++ repeat (last a (repeat false keys)) (length b - length a).

(** [n] units, then events are handled. *)
Definition then_tasks (raw : list bool) (n tasks : nat) : list bl_step := repeat BlUnit n ++ repeat (BlTask raw true) tasks.
(** A key held on: a scan every 12 units. *)
Definition held_on (raw : list bool) (n : nat) : list bl_step := concat (repeat (then_tasks raw 12 1) n).
(** A tap-hold key that is held: the host comes to see left control. *)
Definition hold_1 := wake dn1 ++ pass dn1 4.
Definition hold_3 := then_tasks dn1 9 2 ++ then_tasks dn1 1 1 ++ then_tasks dn1 11 1 ++ held_on dn1 18.
Lemma hold_fact : returns (bl_run ble_conf 300 hold_1 (ble_start 8 40)) (fun s2 =>
  returns (run_ops ble_conf 300 (repeat OpTick 2) (bl_keymap s2)) (fun k' => km_has_scheduled_events k' = false /\ km_pressed_keys ble_conf k' = Ok [ko_from_key_code 224])
  /\ km_pressed_keys ble_conf (bl_keymap s2) = Ok []
  /\ promptb ble_conf 300 hold_3 s2 = true /\ Nat.eqb (SpecCBle.keys_down (last (bl_scans s2) (repeat false 4))) 1 = true
  /\ returns (bl_run ble_conf 300 hold_3 s2) (fun s => same_scans 4 (bl_scans s2) (bl_scans s) /\ Nat.leb (ble_ticks s2 + 2 + 16) (ble_ticks s) = true
       /\ bl_set s (EvReport ChKb) = false /\ bl_timer s (EvReport ChKb) = None /\ host_has ChKb s = [1;0;0;0;0;0;0;0])).
Proof. vm_compute. repeat split; reflexivity. Qed.
Example C83_example : exists s2 s,
  reads_keys 4 (hold_1 ++ hold_3) /\ all_succeed (hold_1 ++ hold_3) /\ bl_run ble_conf 300 hold_1 (ble_new 4 (km_new (ble_ctx 8 40))) = Ok s2 /\ bl_run ble_conf 300 hold_3 s2 = Ok s
  /\ keys_still 4 s2 s /\ SpecCBle.keys_down (last (bl_scans s2) (repeat false 4)) <> 0%nat /\ bl_prompt ble_conf 300 hold_3 s2
  /\ comes_to ble_conf 300 2 (bl_keymap s2) [ko_from_key_code 224] /\ comes_to_rest ble_conf 300 2 (bl_keymap s2)
  /\ (13 + 12 * (2 + 16) <= units hold_3)%nat /\ (ble_ticks s2 + 2 + 16 <= ble_ticks s)%nat /\ ~ due_evt (EvReport ChKb) s /\ host_has ChKb s = [1;0;0;0;0;0;0;0].
Proof.
  destruct (bl_returns _ _ hold_fact) as (s2 & E2 & F1 & _ & F2 & F3 & F). destruct (bl_returns _ _ F) as (s & E & G1 & G2 & G3 & G4 & G5).
  destruct (rest_comes _ _ _ _ _ _ _ _ _ _ F1) as (Q1 & Q2). destruct (forall_steps (hold_1 ++ hold_3) 4 ltac:(vm_compute; reflexivity)) as (P1 & P2). apply Nat.eqb_eq in F3. apply Nat.leb_le in G2.
  exists s2, s. split; [exact P1|]. split; [exact P2|]. split; [exact E2|]. split; [exact E|]. split; [eexists; exact G1|]. split; [rewrite F3; discriminate|]. split; [now apply promptb_ok|].
  split; [exact Q1|]. split; [exact Q2|]. split; [apply Nat.leb_le; vm_compute; reflexivity|]. split; [exact G2|]. split; [|exact G5]. unfold due_evt. rewrite G3, G4. intuition discriminate.
Qed.

(** The same with an ordinary key, for C83_typing. *)
Definition plain_conf := cconf [kA] sample_data bs_std false.
Definition plain_1 := wake [true] ++ pass [true] 4.
Definition plain_3 := then_tasks [true] 9 2 ++ held_on [true] 48.
Lemma plain_fact : returns (bl_run plain_conf 300 plain_1 (ble_new 1 (km_new (ble_ctx 200 200)))) (fun s2 => length (bl_scans s2) = 1%nat /\
  returns (bl_run plain_conf 300 plain_3 s2) (fun s => same_scans 1 (bl_scans s2) (bl_scans s) /\ Nat.leb (ble_ticks s2 + 48) (ble_ticks s) = true /\ host_has ChKb s = [0;0;4;0;0;0;0;0])).
Proof. vm_compute. repeat split; reflexivity. Qed.
Example C83_typing_example : exists s2 s, Forall (tkey 3 sample_data 0) [kA] /\ reads_keys 1 (plain_1 ++ plain_3) /\ all_succeed (plain_1 ++ plain_3)
  /\ bl_run plain_conf 300 plain_1 (ble_new 1 (km_new (ble_ctx 200 200))) = Ok s2 /\ bl_run plain_conf 300 plain_3 s2 = Ok s /\ keys_still 1 s2 s
  /\ (ble_ticks s2 + 48 <= ble_ticks s)%nat /\ host_has ChKb s = [0;0;4;0;0;0;0;0].
Proof.
  destruct (bl_returns _ _ plain_fact) as (s2 & E2 & _ & F). destruct (bl_returns _ _ F) as (s & E & G1 & G2 & G3). apply Nat.leb_le in G2.
  destruct (forall_steps (plain_1 ++ plain_3) 1 ltac:(vm_compute; reflexivity)) as (P1 & P2).
  exists s2, s. split; [|split; [exact P1|]; split; [exact P2|]; split; [exact E2|]; split; [exact E|]; split; [eexists; exact G1|]; split; assumption].
  constructor; [|constructor]. eapply tk_plain. constructor.
Qed.

(** C83, false if no key is held, because the keyboard then sleeps: a tap-dance key
    tapped while another key is held, and both released; the other key stays down at the
    host. *)
Definition asleep_1 := wake dn0 ++ pass dn0 2 ++ pass [true; false; true; false] 12 ++ pass dn0 12 ++ pass ups 16.
Definition asleep_3 := then_tasks ups 7 1 ++ repeat BlUnit 247.
Lemma asleep_fact : returns (bl_run ble_conf 300 asleep_1 (ble_start 200 32)) (fun s2 =>
  returns (run_ops ble_conf 300 (repeat OpTick 4) (bl_keymap s2)) (fun k' => km_has_scheduled_events k' = false /\ km_pressed_keys ble_conf k' = Ok [])
  /\ promptb ble_conf 300 asleep_3 s2 = true /\ last (bl_scans s2) (repeat false 4) = ups
  /\ returns (bl_run ble_conf 300 asleep_3 s2) (fun s => same_scans 4 (bl_scans s2) (bl_scans s)
       /\ bl_set s (EvReport ChKb) = false /\ bl_timer s (EvReport ChKb) = None /\ host_has ChKb s = [0;0;4;0;0;0;0;0])).
Proof. vm_compute. repeat split; reflexivity. Qed.
Theorem C83_released_refuted :
  ~ (forall R Ctx Ev PKS KS (conf : kconf R Ctx Ev PKS KS) fuel keys ctx l1 l3 s2 s quiet kos c,
     (keys <= 255)%nat -> reads_keys keys (l1 ++ l3) -> all_succeed (l1 ++ l3) ->
     bl_run conf fuel l1 (ble_new keys (km_new ctx)) = Ok s2 -> bl_run conf fuel l3 s2 = Ok s ->
     keys_still keys s2 s -> bl_prompt conf fuel l3 s2 ->
     comes_to conf fuel quiet (bl_keymap s2) kos -> (13 + 12 * (quiet + 16) <= units l3)%nat -> ~ due_evt (EvReport c) s -> ble_host_sees kos c s).
Proof.
  intros H. destruct (bl_returns _ _ asleep_fact) as (s2 & E2 & F1 & F2 & _ & F). destruct (bl_returns _ _ F) as (s & E & G1 & G2 & G3 & G4).
  destruct (rest_comes _ _ _ _ _ _ _ _ _ _ F1) as (Q1 & _). destruct (forall_steps (asleep_1 ++ asleep_3) 4 ltac:(vm_compute; reflexivity)) as (P1 & P2).
  assert (Hk : keys_still 4 s2 s) by (eexists; exact G1).
  assert (X := H _ _ _ _ _ ble_conf 300%nat 4%nat _ _ _ _ _ _ _ ChKb ltac:(lia) P1 P2 E2 E Hk (promptb_ok _ _ _ _ F2) Q1 ltac:(apply Nat.leb_le; vm_compute; reflexivity) ltac:(unfold due_evt; rewrite G2, G3; intuition discriminate)).
  cbn [ble_host_sees] in X. rewrite G4 in X. specialize (X ltac:(vm_compute; constructor) KEYBOARD 4). destruct X as (X & _).
  assert (Y : KEYBOARD = KEYBOARD /\ key_shown 101 [] 4) by (apply X; split; [discriminate|]; exists 1%Z; split; [discriminate|]; vm_compute; repeat (first [left; reflexivity|right])).
  destruct Y as (_ & [(_ & [])|(Y & _)]). destruct Y as (Y & _). now apply Y.
Qed.
Print Assumptions C83_released_refuted.
