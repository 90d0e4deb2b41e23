(** Theorems C58-C61: the Bluetooth keyboard. *)
From Verif Require Import Base Output Types Split Scheduler Keymap CApi CFirmware SpecCFirmware CFirmwareFacts CReport CBle SpecCBle
  BaseFacts CBleFacts Samples SimpleKeys TapHold TapDance Sticky Composite.
Local Open Scope N_scope.

(** C58: on a square matrix a scan reads every switch and leaves every column low. *)
Theorem C58_square : forall n closed idx high buf,
  wiring_ok n n (length buf) idx ->
  length high = n -> (forall e, e <> 0%nat -> nth e high false = false) ->
  exists buf', ble_scan_raw n n closed idx high buf = Ok (repeat false n, buf')
    /\ length buf' = length buf
    /\ (forall r c i, (r < n)%nat -> (c < n)%nat -> idx r c = Some i -> nth_error buf' i = Some (closed r c))
    /\ forall i, (forall r c, (r < n)%nat -> (c < n)%nat -> idx r c <> Some i) -> nth_error buf' i = nth_error buf i.
Proof.
  intros n closed idx high buf [W1 W2] Hl Ho. rewrite ble_scan_square by reflexivity.
  destruct (scan_raw_ok n n (fun c r => closed r c) (fun c r => idx r c) high buf) as (b & E & L & P1 & P2); auto.
  - split; [intros c r i Hc Hr; apply W1; auto|]. intros c r c' r' i Hc Hr Hc' Hr' H H'. destruct (W2 r c r' c' i) as [-> ->]; auto.
  - exists b. repeat split; auto.
Qed.
Print Assumptions C58_square.
(** C58: on any other it reads out of bounds, whatever the switches. *)
Theorem C58_square_only : forall rows cols closed idx high buf,
  (0 < rows)%nat -> rows <> cols -> ble_scan_raw rows cols closed idx high buf = Panic.
Proof. intros rows cols closed idx high buf. apply ble_scan_not_square. Qed.
Print Assumptions C58_square_only.

(** C58: the keymap is told of exactly the changes from scan to scan, in order, whichever
    handler scans.  There is no debouncing. *)
Theorem C58_events : forall R Ctx Ev PKS KS (conf : kconf R Ctx Ev PKS KS) fuel keys k l s,
  N.of_nat keys <= 65536 -> reads_keys keys l -> bl_run conf fuel l (ble_new keys k) = Ok s ->
  ble_events (bl_calls s) = scan_events keys (repeat false keys) (bl_scans s).
Proof. intros R Ctx Ev PKS KS conf fuel keys k l s Hk Hl H. exact (bh_events _ _ _ _ _ (run_hist conf fuel keys _ l _ _ (hist_new conf fuel keys k) Hk Hl H)). Qed.
Print Assumptions C58_events.
(** C58: and it counts the pressed keys, of up to 255 keys. *)
Theorem C58_count : forall R Ctx Ev PKS KS (conf : kconf R Ctx Ev PKS KS) fuel keys k l s,
  (keys <= 255)%nat -> reads_keys keys l -> bl_run conf fuel l (ble_new keys k) = Ok s ->
  bm_count (bl_matrix s) = N.of_nat (keys_down (last (bl_scans s) (repeat false keys))).
Proof.
  intros R Ctx Ev PKS KS conf fuel keys k l s Hk Hl H.
  exact (bh_count _ _ _ _ _ (run_hist conf fuel keys _ l _ _ (hist_new conf fuel keys k) ltac:(lia) Hl H) Hk).
Qed.
Print Assumptions C58_count.
(** C58: the reports are those of the keymap alone, called the same way. *)
Theorem C58_plain : forall R Ctx Ev PKS KS (conf : kconf R Ctx Ev PKS KS) fuel keys k l s,
  N.of_nat keys <= 65536 -> reads_keys keys l -> bl_run conf fuel l (ble_new keys k) = Ok s ->
  ble_plain conf fuel (bl_calls s) (keymap_set_ms_per_tick (keymap_init k) 8) = Ok (bl_keymap s, bl_made s).
Proof. intros R Ctx Ev PKS KS conf fuel keys k l s Hk Hl H. exact (bh_plain _ _ _ _ _ (run_hist conf fuel keys _ l _ _ (hist_new conf fuel keys k) Hk Hl H)). Qed.
Print Assumptions C58_plain.

(** C59: it either waits for a key to be pressed, and then will not scan by itself, or it will. *)
Theorem C59_awake : forall R Ctx Ev PKS KS (conf : kconf R Ctx Ev PKS KS) fuel keys k l s,
  bl_run conf fuel l (ble_new keys k) = Ok s ->
  (bl_irq s = true <-> ~ will_scan s) /\ (bl_irq s = false <-> will_scan s).
Proof.
  intros R Ctx Ev PKS KS conf fuel keys k l s H. assert (T := run_token conf fuel l _ _ (token_new keys k) H).
  assert (A := token_awake _ T). assert (B := token_asleep _ T). destruct (bl_irq s); split; split; intros; try congruence; auto; try tauto.
Qed.
Print Assumptions C59_awake.
(** C59: while it waits, no key was down in the last scan. *)
Theorem C59_asleep_idle : forall R Ctx Ev PKS KS (conf : kconf R Ctx Ev PKS KS) fuel keys k l s,
  (keys <= 255)%nat -> reads_keys keys l -> bl_run conf fuel l (ble_new keys k) = Ok s -> bl_irq s = true ->
  keys_down (last (bl_scans s) (repeat false keys)) = 0%nat.
Proof.
  intros R Ctx Ev PKS KS conf fuel keys k l s Hk Hl H Hi. assert (T := run_token conf fuel l _ _ (token_new keys k) H).
  assert (C := C58_count _ _ _ _ _ _ _ _ _ _ _ Hk Hl H). rewrite (tk_idle _ T Hi) in C. lia.
Qed.
Print Assumptions C59_asleep_idle.
(** C59: it only goes to sleep after a scan, with no event waiting in the keymap. *)
Theorem C59_goes_to_sleep : forall R Ctx Ev PKS KS (conf : kconf R Ctx Ev PKS KS) fuel keys k l s a s',
  bl_run conf fuel l (ble_new keys k) = Ok s -> bl_irq s = false -> bl_do conf fuel s a = Ok s' -> bl_irq s' = true ->
  keymap_requires_polling (bl_keymap s') = false /\ exists raw, bl_scans s' = bl_scans s ++ [raw].
Proof.
  intros R Ctx Ev PKS KS conf fuel keys k l s a s' H Hi H' Hi'. exact (do_sleeps conf fuel a s s' (run_token conf fuel l _ _ (token_new keys k) H) Hi H' Hi').
Qed.
Print Assumptions C59_goes_to_sleep.
(** C59: awake, it scans at least once in any 13 units of time (8.125 ms), if events are
    handled before time passes. *)
Theorem C59_scans_in_time : forall R Ctx Ev PKS KS (conf : kconf R Ctx Ev PKS KS) fuel keys k l s l' s',
  bl_run conf fuel l (ble_new keys k) = Ok s -> bl_irq s = false ->
  bl_run conf fuel l' s = Ok s' -> bl_prompt conf fuel l' s -> (13 <= units l')%nat ->
  bl_scans s' <> bl_scans s.
Proof.
  intros R Ctx Ev PKS KS conf fuel keys k l s l' s' H Hi H' Hp Hu X. assert (T := run_token conf fuel l _ _ (token_new keys k) H).
  assert (A := run_dist conf fuel l' s s' T Hi Hp H' X). assert (B := dist_le s T). lia.
Qed.
Print Assumptions C59_scans_in_time.
(** C59: after the interrupt of a key press, within two units. *)
Theorem C59_wakes : forall R Ctx Ev PKS KS (conf : kconf R Ctx Ev PKS KS) fuel keys k l s l' s',
  bl_run conf fuel l (ble_new keys k) = Ok s -> bl_irq s = true ->
  bl_run conf fuel (BlGpio :: l') s = Ok s' -> bl_prompt conf fuel (BlGpio :: l') s -> (2 <= units l')%nat ->
  bl_scans s' <> bl_scans s.
Proof.
  intros R Ctx Ev PKS KS conf fuel keys k l s l' s' H Hi H' Hp Hu X. assert (T := run_token conf fuel l _ _ (token_new keys k) H).
  cbn [bl_run fold_res bl_do bind] in H'. cbn [bl_prompt bl_do] in Hp. destruct Hp as [_ Hp]. unfold bl_gpio in H', Hp. rewrite Hi in H', Hp.
  match type of Hp with bl_prompt _ _ _ ?x => set (s1 := x) in * end.
  assert (T1 : bl_token s1). { apply (do_token conf fuel BlGpio s s1 T). cbn [bl_do]. unfold bl_gpio. now rewrite Hi. }
  assert (A := run_dist conf fuel l' s1 s' T1 eq_refl Hp H' X). unfold dist in A. cbn [s1 bl_set] in A. rewrite set_evt_same in A. lia.
Qed.
Print Assumptions C59_wakes.

(** C60: as long as no report fails, whenever no report is due the host has the last
    report of the keymap. *)
Theorem C60_synced : forall R Ctx Ev PKS KS (conf : kconf R Ctx Ev PKS KS) fuel keys k l s c,
  all_succeed l -> bl_run conf fuel l (ble_new keys k) = Ok s -> ~ due_evt (EvReport c) s ->
  host_has c s = host_should c s.
Proof.
  intros R Ctx Ev PKS KS conf fuel keys k l s c Hl H Hd.
  destruct (run_reports conf fuel c l _ _ (reports_new c keys k) H) as [A B _ _].
  destruct (run_synced conf fuel c l _ _ (synced_new c keys k) Hl H) as [S|S]; [|contradiction].
  unfold host_should. now rewrite <- B, S, A.
Qed.
Print Assumptions C60_synced.
(** C60: and once a unit of time has passed with no new report, as soon as nothing is
    left to handle. *)
Theorem C60_in_time : forall R Ctx Ev PKS KS (conf : kconf R Ctx Ev PKS KS) fuel keys k l s l' s' c,
  all_succeed (l ++ l') -> bl_run conf fuel l (ble_new keys k) = Ok s ->
  bl_run conf fuel (BlUnit :: l') s = Ok s' -> bl_made s' = bl_made s -> idle_task s' ->
  host_has c s' = host_should c s'.
Proof.
  intros R Ctx Ev PKS KS conf fuel keys k l s l' s' c Hl H H' Hm Hi.
  assert (H1 : all_succeed l) by (intros raw ok X; apply (Hl raw ok), in_or_app; auto).
  assert (H2 : all_succeed l') by (intros raw ok X; apply (Hl raw ok), in_or_app; auto).
  assert (I := run_reports conf fuel c l _ _ (reports_new c keys k) H).
  assert (S := run_synced conf fuel c l _ _ (synced_new c keys k) H1 H).
  cbn [bl_run fold_res bl_do bind] in H'. assert (P := unit_pend c s I S).
  assert (I' : bl_reports c (bl_unit s)) by (apply (do_reports conf fuel c BlUnit s _ I); reflexivity).
  destruct (run_reports conf fuel c l' _ _ I' H') as [A B _ _].
  destruct (run_pend conf fuel c l' _ _ P H2 H' Hm) as [Q|Q]; [|rewrite Hi in Q; discriminate].
  unfold host_should. now rewrite <- B, Q, A.
Qed.
Print Assumptions C60_in_time.
(** C60: whether or not reports fail, each one given to the host is the latest of the
    keymap at that time. *)
Theorem C60_sampled : forall R Ctx Ev PKS KS (conf : kconf R Ctx Ev PKS KS) fuel keys k l s c,
  bl_run conf fuel l (ble_new keys k) = Ok s ->
  sampled (map (ble_part c) (report_zero :: bl_made s)) (offered c s).
Proof. intros R Ctx Ev PKS KS conf fuel keys k l s c H. exact (br_sampled _ _ (run_reports conf fuel c l _ _ (reports_new c keys k) H)). Qed.
Print Assumptions C60_sampled.

(** C61: as long as no timeout of the keymap is handled, its clock gains at most 2/3 ms
    per unit of 0.625 ms (a tick of 8 ms every 12 units) and 8 ms per event. *)
Theorem C61_clock : forall R Ctx Ev PKS KS (conf : kconf R Ctx Ev PKS KS) fuel keys k l s,
  bl_run conf fuel l (ble_new keys k) = Ok s -> ~ In BcNext (bl_calls s) ->
  3 * sc_counter (km_sched (bl_keymap s)) <= 2 * bl_now s + 24 * N.of_nat (length (ble_events (bl_calls s))).
Proof.
  intros R Ctx Ev PKS KS conf fuel keys k l s H Hn.
  destruct (run_ckt conf fuel _ l _ _ (token_new keys k) (ckt_new keys k) H Hn) as (T & (_ & _ & A & B) & _).
  unfold nev in B. change (sc_counter (km_sched (km_init k))) with 0 in B. lia.
Qed.
Print Assumptions C61_clock.
(** C61: asleep with no timeout started, the keymap is not called until a key is pressed. *)
Theorem C61_asleep_no_calls : forall R Ctx Ev PKS KS (conf : kconf R Ctx Ev PKS KS) fuel keys k l s l' s',
  bl_run conf fuel l (ble_new keys k) = Ok s -> bl_irq s = true -> ~ due_evt EvTimeout s ->
  bl_run conf fuel l' s = Ok s' -> ~ In BlGpio l' ->
  bl_calls s' = bl_calls s /\ bl_keymap s' = bl_keymap s.
Proof.
  intros R Ctx Ev PKS KS conf fuel keys k l s l' s' H Hi Hd H' Hg.
  destruct (run_asleep_quiet conf fuel l' s s' (run_token conf fuel l _ _ (token_new keys k) H) Hi Hd Hg H') as (_ & A & B). auto.
Qed.
Print Assumptions C61_asleep_no_calls.
(** C61: asleep, less than a tick before the next event of the keymap, that event never
    comes, however long and with whatever timeouts, until a key is pressed. *)
Theorem C61_asleep_stuck : forall R Ctx Ev PKS KS (conf : kconf R Ctx Ev PKS KS) fuel keys k l s d l' s',
  N.of_nat keys <= 65536 -> reads_keys keys l ->
  bl_run conf fuel l (ble_new keys k) = Ok s -> bl_irq s = true ->
  next_event_time (km_sched (bl_keymap s)) = Ok (Some d) -> 0 < d < 8 ->
  bl_run conf fuel l' s = Ok s' -> ~ In BlGpio l' ->
  bl_irq s' = true /\ km_sched (bl_keymap s') = km_sched (bl_keymap s).
Proof.
  intros R Ctx Ev PKS KS conf fuel keys k l s d l' s' Hk Hl H Hi Hn Hd H' Hg.
  exact (run_asleep_stuck conf fuel l' d Hd s s' (run_token conf fuel l _ _ (token_new keys k) H) Hi
           (hist_ms conf fuel _ _ _ (run_hist conf fuel keys _ l _ _ (hist_new conf fuel keys k) Hk Hl H)) Hn Hg H').
Qed.
Print Assumptions C61_asleep_stuck.

(** *** Examples: a plain key, a tap-hold key, a tap-dance key and a mouse button. *)
Definition ble_refs : list ref := [kA; RTapHold 0; RTapDance 0; RMouse (MsButton 1)].
Definition ble_conf : kconf ref cctx cev cpks cks := cconf ble_refs sample_data bs_std false.
Definition ble_ctx (th td : u16) : cctx :=
  ctx_from_config (mkConfig (cf_automation sample_config) (cf_chorded sample_config) sticky_config_default (mkTDConfig td) (mkTHConfig th IrIgnore None) 3).
Definition ble_start th td := ble_new 4 (km_new (ble_ctx th td) : keymap ref cctx cev cpks cks).
Definition ups := [false; false; false; false].
Definition dn0 := [true; false; false; false].
Definition dn1 := [false; true; false; false].
Definition dn2 := [false; false; true; false].
(** [n] units of time with the keys in a state, events handled at once. *)
Definition pass (raw : list bool) (n : nat) : list bl_step := concat (repeat (BlUnit :: repeat (BlTask raw true) 3) n).
Definition wake (raw : list bool) : list bl_step := [BlGpio; BlTask raw true].

Definition tap_run := wake dn0 ++ pass dn0 20 ++ pass ups 24.
Example C58_C60_example :
  returns (bl_run ble_conf 300 tap_run (ble_start 200 200))
    (fun s => bl_irq s = true /\ (length (bl_scans s) = 3)%nat /\ ble_events (bl_calls s) = [mkCEvent CPress 0; mkCEvent CRelease 0]
              /\ offered ChKb s = [[0;0;4;0;0;0;0;0]; [0;0;0;0;0;0;0;0]] /\ delivered ChKb s = offered ChKb s).
Proof. vm_compute. repeat split; reflexivity. Qed.
Lemma bl_returns {A} (m : res A) P : returns m P -> exists a, m = Ok a /\ P a.
Proof. destruct m as [a| |]; cbn; [eauto|tauto..]. Qed.
Lemma forall_steps (l : list bl_step) keys :
  forallb (fun a => match a with BlTask raw ok => Nat.eqb (length raw) keys && ok | _ => true end) l = true -> reads_keys keys l /\ all_succeed l.
Proof.
  rewrite forallb_forall. intros H. split; intros raw ok Hin; specialize (H _ Hin); apply andb_prop in H as [H1 H2]; [now apply Nat.eqb_eq|exact H2].
Qed.
Example tap_run_reads : reads_keys 4 tap_run /\ all_succeed tap_run.
Proof. apply forall_steps. vm_compute. reflexivity. Qed.
(** The hypotheses of the theorems above are met by [tap_run]: it is prompt, and reads four keys. *)
Fixpoint promptb {R Ctx Ev PKS KS} (conf : kconf R Ctx Ev PKS KS) (fuel : nat) (l : list bl_step) (s : ble) : bool :=
  match l with
  | [] => true
  | a :: t => match a with BlUnit => match bl_next s with None => true | _ => false end | _ => true end
              && match bl_do conf fuel s a with Ok s' => promptb conf fuel t s' | _ => true end
  end.
Lemma promptb_ok {R Ctx Ev PKS KS} (conf : kconf R Ctx Ev PKS KS) fuel l : forall s, promptb conf fuel l s = true -> bl_prompt conf fuel l s.
Proof.
  induction l as [|a l IH]; intros s H; cbn [promptb bl_prompt] in *; [exact I|]. apply andb_prop in H as [H1 H2]. split.
  - intros ->. destruct (bl_next s) eqn:E; [discriminate|]. now apply next_none.
  - destruct (bl_do conf fuel s a); auto.
Qed.
Example C59_prompt_example : bl_prompt ble_conf 300 tap_run (ble_start 200 200).
Proof. apply promptb_ok. vm_compute. reflexivity. Qed.
Example C59_scans_example :
  returns (bl_run ble_conf 300 (wake dn0 ++ pass dn0 2) (ble_start 200 200)) (fun s => bl_irq s = false /\ (length (bl_scans s) = 1)%nat) /\
  returns (bl_run ble_conf 300 (wake dn0 ++ pass dn0 15) (ble_start 200 200)) (fun s => bl_irq s = false /\ (length (bl_scans s) = 2)%nat).
Proof. vm_compute. repeat split; reflexivity. Qed.
Example C58_matrix_example :
  ble_scan_raw 2 2 (fun r c => Nat.eqb r 1 && Nat.eqb c 0) (fun r c => Some (2 * r + c)%nat) [false; false] [true; true; false; true]
  = Ok ([false; false], [false; false; true; false]).
Proof. vm_compute. reflexivity. Qed.
Example C61_clock_example :
  returns (bl_run ble_conf 300 tap_run (ble_start 200 200))
    (fun s => bl_now s = 44 /\ sc_counter (km_sched (bl_keymap s)) = 24 /\ bl_calls s
       = [BcAfter 0 (mkCEvent CPress 0); BcTick; BcEvent (mkCEvent CRelease 0); BcTick]).
Proof. vm_compute. repeat split; reflexivity. Qed.

(** C60, false if reports may fail: a report that fails is only sent again at the next
    change of the keys, so that a released key can stay down at the host. *)
Definition failing_run := wake dn0 ++ pass dn0 20 ++ concat (repeat (BlUnit :: repeat (BlTask ups false) 3) 20).
Lemma failing_fact : returns (bl_run ble_conf 300 failing_run (ble_start 200 200))
  (fun s => (bl_irq s = true /\ bl_set s (EvReport ChKb) = false /\ bl_timer s (EvReport ChKb) = None)
            /\ keys_down (last (bl_scans s) []) = 0%nat /\ host_has ChKb s = [0;0;4;0;0;0;0;0] /\ host_should ChKb s = [0;0;0;0;0;0;0;0]).
Proof. vm_compute. repeat split; reflexivity. Qed.
Theorem C60_failures_refuted :
  ~ (forall R Ctx Ev PKS KS (conf : kconf R Ctx Ev PKS KS) fuel keys k l s c,
      bl_run conf fuel l (ble_new keys k) = Ok s -> ~ due_evt (EvReport c) s -> host_has c s = host_should c s).
Proof.
  intros H. destruct (bl_returns _ _ failing_fact) as (s & E & (_ & D1 & D2) & _ & A & B).
  assert (X := H _ _ _ _ _ _ _ _ _ _ _ ChKb E). rewrite A, B in X. assert (Y : ~ due_evt (EvReport ChKb) s) by (unfold due_evt; rewrite D1, D2; intuition discriminate).
  specialize (X Y). discriminate.
Qed.
Print Assumptions C60_failures_refuted.

(** C61, false once timeouts are handled: a timeout started for one key takes the clock
    to that of the next.  A tap-hold key with a timeout of 32 ms turns to hold 12.5 ms
    after it is pressed. *)
Definition early_run := wake dn1 ++ pass dn1 10 ++ pass ups 16 ++ pass ups 10 ++ wake dn1 ++ pass dn1 20.
Lemma early_fact : returns (bl_run ble_conf 300 early_run (ble_start 32 200))
  (fun s => bl_now s = 56 /\ sc_counter (km_sched (bl_keymap s)) = 64 /\ (length (ble_events (bl_calls s)) = 3)%nat
            /\ offered ChKb s = [[0;0;4;0;0;0;0;0]; [0;0;0;0;0;0;0;0]; [1;0;0;0;0;0;0;0]]).
Proof. vm_compute. repeat split; reflexivity. Qed.
Theorem C61_clock_with_timeouts_refuted :
  ~ (forall R Ctx Ev PKS KS (conf : kconf R Ctx Ev PKS KS) fuel keys k l s,
      bl_run conf fuel l (ble_new keys k) = Ok s ->
      3 * sc_counter (km_sched (bl_keymap s)) <= 2 * bl_now s + 24 * N.of_nat (length (ble_events (bl_calls s)))).
Proof.
  intros H. destruct (bl_returns _ _ early_fact) as (s & E & A & B & C & _). assert (X := H _ _ _ _ _ _ _ _ _ _ _ E). rewrite A, B, C in X. lia.
Qed.
Print Assumptions C61_clock_with_timeouts_refuted.

(** C61, false: asleep, every event of the keymap has a timeout started.  A tap-dance key
    tapped while another key is held, and both released: it stays undecided, and the
    other key stays down at the host, until a key is pressed. *)
Definition dance_run := wake dn0 ++ pass dn0 2 ++ pass [true; false; true; false] 12 ++ pass dn0 12 ++ pass ups 40.
Lemma dance_fact : returns (bl_run ble_conf 300 dance_run (ble_start 200 200))
  (fun s => (bl_irq s = true /\ bl_set s EvTimeout = false /\ bl_timer s EvTimeout = None)
            /\ keys_down (last (bl_scans s) []) = 0%nat
            /\ sc_scheduled (km_sched (bl_keymap s)) <> [] /\ host_has ChKb s = [0;0;4;0;0;0;0;0]).
Proof. vm_compute. repeat split; discriminate. Qed.
Theorem C61_asleep_with_events_refuted :
  ~ (forall R Ctx Ev PKS KS (conf : kconf R Ctx Ev PKS KS) fuel keys k l s,
      bl_run conf fuel l (ble_new keys k) = Ok s -> bl_irq s = true ->
      sc_scheduled (km_sched (bl_keymap s)) = [] \/ due_evt EvTimeout s).
Proof.
  intros H. destruct (bl_returns _ _ dance_fact) as (s & E & (A & B & C) & _ & D & _).
  destruct (H _ _ _ _ _ _ _ _ _ _ _ E A) as [X|X]; [contradiction|]. unfold due_evt in X. rewrite B, C in X. intuition congruence.
Qed.
Print Assumptions C61_asleep_with_events_refuted.
(** C61: the state [C61_asleep_stuck] speaks of: a tap-dance key with a timeout of 20 ms,
    tapped; its timeout is 4 ms away and stays there. *)
Definition stuck_run := wake dn2 ++ pass dn2 2 ++ pass ups 60.
Example C61_stuck_example :
  returns (bl_run ble_conf 300 stuck_run (ble_start 200 20))
    (fun s => bl_irq s = true /\ next_event_time (km_sched (bl_keymap s)) = Ok (Some 4) /\ (exists t, bl_timer s EvTimeout = Some t)
              /\ (7 <= length (bl_calls s))%nat).
Proof. vm_compute. repeat split; [eexists; reflexivity|lia]. Qed.
