(** Theorems C48 and C49: the firmware loops and the switch matrix. *)
From Verif Require Import Base BaseFacts Output OutputFacts Types Scheduler Reporter DistinctReports
  ReporterFacts SpecReporter Keymap Observed Firmware SpecWrap WrapFacts FirmwareFacts FirmwareLive Samples.
From Verif Require Import SimpleKeys Composite SpecOutput.
Local Open Scope N_scope.

Lemma returns_ok {A} (m : res A) P : returns m P -> exists x, m = Ok x /\ P x.
Proof. destruct m; cbn; [eauto|contradiction|contradiction]. Qed.

(** C48 (embassy loop): whatever key events arrive and whichever writes fail, the
    keyboard reports the host receives are the reports the keymap computed, each
    exactly once and in order; only the latest can be still to be written, and
    then the keymap stands still. *)
Theorem C48_embassy_reports :
  forall R Ctx Ev PKS KS (conf : kconf R Ctx Ev PKS KS) fuel ms k s,
  embassy_run conf fuel ms (embassy_new (be_new k)) = Ok s ->
  exists outs,
    run_reporting conf fuel (fw_ops false ms) k = Ok (be_km (fw_be s), outs)
    /\ be_output (fw_be s) = last outs []
    /\ map as_hid_boot_keyboard_report outs
       = fw_kbd_sent s
         ++ (if fw_blocked false ms then [as_hid_boot_keyboard_report (be_output (fw_be s))] else []).
Proof.
  intros R Ctx Ev PKS KS conf fuel ms k s H.
  destruct (embassy_run_spec conf fuel ms false (embassy_new (be_new k)) s eq_refl H) as (outs & sent & Hr & Ho & _ & Hs & He).
  cbn in Hs. subst sent. exists outs. auto.
Qed.
Print Assumptions C48_embassy_reports.

(** C48 (RTIC loop): the same, for the sets of key codes; a report is left out only
    when it equals the one before it. *)
Theorem C48_rtic_reports :
  forall R Ctx Ev PKS KS (conf : kconf R Ctx Ev PKS KS) P (pack : list u8 -> P) fuel ms k s,
  honest_duplicates conf pack fuel ms (rtic_new (be_new k)) ->
  rtic_run conf fuel ms (rtic_new (be_new k)) = Ok s ->
  exists outs done pend,
    run_reporting conf fuel (fw_ops false ms) k = Ok (be_km (fw_be s), outs)
    /\ be_output (fw_be s) = last outs []
    /\ Forall2 (fun o c => pressed_key_codes o = Ok c) outs (done ++ pend)
    /\ (if fw_blocked false ms
        then exists c, pend = [c] /\ pressed_key_codes (be_output (fw_be s)) = Ok c
        else pend = [])
    /\ skips None (map pack done) (map pack (fw_kbd_sent s)).
Proof.
  intros R Ctx Ev PKS KS conf P pack fuel ms k s Hd H.
  destruct (rtic_run_spec conf pack fuel ms (rtic_new (be_new k)) s eq_refl eq_refl Hd H) as (outs & done & pend & Hr & Ho & _ & HF & Hp & Hsk).
  exists outs, done, pend. auto 7.
Qed.
Print Assumptions C48_rtic_reports.

(** C48: neither loop crashes where the keymap itself would not. *)
Theorem C48_no_crash :
  forall R Ctx Ev PKS KS (conf : kconf R Ctx Ev PKS KS) fuel ms ctx k' outs,
  run_reporting conf fuel (fw_ops false ms) (km_new ctx) = Ok (k', outs) ->
  (exists s, embassy_run conf fuel ms (embassy_new (be_new (km_new ctx))) = Ok s)
  /\ (exists s, rtic_run conf fuel ms (rtic_new (be_new (km_new ctx))) = Ok s).
Proof.
  intros R Ctx Ev PKS KS conf fuel ms ctx k' outs H.
  assert (Hre : reached conf fuel (km_new ctx)) by (exists [], ctx; reflexivity).
  split.
  - refine (embassy_live conf fuel ms false (embassy_new (be_new (km_new ctx))) k' outs _ _ _ _); cbn; auto. lia.
  - refine (rtic_live conf fuel ms false (rtic_new (be_new (km_new ctx))) k' outs _ _ _ _); cbn; auto. lia.
Qed.
Print Assumptions C48_no_crash.

(** C48: after a tick whose writes succeed the host is up to date: the last
    keyboard, mouse and consumer reports it has are those of the current output. *)
Theorem C48_host_up_to_date :
  forall R Ctx Ev PKS KS (conf : kconf R Ctx Ev PKS KS) fuel ms w k s,
  wr_kbd w = KwOk -> wr_mouse w = true -> wr_consumer w = true ->
  embassy_run conf fuel (ms ++ [MsgTick w]) (embassy_new (be_new k)) = Ok s ->
  let out := be_output (fw_be s) in
  last (fw_kbd_sent s) zero_report = as_hid_boot_keyboard_report out
  /\ last (fw_mouse_sent s) mouse_none = pressed_mouse_output out
  /\ exists codes, pressed_consumer_codes out = Ok codes
       /\ last (fw_consumer_sent s) [0] = [match codes with c :: _ => c | [] => 0 end].
Proof.
  intros R Ctx Ev PKS KS conf fuel ms w k s Hk Hm Hc H out.
  pose proof H as Hall. unfold embassy_run in H. rewrite fold_res_app in H.
  fold (embassy_run conf fuel ms (embassy_new (be_new k))) in H.
  destruct (embassy_run conf fuel ms (embassy_new (be_new k))) as [s1| |] eqn:E1; cbn [bind] in H; try discriminate.
  cbn [fold_res embassy_step] in H. destruct (embassy_tick conf fuel w s1) as [s2| |] eqn:E2; cbn [bind] in H; try discriminate.
  inversion H; subst s2. clear H.
  destruct (embassy_mouse_inv conf fuel ms (embassy_new (be_new k)) s1 mouse_none [0] eq_refl eq_refl E1) as [Im Ic].
  destruct (embassy_tick_spec conf fuel w (negb (fw_ok s1)) s1 s (eq_sym (negb_involutive _)) E2)
    as (outs & codes & _ & _ & _ & _ & Hs & Hcodes & Hm' & Hc').
  cbv zeta in *. split; [|split].
  - unfold blk in Hs. rewrite Hk in Hs. rewrite Hs, last_last. reflexivity.
  - destruct Hm' as [[_ ->]|(_ & -> & He)]; [now rewrite last_last|]. rewrite <- Im. now apply He.
  - exists codes. split; [exact Hcodes|]. destruct Hc' as [[_ ->]|(_ & -> & He)]; [now rewrite last_last|].
    rewrite <- Ic. now apply He.
Qed.
Print Assumptions C48_host_up_to_date.

Definition mouse_refs : list ref := [kA; RMouse MsCursorRight; kB; RConsumer (CnUsageCode 9)].
Definition mouse_sample : kconf ref cctx cev cpks cks := cconf mouse_refs sample_data bs_std false.

Example C48_example :
  returns (embassy_run mouse_sample 300
             [MsgEvent (Press 0); good_tick; MsgEvent (Press 3); blocked_tick; MsgEvent (Release 0);
              blocked_tick; good_tick; good_tick; good_tick]
             (embassy_new (be_new (km_new sample_ctx))))
    (fun s => fw_kbd_sent s = [[0;0;4;0;0;0;0;0]; [0;0;4;0;0;0;0;0]; [0;0;0;0;0;0;0;0]; [0;0;0;0;0;0;0;0]]
              /\ fw_consumer_sent s = [[9]])
  /\ returns (rtic_run mouse_sample 300
             [MsgEvent (Press 0); good_tick; MsgEvent (Press 1); blocked_tick;
              MsgTick (mkWrites KwDuplicate true true); good_tick]
             (rtic_new (be_new (km_new sample_ctx))))
    (fun s => fw_kbd_sent s = [[4]; [4]]).
Proof. split; vm_compute; repeat split; reflexivity. Qed.

(** C48, false in full for mouse movement: one computed movement can reach the
    host several times, because the keymap stands still while the keyboard report
    is blocked but the mouse report is sent every time. *)
Theorem C48_mouse_moves_once_refuted :
  ~ (forall R Ctx Ev PKS KS (conf : kconf R Ctx Ev PKS KS) fuel ms k s outs k',
      embassy_run conf fuel ms (embassy_new (be_new k)) = Ok s ->
      run_reporting conf fuel (fw_ops false ms) k = Ok (k', outs) ->
      (length (fw_mouse_sent s) <= length outs)%nat).
Proof.
  set (ms := [MsgEvent (Press 1); blocked_tick; blocked_tick; blocked_tick; good_tick]).
  assert (E : returns (embassy_run mouse_sample 300 ms (embassy_new (be_new (km_new sample_ctx))))
                (fun s => length (fw_mouse_sent s) = 4%nat
                  /\ Forall (fun m => m = mkMouse 0 5 0 0 0) (fw_mouse_sent s)))
    by (vm_compute; repeat split; repeat constructor).
  assert (E' : returns (run_reporting mouse_sample 300 (fw_ops false ms) (km_new sample_ctx))
                (fun r => length (snd r) = 1%nat)) by (vm_compute; reflexivity).
  intros H. apply returns_ok in E as (s & E1 & E & _). apply returns_ok in E' as ([k' outs] & E2 & E').
  specialize (H _ _ _ _ _ _ _ _ _ _ _ _ E1 E2). cbn [snd] in E'. rewrite E, E' in H. lia.
Qed.
Print Assumptions C48_mouse_moves_once_refuted.

(** C48, false in full for key releases: inputs that arrive while the keyboard
    report is blocked wait in the keymap's queue, and are dropped when it is full;
    a key released then stays down for the host although every key was released
    and every later write succeeds. *)
Theorem C48_released_after_block_refuted :
  ~ (forall R Ctx Ev PKS KS (conf : kconf R Ctx Ev PKS KS) fuel ms ctx s,
      held_keys ms = [] ->
      embassy_run conf fuel (ms ++ repeat good_tick 80) (embassy_new (be_new (km_new ctx))) = Ok s ->
      last (fw_kbd_sent s) zero_report = zero_report).
Proof.
  set (ms := [MsgEvent (Press 0); good_tick; blocked_tick]
             ++ concat (repeat [MsgEvent (Press 2); MsgEvent (Release 2)] 16) ++ [MsgEvent (Release 0)]).
  assert (E : returns (embassy_run mouse_sample 300 (ms ++ repeat good_tick 80) (embassy_new (be_new (km_new sample_ctx))))
                (fun s => last (fw_kbd_sent s) zero_report = [0;0;4;0;0;0;0;0])) by (vm_compute; reflexivity).
  assert (Hh : held_keys ms = []) by (vm_compute; reflexivity).
  intros H. apply returns_ok in E as (s & E1 & E).
  specialize (H _ _ _ _ _ _ _ _ _ _ Hh E1). rewrite E in H. discriminate.
Qed.
Print Assumptions C48_released_after_block_refuted.

(** C49: a scan of the matrix that meets no pin error reports exactly the closed
    switches, and leaves every row unselected. *)
Theorem C49_scan : forall rows cols closed m,
  mx_low m = repeat false rows ->
  exists keys, mx_get rows cols closed (fun _ => false) m = (m, PinOk keys)
    /\ length keys = rows
    /\ forall r c, (r < rows)%nat -> (c < cols)%nat ->
         exists row, nth_error keys r = Some row /\ length row = cols /\ nth_error row c = Some (closed r c).
Proof.
  intros rows cols closed m Hh. unfold mx_get.
  rewrite (scan_rows_high rows cols closed 0 0 rows m [] eq_refl Hh). eexists. split; [reflexivity|].
  cbn [app]. split; [rewrite map_length, seq_length; reflexivity|].
  intros r c Hr Hc. exists (map (closed r) (seq 0 cols)). rewrite map_length, seq_length.
  split; [|split; [reflexivity|]].
  - rewrite nth_error_map, (nth_error_nth' _ 0%nat) by (rewrite seq_length; lia). rewrite seq_nth by lia. reflexivity.
  - rewrite nth_error_map, (nth_error_nth' _ 0%nat) by (rewrite seq_length; lia). rewrite seq_nth by lia. reflexivity.
Qed.
Print Assumptions C49_scan.

(** C49: a new matrix has every row unselected, whatever state the pins were in. *)
Theorem C49_new : forall rows m,
  length (mx_low m) = rows ->
  exists m', mx_new rows (fun _ => false) m = PinOk m' /\ mx_low m' = repeat false rows.
Proof.
  intros rows m H. apply (clear_rows_ok rows (fun _ _ => false) 0%nat 0%nat rows m eq_refl). exists (mx_low m). auto.
Qed.
Print Assumptions C49_new.

(** C49: the boot key is the switch at row 0, column 0. *)
Theorem C49_boot_key : forall rows closed m,
  (0 < rows)%nat -> mx_low m = repeat false rows ->
  mx_boot_key rows closed (fun _ => false) m = Ok (m, closed 0%nat 0%nat).
Proof. intros rows closed m. exact (boot_key_ok rows 0%nat closed m). Qed.
Print Assumptions C49_boot_key.

(** C49: after a scan that failed anywhere, the next scan that meets no error
    leaves every row unselected again, so that the one after it is right. *)
Theorem C49_recovers : forall rows cols closed fails closed' m m1,
  length (mx_low m) = rows ->
  fst (mx_get rows cols closed fails m) = m1 ->
  exists m2 keys, mx_get rows cols closed' (fun _ => false) m1 = (m2, PinOk keys)
    /\ mx_low m2 = repeat false rows.
Proof.
  intros rows cols closed fails closed' m m1 Hl <-. unfold mx_get at 1.
  apply scan_rows_restores; [reflexivity|]. exists (mx_low (fst (mx_get rows cols closed fails m))). split; [reflexivity|].
  unfold mx_get. rewrite scan_rows_length. exact Hl.
Qed.
Print Assumptions C49_recovers.

(** C49, false in full: the scan right after a failed one can report a key that is
    not pressed, because the failed scan leaves its row selected. *)
Theorem C49_scan_after_error_refuted :
  ~ (forall rows cols closed fails m m1 m2 keys r c row,
      mx_low m = repeat false rows ->
      mx_get rows cols closed fails m = (m1, PinErr) ->
      mx_get rows cols closed (fun _ => false) m1 = (m2, PinOk keys) ->
      nth_error keys r = Some row -> nth_error row c = Some true -> closed r c = true).
Proof.
  intros H.
  specialize (H 2%nat 1%nat (fun r _ => (r =? 1)%nat) (fun n => (n =? 4)%nat) (mkMatrix [false; false])
                (mkMatrix [false; true]) (mkMatrix [false; false]) [[true]; [true]] 0%nat 0%nat [true]
                eq_refl eq_refl eq_refl eq_refl eq_refl).
  discriminate.
Qed.
Print Assumptions C49_scan_after_error_refuted.

(** C49: up to eight debounced events of one scan are handed on, unchanged; nine
    crash the firmware. *)
Theorem C49_events : forall evs,
  (length evs <= 8)%nat /\ kb_events evs = Ok evs \/ (8 < length evs)%nat /\ kb_events evs = Panic.
Proof.
  intros evs. destruct (le_lt_dec (length evs) 8) as [H|H]; [left|right]; (split; [exact H|]).
  - unfold kb_events. rewrite push_all_cap_total by (cbn; unfold KEYBOARD_EVENTS_CAPACITY; lia). reflexivity.
  - unfold kb_events. apply push_all_cap_panic; cbn; unfold KEYBOARD_EVENTS_CAPACITY; lia.
Qed.
Print Assumptions C49_events.

(** C49: one iteration of the loop hands on the mapped events of the scan in
    order, then a tick. *)
Theorem C49_iteration : forall indices evs w ms,
  scan_messages indices evs w = Ok ms ->
  exists mapped, Forall2 (fun ev o => keymap_index_of indices ev = Ok o) evs mapped
    /\ ms = map MsgEvent (filter_map (fun o => o) mapped) ++ [MsgTick w].
Proof.
  intros indices evs w ms H. unfold scan_messages in H.
  destruct (C49_events evs) as [[Hl E]|[Hl E]]; rewrite E in H; cbn [bind] in H; [|discriminate]. clear E Hl.
  assert (G : forall evs acc ms,
    fold_res (fun acc ev => let! o := keymap_index_of indices ev in
                            Ok (match o with Some e => acc ++ [MsgEvent e] | None => acc end)) evs acc = Ok ms ->
    exists mapped, Forall2 (fun ev o => keymap_index_of indices ev = Ok o) evs mapped
      /\ ms = acc ++ map MsgEvent (filter_map (fun o => o) mapped)).
  { clear. induction evs as [|ev evs IH]; intros acc ms H; cbn [fold_res] in H.
    - inversion H; subst. exists []. split; [constructor|]. cbn. now rewrite app_nil_r.
    - destruct (keymap_index_of indices ev) as [o| |] eqn:E; cbn [bind] in H; try discriminate.
      destruct (IH _ _ H) as (mapped & HF & ->). exists (o :: mapped). split; [constructor; auto|].
      destruct o; cbn; [now rewrite <- app_assoc|reflexivity]. }
  destruct (fold_res _ evs []) as [ms0| |] eqn:E0 in H; cbn [bind] in H; try discriminate. inversion H; subst.
  destruct (G _ _ _ E0) as (mapped & HF & ->). exists mapped. auto.
Qed.
Print Assumptions C49_iteration.

Example C49_example :
  mx_get 2 3 (fun r c => ((r =? 1) && (c =? 2) || (r =? 0) && (c =? 0))%nat) (fun _ => false) (mkMatrix [false; false])
  = (mkMatrix [false; false], PinOk [[true; false; false]; [false; false; true]])
  /\ mx_new 2 (fun _ => false) (mkMatrix [true; true]) = PinOk (mkMatrix [false; false])
  /\ scan_messages [[Some 0; None]; [Some 1; Some 2]] [LPress 1 1; LPress 0 1; LRelease 0 0] (mkWrites KwOk true true)
     = Ok [MsgEvent (Press 2); MsgEvent (Release 0); good_tick].
Proof. repeat split; reflexivity. Qed.
