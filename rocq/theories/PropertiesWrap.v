(** Theorems C47: the wrappers around the keymap used by the tests
    ([ObservedKeymap]) and by the firmware ([KeyboardBackend]). *)
From Verif Require Import Base BaseFacts Output OutputFacts Types Scheduler Reporter DistinctReports
  ReporterFacts SpecReporter Keymap Observed Firmware SpecWrap WrapFacts FirmwareFacts Samples.
Local Open Scope N_scope.

(** C47: an observed keymap does exactly what the keymap does under the same
    calls (an input followed by one tick, a report after every step), crashes
    included, and its record is the all-zero report followed by the changes in
    the boot reports taken. *)
Theorem C47_observed :
  forall R Ctx Ev PKS KS (conf : kconf R Ctx Ev PKS KS) fuel calls k,
  obs_run conf fuel calls (obs_new k)
  = let! (k', outs) := run_reporting conf fuel (flat_map obs_ops calls) k in
    Ok (mkObs k' (zero_report :: changes zero_report (map as_hid_boot_keyboard_report outs))).
Proof.
  intros. unfold obs_new. rewrite obs_run_eq. apply bind_ext. intros [k' outs].
  unfold seen. now rewrite <- dr_run_eq.
Qed.
Print Assumptions C47_observed.

(** ... where running with reports collected is running: *)
Theorem C47_collecting_is_running :
  forall R Ctx Ev PKS KS (conf : kconf R Ctx Ev PKS KS) fuel ops k,
  run_ops conf fuel ops k = let! (k', outs) := run_reporting conf fuel ops k in Ok k'.
Proof. exact @run_reporting_run. Qed.
Print Assumptions C47_collecting_is_running.

(** ... and taking reports does not disturb the keymap: without the reports the
    run ends in the same keymap, up to what the reporter remembers. *)
Theorem C47_reports_do_not_disturb :
  forall R Ctx Ev PKS KS (conf : kconf R Ctx Ev PKS KS) fuel ops k k1,
  run_ops conf fuel ops k = Ok k1 ->
  exists k2, run_ops conf fuel (filter (fun o => negb (is_report o)) ops) k = Ok k2 /\ same_but_reporter k1 k2.
Proof. intros. eapply run_ops_without_reports; eauto. reflexivity. Qed.
Print Assumptions C47_reports_do_not_disturb.

(** C47: ticking until nothing is scheduled stops at the first moment nothing is. *)
Theorem C47_tick_until :
  forall R Ctx Ev PKS KS (conf : kconf R Ctx Ev PKS KS) fuel n o o',
  obs_tick_until conf fuel n o = Ok o' ->
  (exists m, (m <= n)%nat
     /\ obs_run conf fuel (repeat ObTick m) o = Ok o'
     /\ km_has_scheduled_events (ob_km o') = false
     /\ forall j oj, (j < m)%nat -> obs_run conf fuel (repeat ObTick j) o = Ok oj ->
          km_has_scheduled_events (ob_km oj) = true)
  /\ (forall n', (n <= n')%nat -> obs_tick_until conf fuel n' o = Ok o').
Proof.
  intros. split; [now apply tick_until_spec|]. intros n' Hn. now apply (tick_until_more conf fuel n).
Qed.
Print Assumptions C47_tick_until.

Example C47_observed_example :
  returns (obs_run sample 300 [ObInput (Press 0); ObInput (Press 1); ObTick; ObInput (Release 0); ObInputAfter 3 (Release 1); ObTickToNext]
             (obs_new (km_new sample_ctx)))
    (fun o => ob_reports o = [zero_report; [0;0;4;0;0;0;0;0]; [0;0;4;5;0;0;0;0]; [0;0;5;0;0;0;0;0]; zero_report])
  /\ returns (let! o := obs_run sample 300 [ObInput (Press 8)] (obs_new (km_new sample_ctx)) in obs_tick_until sample 300 60 o)
    (fun o => ob_reports o = [zero_report; [0;0;4;0;0;0;0;0]; zero_report; [0;0;5;0;0;0;0;0]; zero_report]).
Proof. split; vm_compute; reflexivity. Qed.

(** C47: the keyboard backend does what the keymap does under the same calls,
    holds the output of the latest tick, and [tick] returns whether the output
    changed. *)
Theorem C47_backend :
  forall R Ctx Ev PKS KS (conf : kconf R Ctx Ev PKS KS) fuel calls k,
  (forall b changes, be_run conf fuel calls (be_new k) = Ok (b, changes) ->
     exists outs, run_reporting conf fuel (flat_map be_ops calls) k = Ok (be_km b, outs)
       /\ be_output b = last outs [] /\ changed [] outs changes)
  /\ (forall k' outs, run_reporting conf fuel (flat_map be_ops calls) k = Ok (k', outs) ->
     exists b changes, be_run conf fuel calls (be_new k) = Ok (b, changes)).
Proof.
  intros. unfold be_run, be_new. rewrite be_run_eq. split.
  - intros b fl H. destruct (run_reporting conf fuel (flat_map be_ops calls) k) as [[k' outs]| |]; cbn in H; try discriminate.
    inversion H; subst. exists outs. repeat split. apply flags_changed.
  - intros k' outs ->. cbn. eauto.
Qed.
Print Assumptions C47_backend.

Example C47_backend_example :
  returns (be_run sample 300 [BeEvent (Press 0); BeTick; BeTick; BeEvent (Release 0); BeTick; BeTick] (be_new (km_new sample_ctx)))
    (fun r => snd r = [true; false; true; false] /\ be_output (fst r) = []).
Proof. vm_compute; repeat split; reflexivity. Qed.

(** C47: a key of the matrix gives the press and the release of one and the same
    keymap index, or nothing at all. *)
Theorem C47_coordinates : forall indices r c row o,
  nth_error indices (N.to_nat r) = Some row -> nth_error row (N.to_nat c) = Some o ->
  keymap_index_of indices (LPress r c) = Ok (option_map Press o)
  /\ keymap_index_of indices (LRelease r c) = Ok (option_map Release o).
Proof.
  intros indices r c row o H1 H2. pose proof (keymap_index_of_spec indices r c) as H. rewrite H1, H2 in H. exact H.
Qed.
Print Assumptions C47_coordinates.

Example C47_coordinates_example :
  nth_error [[Some 0; None]; [Some 1; Some 2]] (N.to_nat 1) = Some [Some 1; Some 2]
  /\ nth_error [Some 1; Some 2] (N.to_nat 1) = Some (Some 2)
  /\ keymap_index_of [[Some 0; None]; [Some 1; Some 2]] (LRelease 1 1) = Ok (Some (Release 2))
  /\ keymap_index_of [[Some 0; None]; [Some 1; Some 2]] (LPress 0 1) = Ok None.
Proof. repeat split; reflexivity. Qed.
