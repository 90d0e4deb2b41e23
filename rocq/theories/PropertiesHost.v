(** C82: from the switches to the USB host, with any keymap. *)
From Verif Require Import BaseFacts Output Types Slice Split Scheduler Reporter Keymap SimpleKeys TapHold TapDance Sticky CapsWord Layered Automation Chorded Composite Samples SpecScheduler SpecOutput SpecReporter SpecKeymap KeymapInv KeymapQueue KeymapApi
  SpecPlain PlainFacts SpecLayer SpecBoard BoardFacts CApi CReport SpecCReport CReportFacts CReportLive CCalls SpecCCalls CCallsFacts
  CFirmware SpecCFirmware CFirmwareFacts CKeyboard SpecCKeyboard CKeyboardFacts PropertiesReporter PropertiesCCalls PropertiesCFirmware PropertiesCKeyboard SpecHost HostFacts.
Local Open Scope N_scope.

Lemma host_sees_raw :
  forall R Ctx Ev PKS KS (conf : kconf R Ctx Ev PKS KS) fuel ctx rows cols keys idx bootloader closed0 closed l1 l2 l3 s0 s2 s quiet kos,
  N.of_nat keys <= 65536 -> wiring_ok rows cols keys idx ->
  let run := fw_run conf fuel rows cols idx in
  fw_start rows keys bootloader closed0 (km_new ctx) = Ok (Some s0) ->
  run (l1 ++ l2) s0 = Ok s2 -> run l3 s2 = Ok s -> fw_all_calm conf fuel rows cols idx (l1 ++ l2 ++ l3) s0 ->
  steady rows cols closed l2 -> steady rows cols closed l3 -> (6 <= length (switches l2))%nat ->
  comes_to conf fuel quiet (rl_keymap (fw_loop s2)) kos -> (reports s2 + quiet + 16 <= reports s)%nat ->
  host_sees kos s /\ km_pressed_keys conf (rl_keymap (fw_loop s)) = Ok kos.
Proof.
  intros R Ctx Ev PKS KS conf fuel ctx rows cols keys idx bl closed0 closed l1 l2 l3 s0 s2 s quiet kos B W run Hs H2 H3 C S2 S3 L6 Hq Hm. subst run.
  destruct (fw_started conf fuel rows keys bl _ _ _ Hs) as (k0 & E0 & Hmx & Hlp).
  destruct (no_events conf fuel rows cols keys idx closed0 k0 l1 l2 l3 s0 s2 s closed W B Hmx Hlp H2 H3 S2 S3 L6) as (m & Em).
  assert (C' := C). rewrite app_assoc, fcalm_app in C'. destruct C' as (C2 & C3). rewrite H2 in C3.
  destruct (fw_reach conf fuel rows cols keys idx closed0 k0 s0 _ s2 Hmx Hlp H2) as ((_ & _ & _ & P2) & Q2). destruct (Q2 C2) as (O2 & _).
  assert (H23 : fw_run conf fuel rows cols idx (l1 ++ l2 ++ l3) s0 = Ok s) by (rewrite app_assoc, frun_app, H2; exact H3).
  destruct (fw_reach conf fuel rows cols keys idx closed0 k0 s0 _ s Hmx Hlp H23) as ((_ & _ & _ & P3) & Q3). destruct (Q3 C) as (O3 & _).
  (* as many ticks as reports *)
  assert (Hm48 : (quiet + 16 <= m)%nat).
  { unfold reports in Hm. pose proof P3 as P. rewrite Em, plain_calls_app, P2 in P. cbn [bind] in P. inv_bind P. destruct a as [kx rs]. injection P as _ Ers.
    assert (X : length rs = m).
    { clear -E. revert kx rs E. generalize (rl_keymap (fw_loop s2)). induction m as [|m IH]; intros kz kx rs E; cbn [repeat plain_calls] in E; [now injection E as _ <-|].
      inv_bind E. destruct a as [k1 r]. inv_bind E. destruct a as [k2 rs']. injection E as _ <-. cbn. f_equal. eapply IH. exact E1. }
    rewrite <- Ers, app_length in Hm. lia. }
  destruct m as [|m]; [lia|].
  assert (Er : @repeat c_call CallTick (S m) = repeat CallTick m ++ [CallTick]) by (rewrite <- repeat_cons; reflexivity).
  rewrite Er in Em.
  destruct (fw_parts conf fuel rows cols idx l3 s2 s H3) as (evs3 & rl & _ & P4 & _ & P5). specialize (P5 C3).
  destruct (last_tick conf fuel rl _ _ _ P4 Em) as (la & evs & lb & sm & sm' & -> & G1 & G2 & G3 & G4 & G5 & G6 & G7).
  (* the tick before the last *)
  assert (Evs : evs = []).
  { rewrite G4, Em, app_assoc in G7. apply app_inj_tail in G7 as [G7 _]. destruct evs as [|e evs _] using rev_ind; [reflexivity|].
    rewrite map_app, app_assoc in G7. cbn in G7. destruct m as [|m]; [lia|].
    assert (Er' : @repeat c_call CallTick (S m) = repeat CallTick m ++ [CallTick]) by (rewrite <- repeat_cons; reflexivity).
    rewrite Er', app_assoc in G7. apply app_inj_tail in G7 as [_ G7]. discriminate. }
  subst evs. cbn [map] in G7. rewrite app_nil_r in G7.
  assert (Gc : rl_calls sm = rl_calls (fw_loop s2) ++ repeat CallTick m).
  { rewrite G4, Em, app_assoc in G7. apply app_inj_tail in G7 as [G7 _]. now symmetry. }
  assert (Pm : rl_plain conf fuel k0 sm) by (eapply rl_run_plain; [exact P2|exact G1]).
  assert (Cm : rl_all_calm conf fuel la (fw_loop s2)).
  { clear -P5. revert P5. generalize (fw_loop s2). induction la as [|a la IH]; intros t H; cbn [app rl_all_calm] in *; [exact Logic.I|].
    destruct H as [H1 H2']. split; [exact H1|]. destruct (rl_do conf fuel t a); auto. }
  assert (Om : rl_ok sm) by (eapply rl_run_ok; [exact O2|exact Cm|exact G1]).
  assert (Dm : forall c, resends c = false -> due c sm = received c sm).
  { intros c Hc. cbn [rl_do] in G2. unfold rl_timer in G2. inv_bind G2. destruct (_ && _) eqn:G; [|injection G2 as <-; contradiction].
    apply andb_prop in G as [G _]. apply andb_prop in G as [Ga Gb]. rewrite bytes_eqb_spec in Ga, Gb. apply rl_ok_same; [exact Om|exact Hc|]. destruct c; [exact Ga|discriminate|exact Gb]. }
  (* what the last two reports show *)
  assert (Ek0 : reached conf fuel ctx k0) by (exists (start_ops bl); exact E0).
  assert (Ek2 : run_ops conf fuel (ops_of (rl_calls (fw_loop s2))) k0 = Ok (rl_keymap (fw_loop s2))) by (eapply plain_calls_ops; exact P2).
  assert (Rep : forall n k, (quiet + 15 <= n)%nat -> run_ops conf fuel (ops_of (rl_calls (fw_loop s2) ++ repeat CallTick n)) k0 = Ok k ->
    rep_reportable (km_rep k) = kos /\ km_pressed_keys conf k = Ok kos).
  { intros n k Hn E. rewrite ops_of_app, ops_of_ticks in E. unfold run_ops in E, Ek2. rewrite fold_res_app, Ek2 in E.
    eapply steady_report; [eapply reached_ops; [exact Ek0|exact Ek2]|exact Hq|exact Hn|exact E]. }
  unfold rl_plain in Pm. rewrite Gc in Pm. rewrite Em, <- Er in P3.
  destruct (Rep m (rl_keymap sm)) as (Hr1 & _); [lia|eapply plain_calls_ops; exact Pm|].
  destruct (Rep (S m) (rl_keymap (fw_loop s))) as (Hrp & Hfin); [lia|eapply plain_calls_ops; exact P3|].
  rewrite Er, app_assoc in P3. destruct (plain_calls_last conf fuel _ _ _ _ _ Ek0 P3) as (rs & r & Ers & Hsh).
  destruct m as [|m]; [lia|]. assert (Er' : @repeat c_call CallTick (S m) = repeat CallTick m ++ [CallTick]) by (rewrite <- repeat_cons; reflexivity).
  rewrite Er', app_assoc in Pm. destruct (plain_calls_last conf fuel _ _ _ _ _ Ek0 Pm) as (rs1 & r1 & Ers1 & Hsh1).
  rewrite Hrp in Hsh. rewrite Hr1 in Hsh1. destruct (shows_parts _ _ _ Hsh Hsh1) as (Ep1 & Ep2).
  (* the host has them *)
  assert (Em' : rl_made (fw_loop s) = rl_made sm ++ [r]).
  { rewrite <- G5. cbn [rl_do] in G2. unfold rl_timer in G2. inv_bind G2. destruct (_ && _); [|injection G2 as <-; contradiction]. inv_bind G2. destruct a0 as [k2 r2]. injection G2 as <-.
    cbn [rl_made] in *. rewrite Ers in G5. apply app_inj_tail in G5 as [_ G5]. now rewrite G5. }
  assert (Fin : forall c, resends c = false -> part c r = part c r1 -> last (received c (fw_loop s)) (repeat 0 (part_len c)) = part c r).
  { intros c Hc Hp.
    assert (El : forall z, last (map (part c) (rl_made sm)) z = part c r1) by (intros z; rewrite Ers1, map_app; cbn [map]; apply last_last).
    assert (Ed : due c (fw_loop s) = due c sm).
    { unfold due. rewrite Em', map_app. cbn [map]. rewrite news_snoc, El, Hp, bytes_eqb_refl. apply app_nil_r. }
    destruct (rl_ok_waiting _ _ O3 Hc) as (w & Ew & _).
    assert (Gr : exists more, received c (fw_loop s) = received c sm ++ more).
    { apply (received_grow conf fuel c (RlTimer [] :: lb)). unfold rl_run in *. cbn [fold_res]. rewrite G2. exact G3. }
    destruct Gr as (more & Gr). rewrite Ed, (Dm c Hc), Gr, <- app_assoc in Ew.
    assert (Z : more ++ w = []) by (apply (app_inv_head (received c sm)); rewrite app_nil_r; now symmetry).
    apply app_eq_nil in Z as [-> _]. rewrite Gr, app_nil_r, <- (Dm c Hc). unfold due. rewrite last_news, El. now symmetry. }
  split; [|exact Hfin].
  pose proof (Fin ChKb eq_refl Ep1) as F1. pose proof (Fin ChCon eq_refl Ep2) as F2. cbn [part part_len] in F1, F2.
  destruct Hsh as (A1 & _ & _ & A2 & _ & A3). unfold host_sees. rewrite F1, F2. split; [exact A1|]. split; [exact A2|].
  intros j Hj. specialize (A3 j Hj). apply nth_error_nth. exact A3.
Qed.

(** *** From one state to the other there are only ticks *)
Lemma only_ticks R Ctx Ev PKS KS (conf : kconf R Ctx Ev PKS KS) fuel rows cols keys idx bl ctx closed scans s2 s :
  N.of_nat keys <= 65536 -> wiring_ok rows cols keys idx -> held_still conf fuel rows cols keys idx bl ctx closed scans s2 s ->
  exists k0 m, fw_first conf fuel bl ctx k0 /\ fw_ops s = fw_ops s2 ++ polls m /\ (reports s = reports s2 + m)%nat
  /\ run_ops conf fuel (fw_ops s2) k0 = Ok (rl_keymap (fw_loop s2)) /\ run_ops conf fuel (polls m) (rl_keymap (fw_loop s2)) = Ok (rl_keymap (fw_loop s))
  /\ run_ops conf fuel (fw_ops s) k0 = Ok (rl_keymap (fw_loop s)) /\ typed rows cols keys idx scans (fw_inputs s).
Proof.
  intros B W (closed0 & l1 & l2 & l3 & s0 & Hs & H2 & H3 & C & S2 & L6 & S3 & ->).
  destruct (fw_started conf fuel rows keys bl _ _ _ Hs) as (k0 & E0 & Hmx & Hlp).
  destruct (no_events conf fuel rows cols keys idx closed0 k0 l1 l2 l3 s0 s2 s closed W B Hmx Hlp H2 H3 S2 S3 L6) as (m & Em).
  destruct (fw_reach conf fuel rows cols keys idx closed0 k0 s0 _ s2 Hmx Hlp H2) as ((_ & _ & _ & P2) & _).
  assert (H23 : fw_run conf fuel rows cols idx (l1 ++ l2 ++ l3) s0 = Ok s) by (rewrite app_assoc, frun_app, H2; exact H3).
  destruct (fw_reach conf fuel rows cols keys idx closed0 k0 s0 _ s Hmx Hlp H23) as ((_ & _ & _ & P3) & _).
  assert (Eo : fw_ops s = fw_ops s2 ++ polls m).
  { unfold fw_ops. fold (ops_of (rl_calls (fw_loop s))). fold (ops_of (rl_calls (fw_loop s2))). rewrite Em, ops_of_app, ops_of_ticks. reflexivity. }
  exists k0, m. split; [exact E0|]. split; [exact Eo|].
  assert (K2 : run_ops conf fuel (fw_ops s2) k0 = Ok (rl_keymap (fw_loop s2))) by (eapply plain_calls_ops; exact P2).
  assert (K3 : run_ops conf fuel (fw_ops s) k0 = Ok (rl_keymap (fw_loop s))) by (eapply plain_calls_ops; exact P3).
  split.
  { unfold reports. pose proof P3 as P. unfold rl_plain in P, P2. rewrite Em, plain_calls_app, P2 in P. cbn [bind] in P. inv_bind P. destruct a as [kx rs]. injection P as _ Ers.
    assert (X : length rs = m).
    { clear -E. revert kx rs E. generalize (rl_keymap (fw_loop s2)). induction m as [|m IH]; intros kz kx rs E; cbn [repeat plain_calls] in E; [now injection E as _ <-|].
      inv_bind E. destruct a as [k1 r]. inv_bind E. destruct a as [k2 rs']. injection E as _ <-. cbn. f_equal. eapply IH. exact E1. }
    rewrite <- Ers, app_length. lia. }
  split; [exact K2|]. split; [|split; [exact K3|]].
  - rewrite Eo in K3. unfold run_ops in K2, K3. rewrite fold_res_app, K2 in K3. exact K3.
  - eapply C67_passed; eassumption.
Qed.

(** C82: whatever the keys are: when the keymap, left alone, comes to put out [kos], and
    the switches are held still for six scans and then for 16 reports more than it takes
    to come to that, the host sees [kos]. *)
Theorem C82_host_sees :
  forall R Ctx Ev PKS KS (conf : kconf R Ctx Ev PKS KS) fuel rows cols keys idx bootloader ctx closed scans s2 s quiet kos,
  N.of_nat keys <= 65536 -> wiring_ok rows cols keys idx ->
  held_still conf fuel rows cols keys idx bootloader ctx closed scans s2 s ->
  comes_to conf fuel quiet (rl_keymap (fw_loop s2)) kos -> (reports s2 + quiet + 16 <= reports s)%nat ->
  host_sees kos s /\ km_pressed_keys conf (rl_keymap (fw_loop s)) = Ok kos.
Proof.
  intros R Ctx Ev PKS KS conf fuel rows cols keys idx bl ctx closed scans s2 s quiet kos B W (closed0 & l1 & l2 & l3 & s0 & Hs & H2 & H3 & C & S2 & L6 & S3 & ->) Hq Hm.
  exact (host_sees_raw R Ctx Ev PKS KS conf fuel ctx rows cols keys idx bl closed0 closed l1 l2 l3 s0 s2 s quiet kos B W Hs H2 H3 C S2 S3 L6 Hq Hm).
Qed.

(** C82: in particular, when the keymap comes to rest, the host sees what it puts out
    then, and it stays at rest. *)
Theorem C82_at_rest :
  forall R Ctx Ev PKS KS (conf : kconf R Ctx Ev PKS KS) fuel rows cols keys idx bootloader ctx closed scans s2 s quiet,
  N.of_nat keys <= 65536 -> wiring_ok rows cols keys idx ->
  held_still conf fuel rows cols keys idx bootloader ctx closed scans s2 s ->
  comes_to_rest conf fuel quiet (rl_keymap (fw_loop s2)) -> (reports s2 + quiet + 16 <= reports s)%nat ->
  exists kos, host_sees kos s /\ km_pressed_keys conf (rl_keymap (fw_loop s)) = Ok kos /\ km_has_scheduled_events (rl_keymap (fw_loop s)) = false.
Proof.
  intros R Ctx Ev PKS KS conf fuel rows cols keys idx bl ctx closed scans s2 s quiet B W Hst Hq Hm.
  destruct (only_ticks _ _ _ _ _ _ _ _ _ _ _ _ _ _ _ _ _ B W Hst) as (k0 & m & E0 & Eo & Er & K2 & Km & K3 & _).
  destruct (polls_as_ticks conf fuel _ _ _ Km) as (k1 & E1 & P1 & Z1 & _).
  assert (Hd : forall n k', (quiet <= n)%nat -> run_ops conf fuel (repeat OpTick n) (rl_keymap (fw_loop s2)) = Ok k' ->
    exists kq, run_ops conf fuel (repeat OpTick quiet) (rl_keymap (fw_loop s2)) = Ok kq /\ km_pressed k' = km_pressed kq /\ km_has_scheduled_events k' = false).
  { intros n k' Hn E. replace n with (quiet + (n - quiet))%nat in E by lia. rewrite repeat_app in E. unfold run_ops in E. rewrite fold_res_app in E. inv_bind E.
    exists a. split; [assumption|]. destruct (idle_ticks conf fuel _ _ _ (Hq a E2) E) as (A & A' & _). auto. }
  destruct (Hd m k1 ltac:(lia) E1) as (kq & Eq & Pq & Zq).
  assert (X : exists kos, km_pressed_keys conf kq = Ok kos).
  { destruct m as [|m]; [lia|]. rewrite polls_succ in Km. unfold run_ops in Km. rewrite fold_res_app in Km. inv_bind Km. cbn [fold_res run_op bind] in Km.
    destruct (km_tick conf fuel a) as [kt| |]; cbn [bind] in Km; try discriminate. unfold km_report_output in Km.
    destruct (km_pressed_keys conf kt) as [kos| |] eqn:Ek; cbn [bind] in Km; try discriminate. injection Km as Km. exists kos.
    unfold km_pressed_keys in *. rewrite <- Pq, P1, <- Km. exact Ek. }
  destruct X as (kos & Ek). exists kos.
  assert (Hc : comes_to conf fuel quiet (rl_keymap (fw_loop s2)) kos).
  { intros n k' Hn E. destruct (Hd n k' Hn E) as (kq' & Eq' & Pq' & _). assert (kq' = kq) as -> by congruence. unfold km_pressed_keys in *. now rewrite Pq'. }
  destruct (C82_host_sees _ _ _ _ _ _ _ _ _ _ _ _ _ _ _ _ _ _ _ B W Hst Hc Hm) as (A1 & A2). split; [exact A1|]. split; [exact A2|]. now rewrite <- Z1.
Qed.

Print Assumptions C82_host_sees.
Print Assumptions C82_at_rest.
