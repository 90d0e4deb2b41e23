(** C67: from the switches to the USB host, with the CH32X C firmware. *)
From Verif Require Import BaseFacts Output Types Slice Split Scheduler Reporter Keymap SimpleKeys Sticky Layered Chorded Composite Samples SpecOutput SpecReporter SpecKeymap KeymapInv KeymapQueue KeymapApi
  SpecPlain PlainFacts SpecLayer SpecBoard BoardFacts CApi CReport SpecCReport CReportFacts CReportLive CCalls SpecCCalls CCallsFacts
  CFirmware SpecCFirmware CFirmwareFacts CKeyboard SpecCKeyboard CKeyboardFacts PropertiesReporter PropertiesBoard PropertiesCCalls PropertiesCFirmware.
Local Open Scope N_scope.

(** C67: the presses and releases that the scans amount to are determined by the
    switches ... *)
Theorem C67_typed_unique : forall rows cols keys idx scans h1 h2,
  typed rows cols keys idx scans h1 -> typed rows cols keys idx scans h2 -> h1 = h2.
Proof. exact typed_unique. Qed.
(** ... and they are passed to the keymap, in order and each once. *)
Theorem C67_passed : forall R Ctx Ev PKS KS (conf : kconf R Ctx Ev PKS KS) fuel rows cols keys idx bootloader closed0 k l s0 s,
  wiring_ok rows cols keys idx -> N.of_nat keys <= 65536 ->
  fw_start rows keys bootloader closed0 k = Ok (Some s0) -> fw_run conf fuel rows cols idx l s0 = Ok s ->
  typed rows cols keys idx (switches l) (fw_inputs s).
Proof.
  intros R Ctx Ev PKS KS conf fuel rows cols keys idx bl closed0 k l s0 s W B Hs H.
  destruct (fw_started conf fuel rows keys bl _ _ _ Hs) as (k0 & _ & Hm & Hl).
  destruct (fw_reach conf fuel rows cols keys idx closed0 k0 s0 l s Hm Hl H) as (Hr & _). eapply reach_typed; eassumption.
Qed.

Lemma shows_parts kos r1 r2 : shows kos r1 -> shows kos r2 -> part ChKb r1 = part ChKb r2 /\ part ChCon r1 = part ChCon r2.
Proof.
  intros (A1 & _ & _ & A2 & _ & A3) (B1 & _ & _ & B2 & _ & B3). cbn [part]. split; [congruence|].
  destruct (cr_consumer r1) as [|a1 [|a2 [|a3 [|a4 [|]]]]]; try discriminate A2. destruct (cr_consumer r2) as [|b1 [|b2 [|b3 [|b4 [|]]]]]; try discriminate B2.
  pose proof (A3 0%nat ltac:(lia)) as X0. pose proof (A3 1%nat ltac:(lia)) as X1. pose proof (A3 2%nat ltac:(lia)) as X2. pose proof (A3 3%nat ltac:(lia)) as X3.
  rewrite <- (B3 0%nat ltac:(lia)) in X0. rewrite <- (B3 1%nat ltac:(lia)) in X1. rewrite <- (B3 2%nat ltac:(lia)) in X2. rewrite <- (B3 3%nat ltac:(lia)) in X3.
  cbn in X0, X1, X2, X3. congruence.
Qed.

(** C67: hold the switches still for six scans and then long enough for 48 reports:
    the host sees exactly what the keyboard with its layers sends after the inputs
    that found room, and the bootloader was called for every press of its key. *)
Theorem C67_host_sees :
  forall refs d pos dbg height fuel cf rows cols idx bootloader closed0 closed l1 l2 l3 s0 s2 s,
  Forall (board_key (cf_layer_count cf) d height) refs -> N.of_nat (length refs) <= 65535 ->
  wiring_ok rows cols (length refs) idx ->
  let run := fw_run (cconf refs d pos dbg) fuel rows cols idx in
  fw_start rows (length refs) bootloader closed0 (km_new (ctx_from_config cf)) = Ok (Some s0) ->
  run (l1 ++ l2) s0 = Ok s2 -> run l3 s2 = Ok s -> fw_all_calm (cconf refs d pos dbg) fuel rows cols idx (l1 ++ l2 ++ l3) s0 ->
  steady rows cols closed l2 -> steady rows cols closed l3 -> (6 <= length (switches l2))%nat -> (reports s2 + 48 <= reports s)%nat ->
  exists b calls, board_run (cf_layer_count cf) refs d (fw_accepted s) b /\ host_sees (board_output b) s
  /\ board_calls (cf_layer_count cf) refs d (fw_accepted s) calls
  /\ km_calls (rl_keymap (fw_loop s)) = filter_map (fun cb => if callback_eqb cb CbResetToBootloader then Some bootloader else None) calls.
Proof.
  intros refs d pos dbg height fuel cf rows cols idx bl closed0 closed l1 l2 l3 s0 s2 s Hr Hk W run Hs H2 H3 C S2 S3 L6 Hm. subst run.
  set (conf := cconf refs d pos dbg) in *.
  destruct (fw_started conf fuel rows (length refs) bl _ _ _ Hs) as (k0 & E0 & Hmx & Hlp).
  assert (B : N.of_nat (length refs) <= 65536) by lia.
  destruct (no_events conf fuel rows cols (length refs) idx closed0 k0 l1 l2 l3 s0 s2 s closed W B Hmx Hlp H2 H3 S2 S3 L6) as (m & Em).
  assert (C' := C). rewrite app_assoc, fcalm_app in C'. destruct C' as (C2 & C3). rewrite H2 in C3.
  destruct (fw_reach conf fuel rows cols (length refs) idx closed0 k0 s0 _ s2 Hmx Hlp H2) as ((_ & _ & _ & P2) & Q2). destruct (Q2 C2) as (O2 & _).
  assert (H23 : fw_run conf fuel rows cols idx (l1 ++ l2 ++ l3) s0 = Ok s) by (rewrite app_assoc, frun_app, H2; exact H3).
  destruct (fw_reach conf fuel rows cols (length refs) idx closed0 k0 s0 _ s Hmx Hlp H23) as ((_ & _ & _ & P3) & Q3). destruct (Q3 C) as (O3 & _).
  (* as many ticks as reports *)
  assert (Hm48 : (48 <= m)%nat).
  { unfold reports in Hm. pose proof P3 as P. rewrite Em, plain_calls_app, P2 in P. cbn [bind] in P. inv_bind P. destruct a as [kx rs]. injection P as _ Ers.
    assert (X : length rs = m).
    { clear -E. revert kx rs E. generalize (rl_keymap (fw_loop s2)). induction m as [|m IH]; intros kz kx rs E; cbn [repeat plain_calls] in E; [now injection E as _ <-|].
      inv_bind E. destruct a as [k1 r]. inv_bind E. destruct a as [k2 rs']. injection E as _ <-. cbn. f_equal. eapply IH. exact E1. }
    rewrite <- Ers, app_length in Hm. lia. }
  destruct m as [|m]; [lia|].
  assert (Er : @repeat c_call CallTick (S m) = repeat CallTick m ++ [CallTick]) by (rewrite <- repeat_cons; reflexivity).
  rewrite Er in Em.
  destruct (fw_parts conf fuel rows cols idx l3 s2 s H3) as (evs3 & rl & _ & P4 & _ & P5). specialize (P5 C3).
  destruct (last_tick conf fuel rl _ _ _ P4 Em) as (la & evs & lb & sm & sm' & -> & G1 & G2 & G3 & G4 & G5 & G6 & G7).
  (* the tick before the last *)
  assert (Ev : evs = []).
  { rewrite G4, Em, app_assoc in G7. apply app_inj_tail in G7 as [G7 _]. destruct evs as [|e evs _] using rev_ind; [reflexivity|].
    rewrite map_app, app_assoc in G7. cbn in G7. destruct m as [|m]; [lia|].
    assert (Er' : @repeat c_call CallTick (S m) = repeat CallTick m ++ [CallTick]) by (rewrite <- repeat_cons; reflexivity).
    rewrite Er', app_assoc in G7. apply app_inj_tail in G7 as [_ G7]. discriminate. }
  subst evs. cbn [map] in G7. rewrite app_nil_r in G7.
  assert (Gc : rl_calls sm = rl_calls (fw_loop s2) ++ repeat CallTick m).
  { rewrite G4, Em, app_assoc in G7. apply app_inj_tail in G7 as [G7 _]. now symmetry. }
  assert (Pm : rl_plain conf fuel k0 sm) by (eapply rl_run_plain; [exact P2|exact G1]).
  assert (Cm : rl_all_calm conf fuel la (fw_loop s2)).
  { clear -P5. revert P5. generalize (fw_loop s2). induction la as [|a la IH]; intros t H; cbn [app rl_all_calm] in *; [exact Logic.I|].
    destruct H as [H1 H2']. split; [exact H1|]. destruct (rl_do conf fuel t a); auto. }
  assert (Om : rl_ok sm) by (eapply rl_run_ok; [exact O2|exact Cm|exact G1]).
  assert (Dm : forall c, resends c = false -> due c sm = received c sm).
  { intros c Hc. cbn [rl_do] in G2. unfold rl_timer in G2. inv_bind G2. destruct (_ && _) eqn:G; [|injection G2 as <-; contradiction].
    apply andb_prop in G as [G _]. apply andb_prop in G as [Ga Gb]. rewrite bytes_eqb_spec in Ga, Gb. apply rl_ok_same; [exact Om|exact Hc|]. destruct c; [exact Ga|discriminate|exact Gb]. }
  (* what the last two reports show *)
  assert (Hset : registers_two (start_ops bl)) by apply start_two.
  assert (Rep : forall n k, (47 <= n)%nat -> run_ops conf fuel (ops_of (rl_calls (fw_loop s2) ++ repeat CallTick n)) k0 = Ok k ->
    exists b calls, board_run (cf_layer_count cf) refs d (fw_accepted s) b
    /\ rep_reportable (km_rep k) = board_output b
    /\ board_calls (cf_layer_count cf) refs d (fw_accepted s) calls /\ km_calls k = filter_map (registered (start_ops bl)) calls).
  { intros n k Hn E. rewrite ops_of_app, ops_of_ticks in E.
    assert (E' : run_ops conf fuel (start_ops bl ++ ops_of (rl_calls (fw_loop s2)) ++ polls n) (km_new (ctx_from_config cf)) = Ok k).
    { unfold run_ops in *. rewrite fold_res_app, E0. exact E. }
    destruct (settled_report _ _ _ _ _ _ _ _ _ _ _ Hr Hset (ops_of_plain _) Hn E') as (b & calls & Hb & Hrp & _ & Hca & Hcb).
    assert (Ea : fw_accepted s = accepted (ops_of (rl_calls (fw_loop s2)))).
    { unfold fw_accepted, fw_ops. rewrite Em. fold (ops_of (rl_calls (fw_loop s2) ++ repeat CallTick m ++ [CallTick])). rewrite <- Er, ops_of_app, ops_of_ticks. apply polls_accepted. }
    rewrite Ea. eauto 8. }
  unfold rl_plain in Pm. rewrite Gc in Pm. rewrite Em, <- Er in P3.
  destruct (Rep m (rl_keymap sm)) as (b1 & _ & Hb1 & Hr1 & _); [lia|eapply plain_calls_ops; exact Pm|].
  destruct (Rep (S m) (rl_keymap (fw_loop s))) as (b & calls & Hb & Hrp & Hca & Hcb); [lia|eapply plain_calls_ops; exact P3|].
  assert (Ek0 : reached conf fuel (ctx_from_config cf) k0) by (exists (start_ops bl); exact E0).
  rewrite Er, app_assoc in P3. destruct (plain_calls_last conf fuel _ _ _ _ _ Ek0 P3) as (rs & r & Ers & Hsh).
  destruct m as [|m]; [lia|]. assert (Er' : @repeat c_call CallTick (S m) = repeat CallTick m ++ [CallTick]) by (rewrite <- repeat_cons; reflexivity).
  rewrite Er', app_assoc in Pm. destruct (plain_calls_last conf fuel _ _ _ _ _ Ek0 Pm) as (rs1 & r1 & Ers1 & Hsh1).
  rewrite Hrp in Hsh. rewrite Hr1 in Hsh1. assert (Eb : board_output b1 = board_output b).
  { destruct (C62_unique _ _ _ _ _ _ Hb1 Hb) as (Hd & _). unfold board_output. now rewrite Hd. }
  rewrite Eb in Hsh1. destruct (shows_parts _ _ _ Hsh Hsh1) as (Ep1 & Ep2).
  (* the host has them *)
  assert (Em' : rl_made (fw_loop s) = rl_made sm ++ [r]).
  { rewrite <- G5. cbn [rl_do] in G2. unfold rl_timer in G2. inv_bind G2. destruct (_ && _); [|injection G2 as <-; contradiction]. inv_bind G2. destruct a0 as [k2 r2]. injection G2 as <-.
    cbn [rl_made] in *. rewrite Ers in G5. apply app_inj_tail in G5 as [_ G5]. now rewrite G5. }
  assert (Fin : forall c, resends c = false -> part c r = part c r1 -> last (received c (fw_loop s)) (repeat 0 (part_len c)) = part c r).
  { intros c Hc Hp.
    assert (El : forall z, last (map (part c) (rl_made sm)) z = part c r1) by (intros z; rewrite Ers1, map_app; cbn [map]; apply last_last).
    assert (Ed : due c (fw_loop s) = due c sm).
    { unfold due. rewrite Em', map_app. cbn [map]. rewrite news_snoc, El, Hp, bytes_eqb_refl. apply app_nil_r. }
    destruct (rl_ok_waiting _ _ O3 Hc) as (w & Ew & _).
    assert (Gr : exists more, received c (fw_loop s) = received c sm ++ more).
    { apply (received_grow conf fuel c (RlTimer [] :: lb)). unfold rl_run in *. cbn [fold_res]. rewrite G2. exact G3. }
    destruct Gr as (more & Gr). rewrite Ed, (Dm c Hc), Gr, <- app_assoc in Ew.
    assert (Z : more ++ w = []) by (apply (app_inv_head (received c sm)); rewrite app_nil_r; now symmetry).
    apply app_eq_nil in Z as [-> _]. rewrite Gr, app_nil_r, <- (Dm c Hc). unfold due. rewrite last_news, El. now symmetry. }
  exists b, calls. split; [exact Hb|]. split; [|split; [exact Hca|]].
  - pose proof (Fin ChKb eq_refl Ep1) as F1. pose proof (Fin ChCon eq_refl Ep2) as F2. cbn [part part_len] in F1, F2.
    destruct Hsh as (A1 & _ & _ & A2 & _ & A3). unfold host_sees. rewrite F1, F2. split; [exact A1|]. split; [exact A2|].
    intros j Hj. specialize (A3 j Hj). apply nth_error_nth. exact A3.
  - rewrite Hcb. clear. induction calls as [|c calls IH]; [reflexivity|]. cbn [filter_map]. rewrite IH. unfold registered, start_ops. cbn [registered_in].
    destruct c; reflexivity.
Qed.

(** C67, from the switches to the host: if no input was dropped, the keys that are
    down are those whose switches are closed, and the host sees what they send. *)
Theorem C67_switches_to_host :
  forall refs d pos dbg height fuel cf rows cols idx bootloader closed0 closed l1 l2 l3 s0 s2 s,
  Forall (board_key (cf_layer_count cf) d height) refs -> N.of_nat (length refs) <= 65535 ->
  wiring_ok rows cols (length refs) idx ->
  let run := fw_run (cconf refs d pos dbg) fuel rows cols idx in
  fw_start rows (length refs) bootloader closed0 (km_new (ctx_from_config cf)) = Ok (Some s0) ->
  run (l1 ++ l2) s0 = Ok s2 -> run l3 s2 = Ok s -> fw_all_calm (cconf refs d pos dbg) fuel rows cols idx (l1 ++ l2 ++ l3) s0 ->
  steady rows cols closed l2 -> steady rows cols closed l3 -> (6 <= length (switches l2))%nat -> (reports s2 + 48 <= reports s)%nat ->
  fw_accepted s = fw_inputs s ->
  exists h b, typed rows cols (length refs) idx (switches (l1 ++ l2 ++ l3)) h /\ board_run (cf_layer_count cf) refs d h b
  /\ (forall i, key_is_down b i <-> key_closed rows cols idx closed i)
  /\ host_sees (board_output b) s.
Proof.
  intros refs d pos dbg height fuel cf rows cols idx bl closed0 closed l1 l2 l3 s0 s2 s Hr Hk W run Hs H2 H3 C S2 S3 L6 Hm Ha. subst run.
  destruct (C67_host_sees _ _ _ _ _ _ _ _ _ _ _ _ _ _ _ _ _ _ _ Hr Hk W Hs H2 H3 C S2 S3 L6 Hm) as (b & _ & Hb & Hh & _).
  assert (H23 : fw_run (cconf refs d pos dbg) fuel rows cols idx (l1 ++ l2 ++ l3) s0 = Ok s) by (rewrite app_assoc, frun_app, H2; exact H3).
  assert (B : N.of_nat (length refs) <= 65536) by lia.
  pose proof (C67_passed _ _ _ _ _ (cconf refs d pos dbg) fuel rows cols (length refs) idx bl closed0 _ (l1 ++ l2 ++ l3) s0 s W B Hs H23) as Ty.
  exists (fw_inputs s), b. rewrite Ha in Hb. split; [exact Ty|]. split; [exact Hb|]. split; [|exact Hh].
  destruct (typed_down rows cols (length refs) idx _ closed _ W Ty) as (K & _).
  { rewrite !switches_app, !app_length. lia. }
  { apply Forall_forall. intros cl Hcl. assert (X : In cl (switches l2 ++ switches l3)).
    { rewrite !switches_app in Hcl. rewrite skipn_app in Hcl. apply in_app_iff in Hcl as [Hcl|Hcl].
      - rewrite skipn_all2 in Hcl by (rewrite !app_length; lia). destruct Hcl.
      - match type of Hcl with In _ (skipn ?n ?l) => rewrite <- (firstn_skipn n l) end. apply in_or_app. now right. }
    unfold steady in S2, S3. rewrite Forall_forall in S2, S3. apply in_app_iff in X as [X|X]; [exact (S2 cl X)|exact (S3 cl X)]. }
  intros i. rewrite <- K, <- (run_shape _ _ _ _ _ Hb). unfold key_is_down, shape.
  assert (G : forall l, (exists m, In (inl (N.of_nat i, m)) l) <-> In (N.of_nat i) (keys_down (map forget l))).
  { induction l as [|[[j m]|ko] l IH]; [split; [intros (m & [])|intros []]| |]; cbn [map forget].
    - change (keys_down (inl j :: map forget l)) with (j :: keys_down (map forget l)). cbn [In]. rewrite <- IH. split.
      + intros (m' & [X|X]); [left; injection X; congruence|right; now exists m'].
      + intros [X|(m' & X)]; [subst j; exists m; now left|exists m'; now right].
    - change (keys_down (inr ko :: map forget l)) with (keys_down (map forget l)). rewrite <- IH. split; intros (m' & X); [destruct X as [X|X]; [discriminate|eauto]|exists m'; now right]. }
  apply G.
Qed.

(** C67: in particular, with all switches open nothing remains pressed. *)
Theorem C67_nothing_stuck :
  forall refs d pos dbg height fuel cf rows cols idx bootloader closed0 l1 l2 l3 s0 s2 s,
  Forall (board_key (cf_layer_count cf) d height) refs -> N.of_nat (length refs) <= 65535 ->
  wiring_ok rows cols (length refs) idx ->
  let run := fw_run (cconf refs d pos dbg) fuel rows cols idx in
  fw_start rows (length refs) bootloader closed0 (km_new (ctx_from_config cf)) = Ok (Some s0) ->
  run (l1 ++ l2) s0 = Ok s2 -> run l3 s2 = Ok s -> fw_all_calm (cconf refs d pos dbg) fuel rows cols idx (l1 ++ l2 ++ l3) s0 ->
  steady rows cols (fun _ _ => false) l2 -> steady rows cols (fun _ _ => false) l3 -> (6 <= length (switches l2))%nat -> (reports s2 + 48 <= reports s)%nat ->
  fw_accepted s = fw_inputs s ->
  last (received ChKb (fw_loop s)) (repeat 0 8) = repeat 0 8 /\ last (received ChCon (fw_loop s)) (repeat 0 4) = repeat 0 4.
Proof.
  intros refs d pos dbg height fuel cf rows cols idx bl closed0 l1 l2 l3 s0 s2 s Hr Hk W run Hs H2 H3 C S2 S3 L6 Hm Ha. subst run.
  destruct (C67_switches_to_host _ _ _ _ _ _ _ _ _ _ _ _ _ _ _ _ _ _ _ Hr Hk W Hs H2 H3 C S2 S3 L6 Hm Ha) as (h & b & Ty & Hb & Hd & Hh).
  assert (Eb : bd_down b = []).
  { destruct (typed_down rows cols (length refs) idx _ (fun _ _ => false) _ W Ty) as (_ & K).
    { rewrite !switches_app, !app_length. lia. }
    { apply Forall_forall. intros cl Hcl. assert (X : In cl (switches l2 ++ switches l3)).
      { rewrite !switches_app in Hcl. rewrite skipn_app in Hcl. apply in_app_iff in Hcl as [Hcl|Hcl].
        - rewrite skipn_all2 in Hcl by (rewrite !app_length; lia). destruct Hcl.
        - match type of Hcl with In _ (skipn ?n ?l) => rewrite <- (firstn_skipn n l) end. apply in_or_app. now right. }
      unfold steady in S2, S3. rewrite Forall_forall in S2, S3. apply in_app_iff in X as [X|X]; [exact (S2 cl X)|exact (S3 cl X)]. }
    rewrite <- (run_shape _ _ _ _ _ Hb) in K. unfold shape in K. destruct (bd_down b) as [|x l] eqn:E; [reflexivity|].
    exfalso. inversion K as [|? ? (i & Ei & _) _]; subst. destruct x as [[j m]|ko]; cbn in Ei; [|discriminate]. injection Ei as ->.
    assert (X : key_is_down b i) by (exists m; rewrite E; now left). apply Hd in X. destruct X as (r & c & _ & _ & _ & X). discriminate. }
  assert (Eo : board_output b = []) by (unfold board_output; now rewrite Eb). rewrite Eo in Hh. destruct Hh as (A1 & A2 & A3). split; [exact A1|].
  destruct (last (received ChCon (fw_loop s)) (repeat 0 4)) as [|x1 [|x2 [|x3 [|x4 [|]]]]]; try discriminate A2.
  pose proof (A3 0%nat ltac:(lia)) as X0. pose proof (A3 1%nat ltac:(lia)) as X1. pose proof (A3 2%nat ltac:(lia)) as X2. pose proof (A3 3%nat ltac:(lia)) as X3.
  cbn in X0, X1, X2, X3. now rewrite X0, X1, X2, X3.
Qed.

(** C67: and it gets there: whatever happened before, once the device is enumerated
    there is a harmless continuation of at most 117 * 54 steps of the main loop, polls
    and scans that find the switches as they are, after which the above holds. *)
Theorem C67_gets_there :
  forall refs d pos dbg height fuel cf rows cols idx bootloader closed0 closed l s0 s,
  Forall (board_key (cf_layer_count cf) d height) refs -> N.of_nat (length refs) <= 65535 ->
  wiring_ok rows cols (length refs) idx ->
  let conf := cconf refs d pos dbg in
  fw_start rows (length refs) bootloader closed0 (km_new (ctx_from_config cf)) = Ok (Some s0) ->
  fw_run conf fuel rows cols idx l s0 = Ok s -> fw_all_calm conf fuel rows cols idx l s0 -> enumerated s ->
  exists more, Forall (fun a => a = FwMain \/ (exists c, a = FwHost c) \/ a = FwTimer closed) more /\ (length more <= 117 * 54)%nat
  /\ fw_all_calm conf fuel rows cols idx more s
  /\ forall s', fw_run conf fuel rows cols idx more s = Ok s' -> fw_accepted s' = fw_inputs s' ->
     exists h b, typed rows cols (length refs) idx (switches (l ++ more)) h /\ board_run (cf_layer_count cf) refs d h b
     /\ (forall i, key_is_down b i <-> key_closed rows cols idx closed i)
     /\ host_sees (board_output b) s'.
Proof.
  intros refs d pos dbg height fuel cf rows cols idx bl closed0 closed l s0 s Hr Hk W conf Hs H C He.
  destruct (fw_started conf fuel rows (length refs) bl _ _ _ Hs) as (k0 & E0 & Hmx & Hlp).
  destruct (fw_reach conf fuel rows cols (length refs) idx closed0 k0 s0 _ s Hmx Hlp H) as (_ & Q). destruct (Q C) as (O & I).
  destruct (rounds conf fuel rows cols idx closed 6 s O I He) as (l2 & K2 & L2 & C2 & T2).
  destruct (fw_run conf fuel rows cols idx l2 s) as [s2| |] eqn:E2.
  - destruct (T2 s2 eq_refl) as (U1 & U2 & U3 & U4 & U5). destruct (rounds conf fuel rows cols idx closed 48 s2 U3 U4 U5) as (l3 & K3 & L3 & C3 & T3).
    exists (l2 ++ l3). split; [apply Forall_app; split; assumption|]. split; [rewrite app_length; lia|]. split; [apply fcalm_app; rewrite E2; auto|].
    intros s' H' Ha. rewrite frun_app, E2 in H'. cbn [bind] in H'. destruct (T3 s' H') as (V1 & V2 & _).
    assert (Hl2 : fw_run conf fuel rows cols idx (l ++ l2) s0 = Ok s2) by (rewrite frun_app, H; exact E2).
    apply (C67_switches_to_host refs d pos dbg height fuel cf rows cols idx bl closed0 closed l l2 l3 s0 s2 s' Hr Hk W Hs Hl2 H').
    + apply fcalm_app. split; [exact C|]. fold conf. rewrite H. apply fcalm_app. rewrite E2. auto.
    + now apply keeps_steady.
    + now apply keeps_steady.
    + lia.
    + lia.
    + exact Ha.
  - exists l2. split; [exact K2|]. split; [lia|]. split; [exact C2|]. intros s' X. rewrite E2 in X. discriminate.
  - exists l2. split; [exact K2|]. split; [lia|]. split; [exact C2|]. intros s' X. rewrite E2 in X. discriminate.
Qed.

(** C67: the firmware only stops when more keys are down than the keymap has room for
    or the clock has run out of its 32 bits. *)
Theorem C67_stops_only_when_full :
  forall refs d pos dbg height fuel cf rows cols idx bootloader closed0 l s0,
  Forall (board_key (cf_layer_count cf) d height) refs -> N.of_nat (length refs) <= 65535 -> (height + 4 <= fuel)%nat ->
  wiring_ok rows cols (length refs) idx ->
  fw_start rows (length refs) bootloader closed0 (km_new (ctx_from_config cf)) = Ok (Some s0) ->
  (forall s, fw_run (cconf refs d pos dbg) fuel rows cols idx l s0 <> Ok s) ->
  exists h rest ops, typed rows cols (length refs) idx (switches l) h /\ h = inputs ops ++ rest
  /\ ck_now (clocks_run ops) <= N.of_nat (length (switches l))
  /\ (fits (length refs) (chc_max_pressed (cf_chorded cf)) (accepted ops) -> u32_max < ck_now (clocks_run ops)).
Proof.
  intros refs d pos dbg height fuel cf rows cols idx bl closed0 l s0 Hr Hk Hf W Hs H. set (conf := cconf refs d pos dbg) in *.
  destruct (fw_started conf fuel rows (length refs) bl _ _ _ Hs) as (k0 & E0 & Hmx & Hlp).
  assert (B : N.of_nat (length refs) <= 65536) by lia.
  destruct (fw_stops conf fuel rows cols idx (length refs) closed0 k0 l s0 W B Hmx Hlp H) as (calls & h & rest & Ty & Eh & Ht & Hn).
  exists h, rest, (ops_of calls). split; [exact Ty|]. split; [rewrite Eh; f_equal; symmetry; apply meant_events|].
  rewrite clocks_ticks_of. split; [lia|].
  intros Hfit. destruct (N.le_gt_cases (N.of_nat (tick_count calls)) u32_max) as [Hc|Hc]; [|exact Hc]. exfalso.
  destruct (C62_never_panics refs d pos dbg height fuel (start_ops bl) (ops_of calls) cf Hr Hk Hf (start_two bl) (ops_of_plain _) Hfit) as (k & E); [now rewrite clocks_ticks_of|].
  fold conf in E. unfold run_ops in E. rewrite fold_res_app in E. unfold run_ops in E0. rewrite E0 in E. cbn [bind] in E.
  destruct (plain_calls_total conf fuel (ctx_from_config cf) calls k0 k) as (rs & X); [exists (start_ops bl); exact E0|exact E|]. exact (Hn _ _ X).
Qed.
(** C67: a keyboard of at most 16 keys never stops before the clock runs out, after
    2^32 scans. *)
Theorem C67_small_keyboards_never_stop :
  forall refs d pos dbg height fuel cf rows cols idx bootloader closed0 l s0,
  Forall (board_key (cf_layer_count cf) d height) refs -> (length refs <= 16)%nat -> (height + 4 <= fuel)%nat ->
  chc_max_pressed (cf_chorded cf) = O \/ (length refs <= chc_max_pressed (cf_chorded cf))%nat ->
  wiring_ok rows cols (length refs) idx ->
  fw_start rows (length refs) bootloader closed0 (km_new (ctx_from_config cf)) = Ok (Some s0) ->
  N.of_nat (length (switches l)) <= u32_max ->
  exists s, fw_run (cconf refs d pos dbg) fuel rows cols idx l s0 = Ok s.
Proof.
  intros refs d pos dbg height fuel cf rows cols idx bl closed0 l s0 Hr Hk Hf Hc W Hs Hl.
  destruct (fw_run (cconf refs d pos dbg) fuel rows cols idx l s0) as [s| |] eqn:E; [eauto|exfalso..].
  all: destruct (C67_stops_only_when_full refs d pos dbg height fuel cf rows cols idx bl closed0 l s0 Hr ltac:(lia) Hf W Hs) as (h & rest & ops & Ty & Eh & Ht & Hn);
    [intros s X; rewrite E in X; discriminate|].
  all: assert (X : fits (length refs) (chc_max_pressed (cf_chorded cf)) (accepted ops)) by
    (apply few_fit; [exact Hk|exact Hc|]; intros e He; eapply typed_events; [exact Ty|]; rewrite Eh; apply in_or_app; left; now apply accepted_inputs);
    specialize (Hn X); lia.
Qed.

(** *** An example: the keyboard with layers of C62, on a matrix of two rows and four
    columns.  Hold the layer key, then key 1. *)
Definition grid (r c : nat) : option nat := Some (4 * r + c)%nat.
Lemma grid_ok : wiring_ok 2 4 8 grid.
Proof.
  split; unfold grid.
  - intros r c i Hr Hc X. injection X as <-. lia.
  - intros r c r' c' i Hr Hc Hr' Hc' X Y. injection X as <-. injection Y as Y. lia.
Qed.
Definition hold_keys (ks : list nat) (r c : nat) : bool := existsb (Nat.eqb (4 * r + c)) ks.
Definition scan (ks : list nat) (n : nat) : list fw_step := repeat (FwTimer (hold_keys ks)) n.
Definition send : list fw_step := repeat FwMain 15 ++ [FwHost ChKb] ++ repeat FwMain 30.
Definition down_31 : list fw_step := scan [3%nat] 6 ++ [FwEnumerate] ++ scan [3; 1]%nat 8 ++ send.
Definition fw_of (refs : list ref) (conf : kconf ref cctx cev cpks cks) (l : list fw_step) : res fw :=
  let! o := fw_start 2 (length refs) 9 (hold_keys []) (km_new sample_ctx) in
  match o with Some s0 => fw_run conf 6 2 4 grid l s0 | None => Panic end.

(** A harmless schedule, decided. *)
Fixpoint fcalmb (conf : kconf ref cctx cev cpks cks) (l : list fw_step) (s : fw) : bool :=
  match l with
  | [] => true
  | a :: t =>
      match a with
      | FwTimer _ => match rl_at (fw_loop s) with Some (_, StCopy _) => false | _ => true end
      | FwHost c => match rl_at (fw_loop s) with Some (d, StBusy) => negb (chan_eqb c d) | _ => true end
      | FwReset => false
      | _ => true
      end && match fw_do conf 6 2 4 grid s a with Ok s' => fcalmb conf t s' | _ => true end
  end.
Lemma fcalmb_calm conf l : forall s, fcalmb conf l s = true -> fw_all_calm conf 6 2 4 grid l s.
Proof.
  induction l as [|a l IH]; intros s H; cbn [fcalmb fw_all_calm] in *; [exact Logic.I|]. apply andb_prop in H as [H1 H2]. split.
  - destruct a as [cl| |c| |]; cbn [fw_calm rl_calm]; try exact Logic.I; try discriminate; destruct (rl_at (fw_loop s)) as [[d [| | |i| | | |i|]]|]; try exact Logic.I; try discriminate.
    intros X. injection X as ->. now rewrite chan_eqb_refl in H1.
  - destruct (fw_do conf 6 2 4 grid s a); auto.
Qed.
Definition grid_conf := cconf board_refs sample_data bs_std false.
Example C67_example :
  returns (fw_start 2 8 9 (hold_keys []) (km_new sample_ctx)) (fun o => match o with
    | Some s0 =>
        fcalmb grid_conf (down_31 ++ scan [3; 1]%nat 48) s0 = true
        /\ returns (fw_run grid_conf 6 2 4 grid (scan [3%nat] 6 ++ [FwEnumerate] ++ scan [3; 1]%nat 6) s0) (fun s => fw_inputs s = [Press 3; Press 1] /\ received ChKb (fw_loop s) = [])
        /\ returns (fw_run grid_conf 6 2 4 grid down_31 s0) (fun s2 => reports s2 = 12%nat)
        /\ returns (fw_run grid_conf 6 2 4 grid (down_31 ++ scan [3; 1]%nat 48) s0) (fun s =>
             reports s = 60%nat /\ fw_inputs s = [Press 3; Press 1] /\ fw_accepted s = [Press 3; Press 1] /\ received ChKb (fw_loop s) = [[0; 0; 7; 0; 0; 0; 0; 0]])
    | None => False
    end)
  /\ length (switches down_31) = 14%nat.
Proof. vm_compute. repeat split; reflexivity. Qed.

(** C67, false if an input may be dropped: before the device is enumerated the
    queue of the keymap is not emptied after the first change; it fills up, the
    release of a key is dropped, and the key stays pressed for good. *)
Definition stuck_refs : list ref := kB :: repeat (RLayered (LyModifier 0)) 7.
Definition stuck_conf := cconf stuck_refs sample_data bs_std false.
Definition stuck_1 : list fw_step :=
  let full := scan [0; 1; 2; 3; 4; 5; 6; 7]%nat 6 in scan [0%nat] 6 ++ full ++ scan [0%nat] 6 ++ full ++ scan [0%nat] 6 ++ full.
Definition stuck_2 : list fw_step := scan [] 6 ++ [FwEnumerate] ++ send.
Definition stuck_3 : list fw_step := scan [] 48.
Lemma stuck_fact :
  returns (fw_start 2 8 9 (hold_keys []) (km_new sample_ctx)) (fun o => match o with
    | Some s0 => fcalmb stuck_conf (stuck_1 ++ stuck_2 ++ stuck_3) s0 = true
        /\ returns (fw_run stuck_conf 6 2 4 grid (stuck_1 ++ stuck_2) s0) (fun s2 => returns (fw_run stuck_conf 6 2 4 grid stuck_3 s2) (fun s =>
             Nat.leb (reports s2 + 48) (reports s) = true /\ fw_accepted s <> fw_inputs s /\ received ChKb (fw_loop s) = [[0; 0; 5; 0; 0; 0; 0; 0]]))
    | None => False
    end).
Proof. vm_compute. repeat split; try reflexivity. discriminate. Qed.
Lemma fw_returns {A} (m : res A) P : returns m P -> exists a, m = Ok a /\ P a.
Proof. destruct m as [a| |]; cbn; [eauto|tauto..]. Qed.
Theorem C67_nothing_stuck_refuted :
  ~ (forall refs d pos dbg height fuel cf rows cols idx bootloader closed0 l1 l2 l3 s0 s2 s,
  Forall (board_key (cf_layer_count cf) d height) refs -> N.of_nat (length refs) <= 65535 ->
  wiring_ok rows cols (length refs) idx ->
  let run := fw_run (cconf refs d pos dbg) fuel rows cols idx in
  fw_start rows (length refs) bootloader closed0 (km_new (ctx_from_config cf)) = Ok (Some s0) ->
  run (l1 ++ l2) s0 = Ok s2 -> run l3 s2 = Ok s -> fw_all_calm (cconf refs d pos dbg) fuel rows cols idx (l1 ++ l2 ++ l3) s0 ->
  steady rows cols (fun _ _ => false) l2 -> steady rows cols (fun _ _ => false) l3 -> (6 <= length (switches l2))%nat -> (reports s2 + 48 <= reports s)%nat ->
  last (received ChKb (fw_loop s)) (repeat 0 8) = repeat 0 8).
Proof.
  intros H. destruct (fw_returns _ _ stuck_fact) as ([s0|] & Es & F); [|destruct F]. destruct F as (C & F).
  destruct (fw_returns _ _ F) as (s2 & E2 & F2). destruct (fw_returns _ _ F2) as (s & E3 & Hm & _ & Rc). apply Nat.leb_le in Hm.
  assert (K : Forall (board_key (cf_layer_count sample_config) sample_data 1) stuck_refs).
  { constructor; [eapply bk_plain; reflexivity|]. apply Forall_forall. intros r Hr. apply repeat_spec in Hr as ->. eapply bk_modifier; [reflexivity|]. cbn. lia. }
  specialize (H stuck_refs sample_data bs_std false 1%nat 6%nat sample_config 2%nat 4%nat grid 9 (hold_keys []) stuck_1 stuck_2 stuck_3 s0 s2 s K).
  rewrite Rc in H. discriminate H; try assumption.
  - vm_compute. discriminate.
  - apply grid_ok.
  - apply fcalmb_calm. exact C.
  - unfold steady. vm_compute. repeat constructor.
  - unfold steady. vm_compute. repeat constructor.
  - vm_compute. lia.
Qed.

Print Assumptions C67_typed_unique.
Print Assumptions C67_passed.
Print Assumptions C67_host_sees.
Print Assumptions C67_switches_to_host.
Print Assumptions C67_nothing_stuck.
Print Assumptions C67_gets_there.
Print Assumptions C67_stops_only_when_full.
Print Assumptions C67_small_keyboards_never_stop.
Print Assumptions C67_nothing_stuck_refuted.
