(** Theorem C57: the reports of the C firmware on their way to the host. *)
From Verif Require Import Base Output Types Split Scheduler Keymap CApi CReport SpecCReport BaseFacts CReportFacts CReportLive Samples SimpleKeys Composite.
Local Open Scope N_scope.

(** C57: as long as the interrupts come at harmless moments ([rl_calm]), the keyboard
    and consumer packets the host received are, in order and without repetition, those
    of the reports that differ from the one before, except that the last may still be
    on its way. *)
Theorem C57_in_order : forall R Ctx Ev PKS KS (conf : kconf R Ctx Ev PKS KS) fuel k l s c,
  c = ChKb \/ c = ChCon ->
  rl_run conf fuel l (rl_new k) = Ok s -> rl_all_calm conf fuel l (rl_new k) ->
  exists waiting, due c s = received c s ++ waiting /\ (length waiting <= 1)%nat.
Proof.
  intros R Ctx Ev PKS KS conf fuel k l s c Hc H C. apply rl_ok_waiting; [|now destruct Hc; subst].
  eapply rl_run_ok; [apply rl_new_ok|exact C|exact H].
Qed.
Print Assumptions C57_in_order.

(** C57: the keymap is only ticked when the host has everything. *)
Theorem C57_ticks_wait : forall R Ctx Ev PKS KS (conf : kconf R Ctx Ev PKS KS) fuel k l s evs s' c,
  c = ChKb \/ c = ChCon ->
  rl_run conf fuel l (rl_new k) = Ok s -> rl_all_calm conf fuel l (rl_new k) ->
  rl_do conf fuel s (RlTimer evs) = Ok s' -> rl_made s' <> rl_made s ->
  due c s = received c s.
Proof.
  intros R Ctx Ev PKS KS conf fuel k l s evs s' c Hc H C H' Hm.
  assert (I : rl_ok s) by (eapply rl_run_ok; [apply rl_new_ok|exact C|exact H]).
  cbn [rl_do] in H'. unfold rl_timer in H'. inv_bind H'. destruct (_ && _) eqn:G; [|inv_ok H'; contradiction].
  apply andb_prop in G as [G _]. apply andb_prop in G as [G1 G2]. rewrite bytes_eqb_spec in G1, G2.
  apply rl_ok_same; [exact I|now destruct Hc; subst|]. now destruct Hc; subst.
Qed.
Print Assumptions C57_ticks_wait.

(** C57: and it gets there: whatever happened, once the device is enumerated, at most
    75 steps of the main loop and one poll of each endpoint later the host has
    everything, and at most 38 steps later the timer ticks the keymap again. *)
Theorem C57_gets_there : forall R Ctx Ev PKS KS (conf : kconf R Ctx Ev PKS KS) fuel k l s,
  rl_run conf fuel l (rl_new k) = Ok s -> rl_all_calm conf fuel l (rl_new k) -> rl_enum s = true ->
  exists n1 s1, (n1 <= 75)%nat
    /\ rl_run conf fuel (repeat RlMain n1 ++ [RlHost ChKb; RlHost ChMouse; RlHost ChCon]) s = Ok s1
    /\ rl_made s1 = rl_made s /\ due ChKb s1 = received ChKb s1 /\ due ChCon s1 = received ChCon s1
    /\ exists n2 s2, (n2 <= 38)%nat /\ rl_run conf fuel (repeat RlMain n2) s1 = Ok s2
       /\ forall evs s3, rl_do conf fuel s2 (RlTimer evs) = Ok s3 -> exists r, rl_made s3 = rl_made s ++ [r].
Proof.
  intros R Ctx Ev PKS KS conf fuel k l s H C He.
  assert (O : rl_ok s) by (eapply rl_run_ok; [apply rl_new_ok|exact C|exact H]).
  assert (I : rl_live s) by (eapply rl_run_live; [apply rl_new_live|exact C|exact H]).
  destruct (progress conf fuel s O I He) as (n1 & s1 & Hn1 & H1 & _ & M1 & _ & D1 & n2 & s2 & Hn2 & H2 & _ & _ & _ & T).
  exists n1, s1. repeat (split; [first [exact Hn1|exact H1|exact M1|apply D1; reflexivity]|]). exists n2, s2. auto.
Qed.
Print Assumptions C57_gets_there.

(** C57: whenever the interrupts come, the reports made are those of the keymap alone
    called in the same order, every scanned event is registered once and in order, and
    the firmware only panics where the keymap alone would. *)
Theorem C57_plain : forall R Ctx Ev PKS KS (conf : kconf R Ctx Ev PKS KS) fuel k l s,
  rl_run conf fuel l (rl_new k) = Ok s ->
  plain_calls conf fuel (rl_calls s) k = Ok (rl_keymap s, rl_made s) /\ call_events (rl_calls s) = scanned l.
Proof.
  intros R Ctx Ev PKS KS conf fuel k l s H. assert (I : rl_plain conf fuel k (rl_new k)) by reflexivity.
  destruct (rl_run_plain conf fuel k l _ _ I H) as [A B]. split; [exact A|exact B].
Qed.
Print Assumptions C57_plain.
Theorem C57_panics_only_with_keymap : forall R Ctx Ev PKS KS (conf : kconf R Ctx Ev PKS KS) fuel k l,
  rl_run conf fuel l (rl_new k) = Panic ->
  exists calls rest, scanned l = call_events calls ++ rest /\ plain_calls conf fuel calls k = Panic.
Proof.
  intros R Ctx Ev PKS KS conf fuel k l H. assert (I : rl_plain conf fuel k (rl_new k)) by reflexivity. exact (rl_run_panic conf fuel k l _ I H).
Qed.
Print Assumptions C57_panics_only_with_keymap.

(** C57, one harmful moment: if the host polls the endpoint after it is enabled and
    before it is marked busy, then without a bus reset no keyboard packet is sent and
    no report made ever again. *)
Theorem C57_early_poll_is_fatal : forall R Ctx Ev PKS KS (conf : kconf R Ctx Ev PKS KS) fuel k l s c l' s',
  c = ChKb \/ c = ChCon ->
  rl_run conf fuel l (rl_new k) = Ok s -> rl_all_calm conf fuel l (rl_new k) ->
  rl_at s = Some (c, StBusy) ->
  rl_run conf fuel l' (rl_host c s) = Ok s' -> ~ In RlReset l' ->
  received c s' = received c (rl_host c s) /\ rl_made s' = rl_made s.
Proof.
  intros R Ctx Ev PKS KS conf fuel k l s c l' s' Hc H C Ha H' Hr.
  assert (I : rl_ok s) by (eapply rl_run_ok; [apply rl_new_ok|exact C|exact H]).
  assert (D : dead c (rl_host c s)) by (apply early_dead; auto; now destruct Hc; subst).
  exact (rl_run_dead conf fuel c l' _ _ D Hr H').
Qed.
Print Assumptions C57_early_poll_is_fatal.

(** Two letters, a mouse button, a consumer key and a third letter. *)
Definition crep_refs : list ref := [kA; RMouse (MsButton 1); RConsumer (CnUsageCode 9); kB; RKeyboard (KbKeyCode 6)].
Definition crep_conf : kconf ref cctx cev cpks cks := cconf crep_refs sample_data bs_std false.
Definition crep_new := rl_new (km_new sample_ctx : keymap ref cctx cev cpks cks).
Definition dn i := mkCEvent CPress i.
Definition up i := mkCEvent CRelease i.
Definition mn n := repeat RlMain n.

(** Two keys pressed in one scan, and released, the host polling at other times. *)
Definition calm_run := [RlEnumerate; RlTimer [dn 0; dn 2]] ++ mn 20 ++ [RlHost ChKb; RlTimer []; RlHost ChCon] ++ mn 40
  ++ [RlHost ChCon; RlHost ChKb] ++ mn 10 ++ [RlTimer []] ++ mn 30 ++ [RlTimer [up 0]; RlHost ChCon] ++ mn 60 ++ [RlTimer [up 0]] ++ mn 40 ++ [RlHost ChKb].
Fixpoint calmb {R Ctx Ev PKS KS} (conf : kconf R Ctx Ev PKS KS) (fuel : nat) (resets : bool) (l : list rl_step) (s : rloop) : bool :=
  match l with
  | [] => true
  | a :: t =>
      match a with
      | RlTimer _ => match rl_at s with Some (_, StCopy _) => false | _ => true end
      | RlHost c => match rl_at s with Some (d, StBusy) => negb (chan_eqb c d) | _ => true end
      | RlReset => resets
      | _ => true
      end && match rl_do conf fuel s a with Ok s' => calmb conf fuel resets t s' | _ => true end
  end.
Lemma calmb_calm {R Ctx Ev PKS KS} (conf : kconf R Ctx Ev PKS KS) fuel l : forall s, calmb conf fuel false l s = true -> rl_all_calm conf fuel l s.
Proof.
  induction l as [|a l IH]; intros s H; cbn [calmb rl_all_calm] in *; [exact I|]. apply andb_prop in H as [H1 H2]. split.
  - destruct a as [evs| |c| |]; cbn [rl_calm]; try exact I; try discriminate; destruct (rl_at s) as [[d [| | |i| | | |i|]]|]; try exact I; try discriminate.
    intros X. injection X as ->. now rewrite chan_eqb_refl in H1.
  - destruct (rl_do conf fuel s a); auto.
Qed.
Lemma calmb_but_resets {R Ctx Ev PKS KS} (conf : kconf R Ctx Ev PKS KS) fuel l : forall s, calmb conf fuel true l s = true -> rl_calm_but_resets conf fuel l s.
Proof.
  induction l as [|a l IH]; intros s H; cbn [calmb rl_calm_but_resets] in *; [exact I|]. apply andb_prop in H as [H1 H2]. split.
  - destruct a as [evs| |c| |]; cbn [rl_calm]; try (now left); right; try exact I; destruct (rl_at s) as [[d [| | |i| | | |i|]]|]; try exact I; try discriminate.
    intros X. injection X as ->. now rewrite chan_eqb_refl in H1.
  - destruct (rl_do conf fuel s a); auto.
Qed.
Lemma calm_run_is_calm : rl_all_calm crep_conf 300 calm_run crep_new.
Proof. apply calmb_calm. vm_compute. reflexivity. Qed.
Example C57_example :
  returns (rl_run crep_conf 300 calm_run crep_new)
    (fun s => received ChKb s = [[0;0;4;0;0;0;0;0]; [0;0;0;0;0;0;0;0]] /\ due ChKb s = received ChKb s
              /\ due ChCon s = [[9;0;0;0]] /\ received ChCon s = [[9;0;0;0]] /\ (2 < length (rl_made s))%nat).
Proof. vm_compute. repeat split. lia. Qed.
Example C57_early_poll_example :
  let l := [RlEnumerate; RlTimer [dn 0]] ++ mn 13 in
  calmb crep_conf 300 false l crep_new = true /\
  returns (rl_run crep_conf 300 l crep_new) (fun s => rl_at s = Some (ChKb, StBusy)) /\
  returns (rl_run crep_conf 300 (l ++ [RlHost ChKb] ++ mn 40 ++ [RlTimer [up 0]] ++ mn 40 ++ [RlHost ChKb; RlTimer []] ++ mn 40 ++ [RlHost ChKb]) crep_new)
    (fun s => received ChKb s = [[0;0;4;0;0;0;0;0]]).
Proof. vm_compute. repeat split. Qed.

(** C57, false if the timer may interrupt the main loop anywhere: a report that
    arrives while the loop copies the last one to remember it is remembered as sent
    but never sent. *)
Definition torn_run := [RlEnumerate; RlTimer [dn 0]] ++ mn 15 ++ [RlHost ChKb] ++ mn 8 ++ [RlTimer [dn 3]] ++ mn 20
  ++ [RlTimer [dn 4]] ++ mn 20 ++ [RlHost ChKb].
Lemma torn_fact : returns (rl_run crep_conf 300 torn_run crep_new)
  (fun s => due ChKb s = [[0;0;4;0;0;0;0;0]; [0;0;4;5;0;0;0;0]; [0;0;4;5;6;0;0;0]]
            /\ received ChKb s = [[0;0;4;0;0;0;0;0]; [0;0;4;5;6;0;0;0]]).
Proof. vm_compute. split; reflexivity. Qed.
Lemma rl_returns {A} (m : res A) P : returns m P -> exists a, m = Ok a /\ P a.
Proof. destruct m as [a| |]; cbn; [eauto|tauto..]. Qed.
Theorem C57_timer_any_time_refuted :
  ~ (forall R Ctx Ev PKS KS (conf : kconf R Ctx Ev PKS KS) fuel k l s,
      rl_run conf fuel l (rl_new k) = Ok s -> exists waiting, due ChKb s = received ChKb s ++ waiting).
Proof.
  intros H. destruct (rl_returns _ _ torn_fact) as (s & E & D & Rc). destruct (H _ _ _ _ _ _ _ _ _ _ E) as (w & W).
  rewrite D, Rc in W. discriminate.
Qed.
Print Assumptions C57_timer_any_time_refuted.

(** C57, false after a bus reset with a packet on its way: the packet is dropped and
    taken for sent. *)
Definition reset_run := [RlEnumerate; RlTimer [dn 0]] ++ mn 15 ++ [RlReset; RlEnumerate] ++ mn 40
  ++ [RlHost ChKb; RlTimer [up 0]] ++ mn 40 ++ [RlHost ChKb].
Lemma reset_fact : returns (rl_run crep_conf 300 reset_run crep_new)
  (fun s => due ChKb s = [[0;0;4;0;0;0;0;0]; [0;0;0;0;0;0;0;0]] /\ received ChKb s = [[0;0;0;0;0;0;0;0]]).
Proof. vm_compute. split; reflexivity. Qed.
Lemma reset_calm : rl_calm_but_resets crep_conf 300 reset_run crep_new.
Proof. apply calmb_but_resets. vm_compute. reflexivity. Qed.
Theorem C57_reset_any_time_refuted :
  ~ (forall R Ctx Ev PKS KS (conf : kconf R Ctx Ev PKS KS) fuel k l s,
      rl_calm_but_resets conf fuel l (rl_new k) -> rl_run conf fuel l (rl_new k) = Ok s -> exists waiting, due ChKb s = received ChKb s ++ waiting).
Proof.
  intros H. destruct (rl_returns _ _ reset_fact) as (s & E & D & Rc). destruct (H _ _ _ _ _ _ _ _ _ _ reset_calm E) as (w & W).
  rewrite D, Rc in W. discriminate.
Qed.
Print Assumptions C57_reset_any_time_refuted.

(** C57, false of the mouse even at harmless moments: a report that arrives while the
    one before is sent again is never sent, so that a released button stays down. *)
Definition rests (s : @rloop ref cctx cev cpks cks) : Prop :=
  rl_at s = None /\ forall c, ch_pack (rl_chan s c) = ch_prev (rl_chan s c) /\ ch_sending (rl_chan s c) = false
                              /\ ch_ack (rl_chan s c) = false /\ ch_busy (rl_chan s c) = false.
Definition button_run := [RlEnumerate; RlTimer [dn 1]] ++ mn 15 ++ [RlHost ChMouse] ++ mn 30 ++ [RlTimer [up 1]; RlHost ChMouse] ++ mn 11 ++ [RlHost ChMouse].
Lemma button_calm : rl_all_calm crep_conf 300 button_run crep_new.
Proof. apply calmb_calm. vm_compute. reflexivity. Qed.
Lemma button_fact : returns (rl_run crep_conf 300 button_run crep_new)
  (fun s => (rl_at s = None /\ ch_pack (rl_chan s ChKb) = ch_prev (rl_chan s ChKb) /\ ch_pack (rl_chan s ChMouse) = ch_prev (rl_chan s ChMouse)
             /\ ch_pack (rl_chan s ChCon) = ch_prev (rl_chan s ChCon)
             /\ forall c, ch_sending (rl_chan s c) = false /\ ch_ack (rl_chan s c) = false /\ ch_busy (rl_chan s c) = false)
            /\ map (part ChMouse) (rl_made s) = [[1;0;0;0]; [0;0;0;0]] /\ received ChMouse s = [[1;0;0;0]; [1;0;0;0]]).
Proof. vm_compute. repeat split; match goal with c : chan |- _ => now destruct c end. Qed.
Theorem C57_mouse_refuted :
  ~ (forall (conf : kconf ref cctx cev cpks cks) fuel k l s,
      rl_run conf fuel l (rl_new k) = Ok s -> rl_all_calm conf fuel l (rl_new k) -> rests s ->
      last (received ChMouse s) (repeat 0 4) = last (map (part ChMouse) (rl_made s)) (repeat 0 4)).
Proof.
  intros H. destruct (rl_returns _ _ button_fact) as (s & E & (Q1 & Q2 & Q3 & Q4 & Q5) & D & Rc).
  assert (Q : rests s) by (split; [exact Q1|]; intros c; split; [now destruct c|apply Q5]).
  assert (X := H _ _ _ _ _ E button_calm Q). rewrite D, Rc in X. discriminate.
Qed.
Print Assumptions C57_mouse_refuted.
