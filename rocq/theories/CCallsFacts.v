(** Proofs about programs of C calls (C66). *)
From Verif Require Import BaseFacts Output Types Scheduler Reporter Keymap SpecOutput OutputFacts SpecReporter ReporterFacts SpecKeymap KeymapInv KeymapQueue KeymapApi SpecPlain PlainFacts
  CApi CCalls SpecCCalls PropertiesReporter PropertiesApi.
Local Open Scope N_scope.

Lemma event_meant e : event_of_c e = meant e.
Proof. destruct e as [[] v]; reflexivity. Qed.
Lemma bt_meant c b : In (c, b) bt_commands -> bt_of_c c = b.
Proof. intros H. repeat (destruct H as [H|H]; [injection H as <- <-; reflexivity|]). destruct H. Qed.
Lemma bt_listed c : In (c, bt_of_c c) bt_commands.
Proof. destruct c; cbn; tauto. Qed.
Lemma stands_total c : exists o, stands_for c o.
Proof.
  destruct c as [| | | | | | | | |id f| |c f]; try (eexists; constructor; fail).
  - destruct (N.eq_dec id 0) as [->|H0]; [eexists; constructor|]. destruct (N.eq_dec id 1) as [->|H1]; [eexists; constructor|].
    eexists. apply sf_unknown. lia.
  - eexists. econstructor. apply bt_listed.
Qed.
Lemma stand_total cs : exists os, stand_for cs os.
Proof.
  induction cs as [|c cs (os & IH)]; [eexists; constructor|]. destruct (stands_total c) as (o & H). exists (o ++ os). now constructor.
Qed.
Lemma stands_fun c o1 o2 : stands_for c o1 -> stands_for c o2 -> o1 = o2.
Proof.
  intros H1 H2. destruct H1; inversion H2; subst; try reflexivity; try lia.
  apply bt_meant in H. match goal with X : In _ _ |- _ => apply bt_meant in X end. congruence.
Qed.
Lemma stand_fun cs o1 : stand_for cs o1 -> forall o2, stand_for cs o2 -> o1 = o2.
Proof.
  induction 1 as [|c o cs os Hc _ IH]; intros o2 H2; inversion H2; subst; [reflexivity|]. f_equal; [eapply stands_fun; eassumption|now apply IH].
Qed.
Lemma stand_app cs1 o1 cs2 o2 : stand_for cs1 o1 -> stand_for cs2 o2 -> stand_for (cs1 ++ cs2) (o1 ++ o2).
Proof. intros H1 H2. induction H1; [exact H2|]. cbn [app]. rewrite <- app_assoc. now constructor. Qed.
Lemma stand_split cs1 cs2 os : stand_for (cs1 ++ cs2) os -> exists o1 o2, os = o1 ++ o2 /\ stand_for cs1 o1 /\ stand_for cs2 o2.
Proof.
  revert os. induction cs1 as [|c cs1 IH]; intros os H; cbn [app] in H.
  - exists [], os. repeat split; [constructor|exact H].
  - inversion H as [|c' o cs' os' Hc Hs]; subst. destruct (IH _ Hs) as (o1 & o2 & -> & H1 & H2).
    exists (o ++ o1), o2. rewrite app_assoc. repeat split; [now constructor|exact H2].
Qed.

Section Calls.
Context {R Ctx Ev PKS KS : Type}.
Variable conf : kconf R Ctx Ev PKS KS.
Local Notation km := (keymap R Ctx Ev PKS KS).
Implicit Types k : km.

Definition reached fuel ctx k := exists ops, run_ops conf fuel ops (km_new ctx) = Ok k.
Lemma reached_ops fuel ctx k ops k' : reached fuel ctx k -> run_ops conf fuel ops k = Ok k' -> reached fuel ctx k'.
Proof. intros (o & H) H'. exists (o ++ ops). unfold run_ops in *. now rewrite fold_res_app, H. Qed.

Lemma outputs_length k kos : km_pressed_keys conf k = Ok kos -> (length kos <= length (km_pressed k))%nat.
Proof.
  unfold km_pressed_keys. generalize (km_pressed k) as l. intros l. revert kos. induction l as [|p l IH]; intros kos H; cbn in H.
  - injection H as <-. reflexivity.
  - destruct p as [i kr ks|ko]; inv_bind H.
    + inv_bind H. injection H as <-. specialize (IH _ E0). destruct a; cbn; lia.
    + injection H as <-. specialize (IH _ E). cbn. lia.
Qed.
Lemma report_small fuel ctx k k' kos : reached fuel ctx k -> km_report_output conf k = Ok (k', kos) -> (length kos <= MAX_PRESSED_KEYS)%nat.
Proof.
  intros (ops & H) Hr. destruct (report_prefix _ _ _ _ _ _ _ H Hr) as (rest & pressed & Hp & -> & _).
  apply outputs_length in Hp. apply reach_bounded in H. destruct H as (H & _). rewrite app_length in Hp. lia.
Qed.

Lemma c_do_ops fuel ctx c o k k' a : stands_for c o -> reached fuel ctx k -> c_do conf fuel c k = Ok (k', a) ->
  run_ops conf fuel o k = Ok k' /\ hands_back conf fuel k c a.
Proof.
  intros Hs Hk H. unfold run_ops.
  assert (Hn : forall x, hands_back conf fuel k x AnNothing -> hands_back conf fuel k x AnNothing) by auto.
  destruct Hs; cbn [c_do fold_res run_op] in *.
  - injection H as <- <-. split; [reflexivity|]. constructor; discriminate.
  - injection H as <- <-. split; [reflexivity|]. constructor; discriminate.
  - inv_bind H. injection H as <- <-. unfold keymap_register_input_event in E. rewrite event_meant in E. rewrite E. split; [reflexivity|constructor; discriminate].
  - inv_bind H. injection H as <- <-. unfold keymap_register_input_keypress, keymap_register_input_event in E. cbn in E. rewrite E. split; [reflexivity|constructor; discriminate].
  - inv_bind H. injection H as <- <-. unfold keymap_register_input_keyrelease, keymap_register_input_event in E. cbn in E. rewrite E. split; [reflexivity|constructor; discriminate].
  - inv_bind H. destruct a0 as [k2 r]. injection H as <- <-. unfold keymap_tick in E. inv_bind E. inv_bind E. destruct a0 as [k3 kos]. inv_bind E. injection E as <- <-.
    rewrite E0. cbn [bind]. rewrite E1. cbn [bind]. split; [reflexivity|]. econstructor; [exact E0|exact E1|].
    assert (Hl : (length kos <= MAX_PRESSED_KEYS)%nat).
    { eapply report_small; [|exact E1]. eapply reached_ops with (ops := [OpTick]); [exact Hk|]. unfold run_ops. cbn [fold_res run_op]. now rewrite E0. }
    destruct (C36_report kos Hl) as (r' & Er & Hr). rewrite Er in E2. injection E2 as <-. exact Hr.
  - inv_bind H. destruct a0 as [[k2 r] t]. injection H as <- <-. unfold keymap_register_input_after_ms in E. rewrite event_meant in E.
    inv_bind E. destruct a as [k1 nxt]. inv_bind E. destruct a as [k3 kos]. inv_bind E. inv_bind E. injection E as <- <- <-.
    rewrite E0. cbn [bind]. rewrite E1. cbn [bind]. split; [reflexivity|].
    assert (Hl : (length kos <= MAX_PRESSED_KEYS)%nat).
    { eapply report_small; [|exact E1]. eapply reached_ops with (ops := [OpInputAfter delta (meant e)]); [exact Hk|]. unfold run_ops. cbn [fold_res run_op]. now rewrite E0. }
    destruct (C36_report kos Hl) as (r' & Er & Hr). rewrite Er in E2. injection E2 as <-.
    econstructor; [exact E0|exact E1|exact Hr|]. unfold c_timeout in E3. destruct nxt as [n|]; cbn; [destruct (_ && _); [discriminate|]|]; now injection E3.
  - inv_bind H. destruct a0 as [[k2 r] t]. injection H as <- <-. unfold keymap_next_event_timeout in E.
    inv_bind E. destruct a as [k1 nxt]. inv_bind E. destruct a as [k3 kos]. inv_bind E. inv_bind E. injection E as <- <- <-.
    rewrite E0. cbn [bind]. rewrite E1. cbn [bind]. split; [reflexivity|].
    assert (Hl : (length kos <= MAX_PRESSED_KEYS)%nat).
    { eapply report_small; [|exact E1]. eapply reached_ops with (ops := [OpTickToNext]); [exact Hk|]. unfold run_ops. cbn [fold_res run_op]. now rewrite E0. }
    destruct (C36_report kos Hl) as (r' & Er & Hr). rewrite Er in E2. injection E2 as <-.
    econstructor; [exact E0|exact E1|exact Hr|]. unfold c_timeout in E3. destruct nxt as [n|]; cbn; [destruct (_ && _); [discriminate|]|]; now injection E3.
  - injection H as <- <-. split; [reflexivity|constructor].
  - inv_bind H. injection H as <- <-. unfold keymap_register_callback in E. cbn in E. rewrite E. split; [reflexivity|constructor; discriminate].
  - inv_bind H. injection H as <- <-. unfold keymap_register_callback in E. cbn in E. rewrite E. split; [reflexivity|constructor; discriminate].
  - inv_bind H. injection H as <- <-. unfold keymap_register_callback in E.
    assert (X : (id =? 0) = false) by (apply N.eqb_neq; unfold u8 in *; lia). rewrite X in E.
    assert (X' : (id =? 1) = false) by (apply N.eqb_neq; unfold u8 in *; lia). rewrite X' in E.
    injection E as <-. split; [reflexivity|constructor; discriminate].
  - inv_bind H. injection H as <- <-. unfold keymap_register_custom_callback in E. rewrite E. split; [reflexivity|constructor; discriminate].
  - inv_bind H. injection H as <- <-. unfold keymap_register_bluetooth_callback in E. rewrite (bt_meant _ _ H0) in E. rewrite E. split; [reflexivity|constructor; discriminate].
Qed.

Lemma c_do_total fuel ctx c o k k' : stands_for c o -> reached fuel ctx k -> kc_debug conf = false \/ timed_call c = false ->
  run_ops conf fuel o k = Ok k' -> exists a, c_do conf fuel c k = Ok (k', a).
Proof.
  intros Hs Hk Hd H. unfold run_ops in H.
  assert (Hu : forall o1 k1 k2 kos, run_op conf fuel k o1 = Ok k1 -> km_report_output conf k1 = Ok (k2, kos) -> exists r, c_update kos = Ok r).
  { intros o1 k1 k2 kos E1 E2. assert (Hl : (length kos <= MAX_PRESSED_KEYS)%nat).
    { eapply report_small; [|exact E2]. eapply reached_ops with (ops := [o1]); [exact Hk|]. unfold run_ops. cbn [fold_res]. now rewrite E1. }
    destruct (C36_report kos Hl) as (r' & Er & _). eauto. }
  assert (Ht : forall nxt, kc_debug conf = false -> exists t, c_timeout conf nxt = Ok t).
  { intros [n|] D; cbn; [rewrite D, andb_false_r|]; eauto. }
  destruct Hs; cbn [fold_res] in H; cbn [c_do].
  - injection H as <-. eexists. reflexivity.
  - injection H as <-. eexists. reflexivity.
  - cbn [run_op] in H. inv_bind H. injection H as <-. unfold keymap_register_input_event. rewrite event_meant, E. eexists. reflexivity.
  - cbn [run_op] in H. inv_bind H. injection H as <-. unfold keymap_register_input_keypress, keymap_register_input_event. cbn. rewrite E. eexists. reflexivity.
  - cbn [run_op] in H. inv_bind H. injection H as <-. unfold keymap_register_input_keyrelease, keymap_register_input_event. cbn. rewrite E. eexists. reflexivity.
  - inv_bind H. inv_bind H. injection H as <-. cbn [run_op] in E0. inv_bind E0. destruct a1 as [k2 kos]. injection E0 as <-.
    destruct (Hu _ _ _ _ E E1) as (r & Er). unfold keymap_tick. cbn [run_op] in E. rewrite E. cbn [bind]. rewrite E1. cbn [bind]. rewrite Er. eexists. reflexivity.
  - inv_bind H. inv_bind H. injection H as <-. cbn [run_op] in E0. inv_bind E0. destruct a1 as [k2 kos]. injection E0 as <-.
    destruct (Hu _ _ _ _ E E1) as (r & Er). unfold keymap_register_input_after_ms. rewrite event_meant. cbn [run_op] in E. inv_bind E. destruct a0 as [k1 nxt]. injection E as ->.
    destruct Hd as [D|D]; [|discriminate]. destruct (Ht nxt D) as (t & Et).
    rewrite E0. cbn [bind]. rewrite E1. cbn [bind]. rewrite Er. cbn [bind]. rewrite Et. eexists. reflexivity.
  - inv_bind H. inv_bind H. injection H as <-. cbn [run_op] in E0. inv_bind E0. destruct a1 as [k2 kos]. injection E0 as <-.
    destruct (Hu _ _ _ _ E E1) as (r & Er). unfold keymap_next_event_timeout. cbn [run_op] in E. inv_bind E. destruct a0 as [k1 nxt]. injection E as ->.
    destruct Hd as [D|D]; [|discriminate]. destruct (Ht nxt D) as (t & Et).
    rewrite E0. cbn [bind]. rewrite E1. cbn [bind]. rewrite Er. cbn [bind]. rewrite Et. eexists. reflexivity.
  - injection H as <-. eexists. reflexivity.
  - cbn [run_op] in H. inv_bind H. injection H as <-. unfold keymap_register_callback. cbn. rewrite E. eexists. reflexivity.
  - cbn [run_op] in H. inv_bind H. injection H as <-. unfold keymap_register_callback. cbn. rewrite E. eexists. reflexivity.
  - injection H as <-. unfold keymap_register_callback.
    assert (X : (id =? 0) = false) by (apply N.eqb_neq; unfold u8 in *; lia). rewrite X.
    assert (X' : (id =? 1) = false) by (apply N.eqb_neq; unfold u8 in *; lia). rewrite X'. eexists. reflexivity.
  - cbn [run_op] in H. inv_bind H. injection H as <-. unfold keymap_register_custom_callback. rewrite E. eexists. reflexivity.
  - cbn [run_op] in H. inv_bind H. injection H as <-. unfold keymap_register_bluetooth_callback. rewrite (bt_meant _ _ H0), E. eexists. reflexivity.
Qed.

Lemma c_run_ops fuel ctx cs : forall os k k' l, stand_for cs os -> reached fuel ctx k -> c_run conf fuel cs k = Ok (k', l) ->
  run_ops conf fuel os k = Ok k' /\ length l = length cs.
Proof.
  induction cs as [|c cs IH]; intros os k k' l Hs Hk H; inversion Hs as [|c' o cs' os' Hc Hcs]; subst; cbn [c_run] in H.
  - injection H as <- <-. split; reflexivity.
  - inv_bind H. destruct a as [k1 a]. inv_bind H. destruct a0 as [k2 l2]. injection H as <- <-.
    destruct (c_do_ops _ _ _ _ _ _ _ Hc Hk E) as (E1 & _). destruct (IH _ _ _ _ Hcs (reached_ops _ _ _ _ _ Hk E1) E0) as (E2 & El).
    split; [|cbn; now rewrite El]. unfold run_ops in *. now rewrite fold_res_app, E1.
Qed.
Lemma c_run_app fuel cs1 : forall cs2 k, c_run conf fuel (cs1 ++ cs2) k =
  let! (k1, l1) := c_run conf fuel cs1 k in let! (k2, l2) := c_run conf fuel cs2 k1 in Ok (k2, l1 ++ l2).
Proof.
  induction cs1 as [|c cs1 IH]; intros cs2 k; cbn [app c_run bind].
  - destruct (c_run conf fuel cs2 k) as [[k2 l2]| |]; reflexivity.
  - destruct (c_do conf fuel c k) as [[k1 a]| |]; cbn [bind]; try reflexivity. rewrite IH.
    destruct (c_run conf fuel cs1 k1) as [[k3 l3]| |]; cbn [bind]; try reflexivity. destruct (c_run conf fuel cs2 k3) as [[k4 l4]| |]; reflexivity.
Qed.
Lemma c_run_total fuel ctx cs : forall os k k', stand_for cs os -> reached fuel ctx k -> kc_debug conf = false \/ Forall (fun c => timed_call c = false) cs ->
  run_ops conf fuel os k = Ok k' -> exists l, c_run conf fuel cs k = Ok (k', l).
Proof.
  induction cs as [|c cs IH]; intros os k k' Hs Hk Hd H; inversion Hs as [|c' o cs' os' Hc Hcs]; subst; cbn [c_run].
  - injection H as <-. eexists. reflexivity.
  - unfold run_ops in H. rewrite fold_res_app in H. inv_bind H.
    destruct (c_do_total fuel ctx c o k a Hc Hk) as (an & Ea); [destruct Hd as [D|D]; [now left|right; now inversion D]|exact E|].
    destruct (IH os' a k' Hcs (reached_ops _ _ _ _ _ Hk E)) as (l & El); [destruct Hd as [D|D]; [now left|right; now inversion D]|exact H|].
    rewrite Ea. cbn [bind]. rewrite El. eexists. reflexivity.
Qed.

(** A report for each tick. *)
Definition polls (n : nat) : list op := flat_map (fun _ => [OpTick; OpReport]) (repeat tt n).
Lemma polls_succ n : polls (S n) = polls n ++ [OpTick; OpReport].
Proof.
  unfold polls. replace (S n) with (n + 1)%nat by lia. rewrite repeat_app, flat_map_app. reflexivity.
Qed.
Lemma polls_add n m : polls (n + m) = polls n ++ polls m.
Proof. unfold polls. now rewrite repeat_app, flat_map_app. Qed.
Lemma report_times_succ n l : report_times (S n) l = report_times n l ++ report_once l.
Proof. induction n as [|n IH]; [reflexivity|]. cbn [report_times] in *. rewrite <- app_assoc. now rewrite <- IH. Qed.
Lemma tick_rep fuel k k' : km_tick conf fuel k = Ok k' -> km_rep k' = km_rep k.
Proof.
  intros H. apply tick_cases in H as (k1 & k2 & s & k3 & H1 & E2 & Hs & H3 & _ & ->).
  apply exec_frame in H3 as (_ & _ & _ & F & _). cbn in *. rewrite F. subst k2.
  assert (X : km_rep k1 = km_rep k).
  { destruct H1 as [(x & q & k1' & _ & _ & H1 & ->)|(-> & _)]; [|reflexivity]. now apply exec_frame in H1 as (_ & _ & _ & F1 & _). }
  destruct (0 <? km_delay k1); exact X.
Qed.
Lemma polls_rep fuel l rops k : km_rep k = rep_run rops -> forall n k',
  (forall i k1, (i <= n)%nat -> run_ops conf fuel (polls i) k = Ok k1 -> km_pressed_keys conf k1 = Ok l) ->
  run_ops conf fuel (polls n) k = Ok k' -> km_rep k' = rep_run (rops ++ report_times n l).
Proof.
  intros Hr. induction n as [|n IH]; intros k' Hp H.
  - injection H as <-. cbn [report_times]. now rewrite app_nil_r.
  - pose proof (Hp (S n) k' (le_n _) H) as Hl.
    rewrite polls_succ in H. unfold run_ops in H. rewrite fold_res_app in H. inv_bind H. cbn [fold_res run_op] in H. inv_bind H. inv_bind H. inv_bind E1.
    destruct a2 as [k2 kos]. injection E1 as <-. injection H as <-. unfold km_report_output in E2. inv_bind E2. injection E2 as <- <-.
    assert (a1 = l) as ->. { change (km_pressed_keys conf (set_rep a0 (rep_sent (rep_update (km_rep a0) a1)))) with (km_pressed_keys conf a0) in Hl. congruence. }
    rewrite report_times_succ, app_assoc. unfold rep_run at 1. rewrite fold_left_app. fold (rep_run (rops ++ report_times n l)).
    rewrite <- (IH a (fun i k1 Hi => Hp i k1 (le_S _ _ Hi)) E). cbn. now rewrite (tick_rep _ _ _ E0).
Qed.
End Calls.

Lemma polls_queue n : forall q, fold_left queue_step (polls n) q = fold_left queue_step (repeat OpTick n) q.
Proof. induction n as [|n IH]; intros q; [reflexivity|]. cbn. apply IH. Qed.
Lemma polls_accepted ops n : accepted (ops ++ polls n) = accepted ops.
Proof.
  unfold accepted. generalize queue_new as q. induction ops as [|o ops IH]; intros q; cbn [app accepted_from]; [|now rewrite IH].
  revert q. induction n as [|n IH]; intros q; cbn; [reflexivity|apply IH].
Qed.
Lemma polls_clocks ops n : ck_now (clocks_run (ops ++ polls n)) = ck_now (clocks_run ops) + N.of_nat n * ck_ms (clocks_run ops).
Proof.
  rewrite <- clocks_ticks. unfold clocks_run. rewrite !fold_left_app. generalize (fold_left clocks_step ops clocks_new) as c.
  induction n as [|n IH]; intros c; [reflexivity|]. cbn. apply IH.
Qed.
Lemma polls_plain n : Forall (fun o => plain_op o = true) (polls n).
Proof. induction n as [|n IH]; [constructor|]. cbn. repeat constructor. exact IH. Qed.
Lemma stand_polls n : stand_for (repeat CcTick n) (polls n).
Proof. induction n as [|n IH]; [constructor|]. exact (sfs_cons CcTick [OpTick; OpReport] _ _ sf_tick IH). Qed.
Lemma stand_plain cs os : stand_for cs os -> Forall (fun c => polled_call c = true) cs -> Forall (fun o => plain_op o = true) os.
Proof.
  induction 1 as [|c o cs os Hc _ IH]; intros H; inversion H as [|c' cs' Hp Hps]; subst; [constructor|]. apply Forall_app. split; [|now apply IH].
  destruct Hc; try discriminate Hp; repeat constructor.
Qed.
Lemma polled_untimed c : polled_call c = true -> timed_call c = false.
Proof. destruct c; cbn; congruence. Qed.
