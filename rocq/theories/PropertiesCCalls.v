(** C66: a program of C calls is the program of Rust calls it stands for. *)
From Verif Require Import BaseFacts Output Types Scheduler Reporter Keymap SimpleKeys Sticky Layered Chorded Composite Samples SpecOutput SpecReporter SpecKeymap KeymapInv KeymapQueue KeymapApi
  SpecPlain PlainFacts SpecLayer SpecBoard BoardFacts CApi CCalls SpecCCalls CCallsFacts PropertiesReporter PropertiesBoard.
Local Open Scope N_scope.

(** C66: every C call stands for exactly one sequence of calls. *)
Theorem C66_meaning : forall cs, exists ops, stand_for cs ops /\ forall ops', stand_for cs ops' -> ops' = ops.
Proof. intros cs. destruct (stand_total cs) as (ops & H). exists ops. split; [exact H|]. intros ops' H'. symmetry. eapply stand_fun; eassumption. Qed.

(** C66: a program of C calls leaves the keymap as the Rust calls do ... *)
Theorem C66_calls : forall R Ctx Ev PKS KS (conf : kconf R Ctx Ev PKS KS) fuel ctx cs ops k answers, stand_for cs ops ->
  c_run conf fuel cs (km_new ctx) = Ok (k, answers) ->
  run_ops conf fuel ops (km_new ctx) = Ok k /\ length answers = length cs.
Proof.
  intros R Ctx Ev PKS KS conf fuel ctx cs ops k answers Hs H. eapply c_run_ops; [exact Hs| |exact H]. exists []. reflexivity.
Qed.
(** ... each call hands back what the Rust calls would at that point ... *)
Theorem C66_answers : forall R Ctx Ev PKS KS (conf : kconf R Ctx Ev PKS KS) fuel ctx before c after k answers,
  c_run conf fuel (before ++ c :: after) (km_new ctx) = Ok (k, answers) ->
  exists ops k1 a, stand_for before ops /\ run_ops conf fuel ops (km_new ctx) = Ok k1
  /\ nth_error answers (length before) = Some a /\ hands_back conf fuel k1 c a.
Proof.
  intros R Ctx Ev PKS KS conf fuel ctx before c after k answers H. rewrite c_run_app in H. inv_bind H. destruct a as [k1 l1].
  inv_bind H. destruct a as [k2 l2]. injection H as <- <-. cbn [c_run] in E0. inv_bind E0. destruct a as [k3 a]. inv_bind E0. destruct a0 as [k4 l4]. injection E0 as <- <-.
  destruct (stand_total before) as (ops & Ho). destruct (stands_total c) as (o & Hc).
  destruct (c_run_ops conf fuel ctx _ _ _ _ _ Ho (ex_intro _ [] eq_refl) E) as (E3 & El).
  exists ops, k1, a. split; [exact Ho|]. split; [exact E3|]. split.
  - rewrite nth_error_app2 by lia. rewrite El, Nat.sub_diag. reflexivity.
  - eapply c_do_ops; [exact Hc| |exact E1]. exists ops. exact E3.
Qed.
(** ... and it panics only where they do, or at the assertion (of debug builds only)
    that a returned time is not zero. *)
Theorem C66_total : forall R Ctx Ev PKS KS (conf : kconf R Ctx Ev PKS KS) fuel ctx cs ops k, stand_for cs ops ->
  kc_debug conf = false \/ Forall (fun c => timed_call c = false) cs ->
  run_ops conf fuel ops (km_new ctx) = Ok k -> exists answers, c_run conf fuel cs (km_new ctx) = Ok (k, answers).
Proof.
  intros R Ctx Ev PKS KS conf fuel ctx cs ops k Hs Hd H. eapply c_run_total; [exact Hs| |exact Hd|exact H]. exists []. reflexivity.
Qed.

(** With a report for each tick, after 47 ticks all that is down is reported. *)
Lemma settled_report refs d pos dbg height fuel sops ops m cf k :
  Forall (board_key (cf_layer_count cf) d height) refs -> registers_two sops -> Forall (fun o => plain_op o = true) ops -> (47 <= m)%nat ->
  run_ops (cconf refs d pos dbg) fuel (sops ++ ops ++ polls m) (km_new (ctx_from_config cf)) = Ok k ->
  exists b calls, board_run (cf_layer_count cf) refs d (accepted ops) b
  /\ rep_reportable (km_rep k) = board_output b /\ (length (board_output b) <= 16)%nat
  /\ board_calls (cf_layer_count cf) refs d (accepted ops) calls /\ km_calls k = filter_map (registered sops) calls.
Proof.
  intros Hr Hset Ho Hm E.
  assert (Hop : forall i, Forall (fun o => plain_op o = true) (ops ++ polls i)) by (intros i; apply Forall_app; split; [exact Ho|apply polls_plain]).
  set (conf := cconf refs d pos dbg). set (k0 := @km_new ref cctx cev cpks cks (ctx_from_config cf)).
  fold conf k0 in E.
  (* after 32 ticks, what is down is fixed *)
  assert (Hall : forall i ki, (32 <= i)%nat -> run_ops conf fuel (sops ++ ops ++ polls i) k0 = Ok ki ->
    (exists b, board_run (cf_layer_count cf) refs d (accepted ops) b /\ km_pressed_keys conf ki = Ok (board_output b))
    /\ exists calls, board_calls (cf_layer_count cf) refs d (accepted ops) calls /\ km_calls ki = filter_map (registered sops) calls).
  { intros i ki Hi Ei.
    destruct (C62_pressed _ _ _ _ _ _ _ _ _ _ Hr Hset (Hop i) Ei) as (taken & b & Ea & Hb & Hp & _).
    destruct (C62_callbacks _ _ _ _ _ _ _ _ _ _ Hr Hset (Hop i) Ei) as (taken' & calls & Ea' & Hca & Hcb).
    destruct (setup_total conf fuel sops Hset (ctx_from_config cf)) as (L & EL).
    unfold run_ops in Ei, EL. rewrite fold_res_app in Ei. subst k0. rewrite EL in Ei. cbn [bind] in Ei.
    pose proof (run_board refs d pos dbg _ height Hr L fuel _ cf ki eq_refl (Hop i) Ei) as (_ & _ & Hq & _).
    assert (Hw : q_waiting (queue_run (ops ++ polls i)) = []).
    { unfold queue_run. rewrite fold_left_app, polls_queue. apply queue_drained. fold (queue_run ops).
      assert (X : (length (q_waiting (queue_run ops)) <= 31)%nat) by apply queue_bound. destruct (q_busy (queue_run ops)); lia. }
    rewrite Hq, Hw, app_nil_r, polls_accepted in Ea, Ea'. subst taken taken'. split; eauto. }
  destruct (Hall m k) as ((b & Hb & Hp) & calls & Hca & Hcb); [lia|exact E|].
  assert (Eperm : exists k32, run_ops conf fuel (sops ++ ops ++ polls 32) k0 = Ok k32 /\ run_ops conf fuel (polls (m - 32)) k32 = Ok k).
  { replace m with (32 + (m - 32))%nat in E by lia. rewrite polls_add, (app_assoc ops), (app_assoc sops) in E. unfold run_ops in E. rewrite fold_res_app in E.
    inv_bind E. exists a. split; assumption. }
  destruct Eperm as (k32 & E32 & Em).
  destruct (reach_rep _ _ _ _ _ E32) as (rops & Hrep).
  assert (Hk : km_rep k = rep_run (rops ++ report_times (m - 32) (board_output b))).
  { eapply polls_rep; [exact Hrep| |exact Em]. intros i k1 Hi E1.
    destruct (Hall (32 + i)%nat k1) as ((b1 & Hb1 & Hp1) & _); [lia| |].
    - rewrite polls_add, (app_assoc ops), (app_assoc sops). unfold run_ops in *. rewrite fold_res_app. now rewrite E32.
    - rewrite Hp1. destruct (C62_unique _ _ _ _ _ _ Hb1 Hb) as (Hd & _). unfold board_output. now rewrite Hd. }
  assert (Hlen : (length (board_output b) <= 16)%nat).
  { apply outputs_length in Hp. pose proof (reach_bounded _ _ _ _ _ E) as (X & _). unfold MAX_PRESSED_KEYS in X. lia. }
  assert (Hrp : rep_reportable (km_rep k) = board_output b) by (rewrite Hk; apply C07_all_reported; lia).
  exists b, calls. repeat (split; [assumption|]). assumption.
Qed.

(** C66, a keyboard end to end: initialise, register callbacks, register presses
    and releases between ticks at any pace, then tick 47 times.  Nothing panics,
    the last report shows exactly what the layers say is down, and the functions
    registered for the callback keys pressed have been called. *)
Theorem C66_keyboard : forall refs d pos dbg height fuel setup sops cs ops m cf,
  Forall (board_key (cf_layer_count cf) d height) refs -> N.of_nat (length refs) <= 65535 -> (height + 4 <= fuel)%nat ->
  stand_for setup sops -> registers_two sops ->
  stand_for cs ops -> Forall (fun c => polled_call c = true) cs ->
  fits (length refs) (chc_max_pressed (cf_chorded cf)) (accepted ops) ->
  (47 <= m)%nat -> ck_now (clocks_run ops) + N.of_nat m * ck_ms (clocks_run ops) <= u32_max ->
  exists k answers r b calls,
    c_run (cconf refs d pos dbg) fuel (setup ++ cs ++ repeat CcTick m) (km_new (ctx_from_config cf)) = Ok (k, answers ++ [AnReport r])
  /\ board_run (cf_layer_count cf) refs d (accepted ops) b /\ shows (board_output b) r
  /\ board_calls (cf_layer_count cf) refs d (accepted ops) calls /\ km_calls k = filter_map (registered sops) calls.
Proof.
  intros refs d pos dbg height fuel setup sops cs ops m cf Hr Hl Hf Hsu Hset Hcs Hpol Hfit Hm Hc.
  pose proof (stand_plain _ _ Hcs Hpol) as Ho.
  destruct (C62_never_panics refs d pos dbg height fuel sops (ops ++ polls m) cf Hr Hl Hf Hset) as (k & E);
    [apply Forall_app; split; [exact Ho|apply polls_plain]|now rewrite polls_accepted|now rewrite polls_clocks|].
  destruct (settled_report _ _ _ _ _ _ _ _ _ _ _ Hr Hset Ho Hm E) as (b & calls & Hb & Hrp & Hlen & Hca & Hcb).
  set (conf := cconf refs d pos dbg) in *.
  (* the program of C calls *)
  pose proof (stand_app _ _ _ _ Hsu (stand_app _ _ _ _ Hcs (stand_polls m))) as Hall_ops.
  destruct (C66_total _ _ _ _ _ conf fuel (ctx_from_config cf) _ _ k Hall_ops) as (answers & Er); [|exact E|].
  { right. apply Forall_app. split; [|apply Forall_app; split].
    - destruct Hset as (x & y & Hset). clear -Hsu Hset. revert Hset. induction Hsu as [|c o cs os Hc _ IH]; intros Hset; [constructor|].
      apply Forall_app in Hset as (H1 & H2). constructor; [|now apply IH]. destruct Hc; try reflexivity; inversion H1 as [|z zs Hz]; destruct Hz as [Hz|(f & [Hz|Hz])]; discriminate.
    - eapply Forall_impl; [|exact Hpol]. exact polled_untimed.
    - apply Forall_forall. intros c Hi. apply repeat_spec in Hi. now subst. }
  replace m with (m - 1 + 1)%nat in Er by lia. rewrite repeat_app, !app_assoc in Er. cbn [repeat] in Er.
  destruct (C66_answers _ _ _ _ _ conf fuel (ctx_from_config cf) _ CcTick [] k answers Er) as (os' & k1 & a & Ho1 & E1 & Ha & Hh).
  pose proof Er as Er'. rewrite c_run_app in Er'. inv_bind Er'. destruct a0 as [k2 l2]. inv_bind Er'. destruct a0 as [k3 l3]. injection Er' as -> <-.
  destruct (c_run_ops conf fuel (ctx_from_config cf) _ _ _ _ _ Ho1 (ex_intro _ [] eq_refl) E0) as (E3 & El). assert (k2 = k1) as -> by congruence.
  cbn [c_run c_do] in E2. inv_bind E2. destruct a0 as [k4 a4]. injection E2 as -> <-. inv_bind E4. destruct a0 as [k5 r]. injection E4 as -> <-.
  exists k, l2, r, b, calls. assert (Em1 : repeat CcTick m = repeat CcTick (m - 1) ++ [CcTick]) by (change [CcTick] with (repeat CcTick 1); rewrite <- repeat_app; f_equal; lia).
  rewrite Em1.
  rewrite !app_assoc. split; [exact Er|]. split; [exact Hb|]. split; [|split; assumption].
  rewrite nth_error_app2 in Ha by lia. rewrite El, Nat.sub_diag in Ha. cbn in Ha. injection Ha as <-.
  inversion Hh as [k6 k7 kos r' Ht Hro Hsh| | | |]; subst.
  unfold keymap_tick in E2. rewrite Ht in E2. cbn [bind] in E2. rewrite Hro in E2. cbn [bind] in E2. inv_bind E2. injection E2 as -> ->.
  unfold km_report_output in Hro. inv_bind Hro. injection Hro as <- <-. cbn in Hrp. rewrite Hrp in Hsh. exact Hsh.
Qed.

(** A C program with a tap-hold key of the sample keymap, timed inputs, a virtual
    key and callbacks; what it stands for, and what it hands back. *)
Definition c_program : list capi_call :=
  [CcCallback 0 7; CcInit; CcSetMs 5; CcPress 2; CcTick; CcPolling; CcTimeout; CcAfter 10 (mkCEvent CPress 0); CcRelease 2;
   CcTick; CcTick; CcAfter 5 (mkCEvent CVirtualPress 260); CcBluetooth CBtSelect3 9; CcCallback 3 4].
Example C66_example :
  stand_for c_program
    [OpSetCallback CbReset 7; OpInit; OpSetMs 5; OpInput (Press 2); OpTick; OpReport; OpTickToNext; OpReport; OpInputAfter 10 (Press 0); OpReport; OpInput (Release 2);
     OpTick; OpReport; OpTick; OpReport; OpInputAfter 5 (VirtualKeyPress (out 4)); OpReport; OpSetCallback (CbBluetooth (BtSelect 3)) 9]
  /\ returns (c_run sample 60 c_program (km_new sample_ctx)) (fun ka => let '(k, answers) := ka in
       map (fun a => match a with AnNothing => [] | AnReport r => cr_keyboard r | AnTimed r t => t :: cr_keyboard r | AnFlag b => [if b then 1 else 0] end) answers
       = [[]; []; []; []; [0; 0; 0; 0; 0; 0; 0; 0]; [0]; [0; 1; 0; 0; 0; 0; 0; 0; 0]; [0; 1; 0; 4; 0; 0; 0; 0; 0]; [];
          [1; 0; 4; 0; 0; 0; 0; 0]; [0; 0; 4; 0; 0; 0; 0; 0]; [0; 0; 0; 4; 4; 0; 0; 0; 0]; []; []]
       /\ km_callbacks k = [(CbReset, 7); (CbBluetooth (BtSelect 3), 9)]).
Proof.
  split; [|vm_compute; repeat split; reflexivity].
  apply (sfs_cons _ [_]); [apply sf_reset|]. apply (sfs_cons _ [_]); [apply sf_init|]. apply (sfs_cons _ [_]); [apply sf_ms|].
  apply (sfs_cons _ [_]); [apply sf_press|]. apply (sfs_cons _ [_; _]); [apply sf_tick|]. apply (sfs_cons _ []); [apply sf_polling|].
  apply (sfs_cons _ [_; _]); [apply sf_timeout|]. apply (sfs_cons _ [_; _]); [exact (sf_after 10 (mkCEvent CPress 0))|].
  apply (sfs_cons _ [_]); [apply sf_release|]. apply (sfs_cons _ [_; _]); [apply sf_tick|]. apply (sfs_cons _ [_; _]); [apply sf_tick|].
  apply (sfs_cons _ [_; _]); [exact (sf_after 5 (mkCEvent CVirtualPress 260))|].
  apply (sfs_cons _ [_]); [apply sf_bluetooth; cbn; tauto|]. apply (sfs_cons _ []); [apply sf_unknown; lia|constructor].
Qed.
(** The keyboard with layers of C62, driven from C. *)
Example C66_keyboard_example :
  let setup := [CcCallback 1 7; CcInit] in
  let cs := [CcSetMs 2; CcPress 3; CcTick; CcPress 1; CcTick; CcPolling; CcRelease 3; CcEvent (mkCEvent CPress 7); CcTick] in
  let ops := [OpSetMs 2; P 3; OpTick; OpReport; P 1; OpTick; OpReport; Rl 3; P 7; OpTick; OpReport] in
  stand_for setup [OpSetCallback CbResetToBootloader 7; OpInit] /\ registers_two [OpSetCallback CbResetToBootloader 7; OpInit]
  /\ stand_for cs ops /\ Forall (fun c => polled_call c = true) cs /\ fits 8 16 (accepted ops)
  /\ returns (c_run (cconf board_refs sample_data bs_std false) 6 (setup ++ cs ++ repeat CcTick 47) (km_new sample_ctx)) (fun ka =>
       km_calls (fst ka) = [7]
       /\ match last (snd ka) AnNothing with AnReport r => cr_keyboard r = [0; 0; 7; 0; 0; 0; 0; 0] | _ => False end).
Proof.
  cbv zeta. split; [|split; [|split; [|split; [|split]]]].
  - apply (sfs_cons _ [_]); [apply sf_bootloader|]. apply (sfs_cons _ [_]); [apply sf_init|constructor].
  - exists CbResetToBootloader, CbReset. constructor; [right; exists 7; now left|]. constructor; [now left|constructor].
  - apply (sfs_cons _ [_]); [apply sf_ms|]. apply (sfs_cons _ [_]); [apply sf_press|]. apply (sfs_cons _ [_; _]); [apply sf_tick|].
    apply (sfs_cons _ [_]); [apply sf_press|]. apply (sfs_cons _ [_; _]); [apply sf_tick|]. apply (sfs_cons _ []); [apply sf_polling|].
    apply (sfs_cons _ [_]); [apply sf_release|]. apply (sfs_cons _ [_]); [exact (sf_event (mkCEvent CPress 7))|].
    apply (sfs_cons _ [_; _]); [apply sf_tick|constructor].
  - repeat constructor.
  - split.
    + intros i Hi. cbn in Hi. repeat (destruct Hi as [Hi|Hi]; [try discriminate Hi; injection Hi as <-; cbn; lia|]). destruct Hi.
    + intros n. do 5 (destruct n as [|n]; [vm_compute; split; [lia|right; lia]|]). cbv zeta.
      rewrite firstn_all2 by (cbn; lia). vm_compute. split; [lia|right; lia].
  - vm_compute. repeat split; reflexivity.
Qed.

Print Assumptions C66_meaning.
Print Assumptions C66_calls.
Print Assumptions C66_answers.
Print Assumptions C66_total.
Print Assumptions C66_keyboard.
