(** Theorems C55 and C56: the serial link between the halves in the C firmware. *)
From Verif Require Import Base Output Types Split CApi CSplit SpecCSplit BaseFacts SplitFacts CSplitFacts CSplitRxFacts.
Local Open Scope nat_scope.

(** C55: whenever calls, bytes and interrupts happen, the bytes on the wire are those
    of the events given, in order, each once: a beginning of them, cut off less than
    one message and fifteen waiting events before the end. *)
Theorem C55_in_order : forall l s,
  tx_run l tx_new = Ok s ->
  exists begun waiting rest, tx_given s = begun ++ waiting /\ wire_of begun (tx_wire s ++ rest)
    /\ length waiting <= 15 /\ length rest <= 4.
Proof.
  intros l s H. destruct (tx_run_ok _ _ H) as (sent & q & I). exists sent, q, (skipn (4 - tx_left s) (tx_buffer s)).
  repeat split; [exact (to_given _ _ _ I)|exact (to_wire _ _ _ I)|exact (rg_room _ _ _ (to_ring _ _ _ I))|].
  rewrite skipn_length, (to_buffer _ _ _ I). lia.
Qed.
Print Assumptions C55_in_order.

(** C55: nothing is forgotten: when the DMA is done, no interrupt waits and no call is
    running, the bytes on the wire are exactly those of the accepted events. *)
Theorem C55_nothing_stuck : forall l s,
  tx_run l tx_new = Ok s -> tx_quiet s -> wire_of (tx_accepted s) (tx_wire s).
Proof.
  intros l s H (Q1 & Q2 & Q3). destruct (tx_run_ok _ _ H) as (sent & q & I). pose proof (to_given _ _ _ I) as G. pose proof (to_wire _ _ _ I) as W.
  pose proof (to_busy _ _ _ I) as B. unfold tx_given in G. rewrite Q1, app_nil_r in G. rewrite Q2, skipn_all2, app_nil_r in W by (rewrite (to_buffer _ _ _ I); lia).
  rewrite Q1, Q2, Q3 in B. destruct (tx_busy s); [destruct B as [[B _]|[_ B]]; [lia|discriminate]|]. destruct B as (_ & _ & ->).
  rewrite app_nil_r in G. now rewrite G.
Qed.
Print Assumptions C55_nothing_stuck.

(** C55: and it gets there: while anything is left to do something can be done, and
    without further calls at most 83 steps do anything. *)
Theorem C55_comes_to_rest : forall l s,
  tx_run l tx_new = Ok s ->
  (~ tx_quiet s -> exists a, (forall ev, a <> TxCall ev) /\ tx_do s a <> Ok s)
  /\ forall l' s', tx_run l' s = Ok s' -> tx_calls l' = [] -> tx_effective l' s -> length l' <= 83.
Proof.
  intros l s H. destruct (tx_run_ok _ _ H) as (sent & q & I). split; [eapply tx_enabled; eauto|].
  intros l' s' H' Hc He. pose proof (tx_effective_bound _ _ _ _ _ I H' Hc He). pose proof (tx_weight_bound _ _ _ I). lia.
Qed.
Print Assumptions C55_comes_to_rest.

(** C55: an event is refused only when at least fifteen accepted ones, 60 bytes, have
    not left yet. *)
Lemma wire_of_len evs w : wire_of evs w -> length w = 4 * length evs.
Proof. induction 1 as [|ev b evs rest E _ IH]; [reflexivity|]. rewrite app_length, (frame_len _ _ E), IH. cbn [length]. lia. Qed.
Theorem C55_refused : forall l s ev,
  tx_run l tx_new = Ok s -> tx_call_at s = TcNone ->
  tx_log (tx_do_call ev s) = tx_log s ++ [(ev, false)] ->
  length (tx_wire s) + 60 <= 4 * length (tx_accepted s).
Proof.
  intros l s ev H Hc Hr. destruct (tx_run_ok _ _ H) as (sent & q & I). unfold tx_do_call in Hr. rewrite Hc, (tx_full _ _ _ I) in Hr.
  destruct (Nat.eqb_spec (length q) 15) as [G|G].
  - pose proof (wire_of_len _ _ (to_wire _ _ _ I)) as W. pose proof (to_given _ _ _ I) as E. unfold tx_given in E. rewrite Hc, app_nil_r in E.
    rewrite E, app_length, G. rewrite app_length in W. lia.
  - exfalso. apply (f_equal (@length _)) in Hr. rewrite app_length in Hr. cbn [tx_set_call tx_log length] in Hr. lia.
Qed.
Print Assumptions C55_refused.

(** C55: if only presses and releases of the first 128 keys are sent, it never panics. *)
Theorem C55_no_panic : forall l, Forall sendable (tx_calls l) -> exists s, tx_run l tx_new = Ok s.
Proof. exact tx_run_runs. Qed.
Print Assumptions C55_no_panic.

(** Two calls, the second while the first event is on its way. *)
Definition sample_tx : list tx_step :=
  [TxCall (mkCEvent CPress 4%N); TxStep; TxStep; TxStep; TxByte; TxByte;
   TxCall (mkCEvent CRelease 4%N); TxStep; TxByte; TxByte; TxStep; TxIrq; TxStep; TxByte; TxByte; TxByte; TxByte; TxIrq].
Example C55_example :
  returns (tx_run sample_tx tx_new) (fun s =>
    tx_quiet s /\ tx_accepted s = [mkCEvent CPress 4%N; mkCEvent CRelease 4%N]
    /\ tx_wire s = [1; 2; 4; 0; 3; 1; 4; 0]%N)
  /\ Forall sendable (tx_calls sample_tx)
  /\ tx_run [TxCall (mkCEvent CPress 128%N); TxStep; TxStep; TxStep] tx_new = Panic.
Proof.
  split; [vm_compute; repeat split; reflexivity|]. split; [|reflexivity].
  repeat constructor; unfold sendable; cbn; intuition lia.
Qed.
(** Seventeen calls before any byte leaves: sixteen are accepted. *)
Example C55_refused_example :
  returns (tx_run (concat (repeat [TxCall (mkCEvent CPress 4%N); TxStep; TxStep; TxStep] 17)) tx_new) (fun s =>
    map snd (tx_log s) = repeat true 16 ++ [false]).
Proof. vm_compute. reflexivity. Qed.

(** C56: if interrupts are served in time, the receiver never panics and the events
    registered are those of the bytes received, decoded in order; at most 31 bytes
    wait in the buffers, and none when no handler runs and the DMA has stored none. *)
Theorem C56_in_order : forall l,
  rx_all_in_time l rx_new ->
  exists s processed waiting msg,
    rx_run l rx_new = Ok s /\ rx_bytes l = processed ++ waiting
    /\ receive_bytes (repeat 0%N MESSAGE_BUFFER_LEN) processed = Ok (msg, rx_events s)
    /\ length waiting <= 31 /\ (rx_quiet s -> waiting = []).
Proof.
  intros l T. destruct (rx_run_ok _ _ _ _ rx_new_ok T) as (s & p & w & E & I & A). exists s, p, w, (rx_msg s).
  repeat split; auto; [exact (ro_done _ _ _ I)|eapply rx_waiting_len; eauto|intros Q; eapply rx_quiet_nothing; eauto].
Qed.
Print Assumptions C56_in_order.

(** C56: serving the interrupts once more, with the line idle, leaves none waiting. *)
Theorem C56_served : forall l s,
  rx_all_in_time l rx_new -> rx_run l rx_new = Ok s ->
  rx_all_in_time [RxFinish; RxDma; RxFinish; RxIdle; RxUsart; RxFinish] s
  /\ exists s', rx_run [RxFinish; RxDma; RxFinish; RxIdle; RxUsart; RxFinish] s = Ok s' /\ rx_quiet s'.
Proof.
  intros l s T H. destruct (rx_run_ok _ _ _ _ rx_new_ok T) as (s0 & p & w & E & I & _). rewrite H in E. injection E as <-. eapply rx_serve; eauto.
Qed.
Print Assumptions C56_served.

(** C56: end to end.  Whatever the two halves do, the events registered on the
    receiving half are a beginning of the events sent; when all bytes have arrived and
    both are at rest, they are exactly the accepted ones. *)
Theorem C56_end_to_end : forall lt st lr,
  tx_run lt tx_new = Ok st -> rx_all_in_time lr rx_new ->
  (exists rest, tx_wire st = rx_bytes lr ++ rest) ->
  exists sr, rx_run lr rx_new = Ok sr
    /\ (exists later, tx_given st = rx_events sr ++ later)
    /\ (tx_quiet st -> rx_quiet sr -> rx_bytes lr = tx_wire st -> rx_events sr = tx_accepted st).
Proof.
  intros lt st lr Ht T [rest Hw]. destruct (C56_in_order _ T) as (sr & p & w & m & E & A & D & _ & Q). exists sr. split; [exact E|]. split.
  - destruct (C55_in_order _ _ Ht) as (begun & waiting & r & G & W & _). destruct (wire_received _ _ W) as [m' R].
    rewrite Hw, A, <- !app_assoc in R. rewrite receive_bytes_app, D in R. cbn [bind] in R. inv_bind R. destruct a as [m2 e2]. inv_ok R.
    exists (e2 ++ waiting). rewrite G, <- app_assoc. reflexivity.
  - intros Qt Qr Hall. destruct (wire_received _ _ (C55_nothing_stuck _ _ Ht Qt)) as [m' R]. rewrite <- Hall, A, (Q Qr), app_nil_r, D in R. now injection R.
Qed.
Print Assumptions C56_end_to_end.

(** What the sender of [C55_example] sent, received with an interrupt in the middle of
    a message. *)
Definition sample_rx : list rx_step :=
  [RxByte 1; RxByte 2; RxIdle; RxUsart; RxFinish; RxByte 4; RxByte 0; RxByte 3; RxByte 1; RxByte 4; RxByte 0; RxIdle; RxUsart; RxFinish]%N.
Example C56_example :
  rx_all_in_time sample_rx rx_new
  /\ returns (tx_run sample_tx tx_new) (fun st => tx_wire st = rx_bytes sample_rx)
  /\ returns (rx_run sample_rx rx_new) (fun sr => rx_quiet sr /\ rx_events sr = [mkCEvent CPress 4%N; mkCEvent CRelease 4%N]).
Proof.
  split; [vm_compute; repeat split; lia|]. split; vm_compute; repeat split; reflexivity.
Qed.
(** Four messages fill a buffer. *)
Example C56_example_full :
  let l := map RxByte [1; 2; 4; 0; 3; 1; 4; 0; 1; 2; 5; 0; 3; 1; 5; 0]%N ++ [RxDma; RxByte 1; RxByte 2; RxFinish; RxByte 6; RxByte 0; RxIdle; RxUsart; RxFinish]%N in
  rx_all_in_time l rx_new
  /\ returns (rx_run l rx_new) (fun sr => rx_quiet sr /\ rx_events sr =
       [mkCEvent CPress 4%N; mkCEvent CRelease 4%N; mkCEvent CPress 5%N; mkCEvent CRelease 5%N; mkCEvent CPress 6%N]).
Proof. cbv zeta. split; [vm_compute; repeat split; lia|]. vm_compute. repeat split; reflexivity. Qed.

(** C56 without the condition on time is refuted: a byte that arrives between the
    handler's reading of the counter and its switch of buffers is lost, here with the
    release of key 4; if it is the sixteenth, what the other buffer last held is
    registered once more, here two presses and releases. *)
Definition late_rx : list rx_step :=
  [RxByte 1; RxByte 2; RxByte 4; RxByte 0; RxIdle; RxUsart; RxByte 3; RxFinish; RxByte 1; RxByte 4; RxByte 0; RxIdle; RxUsart; RxFinish]%N.
Definition repeat_rx : list rx_step :=
  map RxByte [1; 2; 4; 0; 3; 1; 4; 0; 1; 2; 5; 0; 3; 1; 5; 0]%N ++ [RxDma; RxFinish]
  ++ map RxByte [1; 2; 6; 0; 3; 1; 6; 0; 1; 2; 7; 0; 3; 1; 7]%N ++ [RxIdle; RxUsart; RxByte 0; RxFinish; RxDma; RxFinish]%N.
Lemma returns_some {A} (m : res A) P : returns m P -> exists a, m = Ok a /\ P a.
Proof. destruct m as [a| |]; cbn; [eauto|tauto..]. Qed.
Lemma late_wire : wire_of [mkCEvent CPress 4%N; mkCEvent CRelease 4%N] (rx_bytes late_rx).
Proof.
  change (rx_bytes late_rx) with ([1; 2; 4; 0] ++ [3; 1; 4; 0] ++ [])%N. repeat (constructor; [reflexivity|]). constructor.
Qed.
Lemma late_run : returns (rx_run late_rx rx_new) (fun s => rx_quiet s /\ rx_events s = [mkCEvent CPress 4%N]).
Proof. vm_compute. repeat split; reflexivity. Qed.
Lemma repeat_wire : exists evs, wire_of evs (rx_bytes repeat_rx) /\ length evs = 8.
Proof.
  exists [mkCEvent CPress 4%N; mkCEvent CRelease 4%N; mkCEvent CPress 5%N; mkCEvent CRelease 5%N;
      mkCEvent CPress 6%N; mkCEvent CRelease 6%N; mkCEvent CPress 7%N; mkCEvent CRelease 7%N]. split; [|reflexivity].
  change (rx_bytes repeat_rx) with ([1; 2; 4; 0] ++ [3; 1; 4; 0] ++ [1; 2; 5; 0] ++ [3; 1; 5; 0] ++ [1; 2; 6; 0] ++ [3; 1; 6; 0] ++ [1; 2; 7; 0] ++ [3; 1; 7; 0] ++ [])%N.
  repeat (constructor; [reflexivity|]). constructor.
Qed.
Theorem C56_any_time_refuted :
  (exists evs, wire_of evs (rx_bytes late_rx) /\ evs = [mkCEvent CPress 4%N; mkCEvent CRelease 4%N])
  /\ returns (rx_run late_rx rx_new) (fun s => rx_quiet s /\ rx_events s = [mkCEvent CPress 4%N])
  /\ (exists evs, wire_of evs (rx_bytes repeat_rx) /\ length evs = 8)
  /\ returns (rx_run repeat_rx rx_new) (fun s => rx_quiet s /\ rx_events s =
       [mkCEvent CPress 4%N; mkCEvent CRelease 4%N; mkCEvent CPress 5%N; mkCEvent CRelease 5%N;
        mkCEvent CPress 6%N; mkCEvent CRelease 6%N; mkCEvent CPress 7%N; mkCEvent CRelease 7%N]
       ++ [mkCEvent CPress 4%N; mkCEvent CRelease 4%N; mkCEvent CPress 5%N; mkCEvent CRelease 5%N])
  /\ ~ (forall l evs s, wire_of evs (rx_bytes l) -> rx_run l rx_new = Ok s -> rx_quiet s -> rx_events s = evs).
Proof.
  split; [exists [mkCEvent CPress 4%N; mkCEvent CRelease 4%N]; split; [exact late_wire|reflexivity]|].
  split; [exact late_run|]. split; [exact repeat_wire|]. split; [vm_compute; repeat split; reflexivity|].
  intros H. destruct (returns_some _ _ late_run) as (s & E & R1 & R2). rewrite (H _ _ _ late_wire E R1) in R2. discriminate.
Qed.
Print Assumptions C56_any_time_refuted.
