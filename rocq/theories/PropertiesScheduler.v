(** Theorems C09-C11: the event scheduler, for every history of calls and
    every insertion position the binary search may return. *)
From Coq Require Import Permutation.
From Verif Require Import Base Output Types Scheduler SpecScheduler SchedulerFacts.
Local Open Scope N_scope.

(** The position function the standard library computes is a legal one. *)
Theorem C09_std_position_ok : position_ok bs_std.
Proof. exact bs_std_position_ok. Qed.
Print Assumptions C09_std_position_ok.

Definition ex_hist : list (so N) :=
  [SoAfter 5 (EvKey 1 10); SoAfter 2 (EvKey 2 20); SoNow (EvKey 3 30); SoDequeue;
   SoTick 1; SoDequeue; SoTick 1; SoDequeue; SoTick 3; SoDequeue].

(** C09: whatever is delivered was either requested without delay, or was
    requested with a delay not larger than the time elapsed since. *)
Theorem C09_never_early : forall (E : Type) bs (ops : list (so E)) s tr e,
  so_run bs ops = Ok (s, tr) -> In e (delivered tr) ->
  (exists a b, ops = a ++ SoNow e :: b)
  \/ (exists a d b, ops = a ++ SoAfter d e :: b /\ d <= elapsed b).
Proof. exact @never_early. Qed.
Print Assumptions C09_never_early.

Example C09_example :
  returns (so_run bs_std ex_hist) (fun '(s, tr) =>
    tr = [Some (EvKey 3 30); None; Some (EvKey 2 20); Some (EvKey 1 10)] /\ waiting s = []).
Proof. vm_compute. split; reflexivity. Qed.

(** C10: the scheduler's clock is the time of the ticks. *)
Theorem C10_clock : forall (E : Type) bs (ops : list (so E)) s tr,
  so_run bs ops = Ok (s, tr) -> sc_counter s = elapsed ops.
Proof. exact @so_run_clock. Qed.
Print Assumptions C10_clock.

(** C10: conservation.  Every requested event is, exactly once, delivered, or
    waiting, or was cancelled after it was requested. *)
Theorem C10_conservation : forall (E : Type) bs (ops : list (so E)) s tr,
  so_run bs ops = Ok (s, tr) ->
  exists dropped,
    Permutation (requested ops) (delivered tr ++ dropped ++ waiting s)
    /\ Forall (fun e => exists a i k b, e = EvKey i k /\ ops = a ++ SoCancel i :: b
                                        /\ In e (requested a)) dropped.
Proof. exact @so_run_conserved. Qed.
Print Assumptions C10_conservation.

Example C10_conservation_example :
  returns (so_run bs_std (ex_hist ++ [SoAfter 4 (EvKey 6 60); SoAfter 4 (EvKey 7 70); SoCancel 6]))
    (fun '(s, tr) => delivered tr = [EvKey 3 30; EvKey 2 20; EvKey 1 10] /\ waiting s = [EvKey 7 70]).
Proof. vm_compute. split; reflexivity. Qed.

(** C10: order.  Of two delayed events (each with one due time), the one
    delivered first is due no later than the other. *)
Theorem C10_due_time_order : forall (E : Type) bs (ops : list (so E)) s tr tr1 e1 tr2 e2 tr3 t1 t2,
  position_ok bs -> so_run bs ops = Ok (s, tr) ->
  tr = tr1 ++ Some e1 :: tr2 ++ Some e2 :: tr3 ->
  (forall t, In (e1, t) (due_times 0 ops) -> t = t1) -> ~ In (SoNow e1) ops ->
  (forall t, In (e2, t) (due_times 0 ops) -> t = t2) -> ~ In (SoNow e2) ops ->
  t1 <= t2.
Proof. exact @due_order. Qed.
Print Assumptions C10_due_time_order.

Example C10_order_example :
  due_times 0 ex_hist = [(EvKey 1 10, 5); (EvKey 2 20, 2)].
Proof. reflexivity. Qed.

(** C10: progress.  A delayed event with due time t that is not cancelled has
    been delivered (or is queued for immediate delivery) once the number of
    ticks at or after t reaches the number of events due by t. *)
Theorem C10_progress : forall (E : Type) bs (a : list (so E)) d e b s tr,
  position_ok bs ->
  so_run bs (a ++ SoAfter d e :: b) = Ok (s, tr) ->
  (forall i k, e = EvKey i k -> ~ In (SoCancel i) b) ->
  let t := elapsed a + d in
  (due_by t (a ++ SoAfter d e :: b) <= ticks_from t (elapsed a) b)%nat ->
  In (Some e) (sc_pending s) \/ In e (delivered tr).
Proof. exact @progress. Qed.
Print Assumptions C10_progress.

(** Two events due at the same time need two ticks. *)
Example C10_progress_example :
  let a := [SoAfter 3 (EvKey 1 10)] in
  let b n := SoTick 3 :: repeat (SoTick 1) n in
  let h n := a ++ SoAfter 3 (EvKey 2 20 : event N) :: b n in
  due_by 3 (h 1%nat) = 2%nat /\ ticks_from 3 0 (b 1%nat) = 2%nat
  /\ returns (so_run bs_std (h 1%nat))
       (fun '(s, _) => sc_pending s = [Some (EvKey 1 10); Some (EvKey 2 20)])
  /\ returns (so_run bs_std (h 0%nat)) (fun '(s, _) => length (sc_pending s) = 1%nat).
Proof. vm_compute. repeat split; reflexivity. Qed.

(** C11: after cancelling index i, no key event of index i requested earlier
    with a delay is delivered. *)
Theorem C11_cancelled_not_delivered : forall (E : Type) bs (a : list (so E)) i b s tr s1 tr1,
  so_run bs a = Ok (s1, tr1) ->
  (forall e, In e (delivered (sc_pending s1)) -> is_key_of i e = false) ->
  (forall e, In e (requested b) -> is_key_of i e = false) ->
  so_run bs (a ++ SoCancel i :: b) = Ok (s, tr) ->
  exists new, tr = tr1 ++ new /\ forall e, In e (delivered new) -> is_key_of i e = false.
Proof.
  intros E bs a i b s tr s1 tr1 H1 Hp. apply (cancel_own bs a i b s tr s1 tr1 H1).
  apply Forall_forall. intros [e|] He; cbn; [|exact I]. apply Hp, delivered_In, He.
Qed.
Print Assumptions C11_cancelled_not_delivered.

(** C11: and everything else is delivered exactly as without the
    cancellation: dequeue by dequeue, the only difference is that events of
    index i may be missing. *)
Theorem C11_others_untouched : forall (E : Type) bs (a : list (so E)) i b s tr,
  so_run bs (a ++ b) = Ok (s, tr) ->
  exists s2 tr2,
    so_run bs (a ++ SoCancel i :: b) = Ok (s2, tr2)
    /\ Forall2 (fun x y => y = x \/ ((exists k, x = Some (EvKey i k)) /\ y = None)) tr tr2.
Proof. exact @cancel_others. Qed.
Print Assumptions C11_others_untouched.

Example C11_example :
  returns (so_run bs_std
    [SoAfter 1 (EvKey 1 10); SoAfter 2 (EvKey 2 20); SoAfter 2 (EvKey 1 11); SoCancel 1;
     SoTick 1; SoDequeue; SoTick 1; SoDequeue; SoTick 1; SoDequeue])
    (fun '(_, tr) => tr = [None; Some (EvKey 2 20 : event N); None]).
Proof. vm_compute. reflexivity. Qed.
