(** C31: macros run in order, exactly once. *)
From Verif Require Import BaseFacts Output Types Scheduler Keymap Automation Composite CtxFacts SpecKinds SpecMacro
  MacroFacts Samples.
Local Open Scope N_scope.

(** Fed any history of events that name macros within the instruction array,
    the context does what the player does: for each event it emits the effects of
    the instruction the player executes. *)
Theorem C31_player : forall cf h, Forall (event_in_range cf) h ->
  exists c outs q xs, macro_run (auto_ctx_new cf) h = Ok (c, outs)
    /\ plays [] (map (request_of cf) h) = (q, xs) /\ length xs = length h
    /\ outs = map (fun '(ev, x) => instruction_effect (auc_duration cf) (event_key ev) x) (combine h xs).
Proof.
  intros cf h Hh. destruct (macro_run_plays h (auto_ctx_new cf) []) as (c & l & outs & xs & A & _ & _ & B & C & D).
  - split; [reflexivity|]. split; [cbn; lia|constructor].
  - exact Hh.
  - exists c, outs, (todo cf l), xs. auto.
Qed.
(** The player executes the accepted macros' instructions in order and exactly
    once: those executed, followed by those left, are those accepted. *)
Theorem C31_in_order_once : forall rs q xs, plays [] rs = (q, xs) ->
  instructions_of xs ++ concat q = concat (accepted [] rs) /\ Forall (fun m => m <> []) q.
Proof. intros rs q xs H. apply plays_order in H as [A B]; [|constructor]. split; [exact B|exact A]. Qed.
(** The keys: pressing starts the first macro, releasing the last, and whenever
    its macro has finished while it is held, the middle one. *)
Theorem C31_keys : forall d i k ki c,
  nth_error (kd_automation d) (N.to_nat i) = Some k ->
  (exists p, c_new_pressed_key d ki c (RAutomation i) = Ok (p,
      [mkSE Immediate (EvKey ki (CeAutomation (if exec_is_empty (ak_on_press k) then AuExecutionFinished
                                               else AuEnqueue (ak_on_press k))))]) /\ p = PkResolved KsAutomation)
  /\ (forall ev, c_update_state d KsAutomation (RAutomation i) c ki ev = Ok (KsAutomation,
        match ev with
        | EvKey j (CeAutomation AuExecutionFinished) =>
            if j =? ki then [mkSE Immediate (EvKey ki (CeAutomation (AuEnqueue (ak_while_pressed k))))] else []
        | EvInput (Release j) =>
            if j =? ki then [mkSE Immediate (EvKey ki (CeAutomation (AuEnqueue (ak_on_release k))))] else []
        | _ => []
        end)).
Proof.
  intros d i k ki c Hk. split.
  - cbn. unfold auto_new_pressed_key, index. rewrite Hk. cbn. eauto.
  - intros ev. cbn. destruct ev as [[j|j|ko|ko]|j [[e| |]|e|e|e|e|e|e]|[cb|j ko]]; cbn; unfold index; rewrite ?Hk; cbn; try reflexivity.
    + rewrite (N.eqb_sym j ki). destruct (ki =? j); reflexivity.
    + rewrite (N.eqb_sym j ki). destruct (ki =? j); reflexivity.
Qed.
(** The composite context's part for macros is this one. *)
Theorem C31_composite : forall c ev c' kes, cctx_handle_event c ev = Ok (c', kes) ->
  exists ka post, step_automation (cx_automation c) ev = Ok (cx_automation c', ka) /\ kes = ka ++ post.
Proof. intros c ev c' kes H. apply cctx_inv in H as (k1 & k2 & k5 & H1 & _ & _ & _ & _ & _ & _ & -> & _). eauto. Qed.

(** Two macros, the second one enqueued while the first one runs. *)
Definition two_macros : list (event cev) :=
  [EvKey 8 (CeAutomation (AuEnqueue (mkExec 0 2))); EvKey 9 (CeAutomation (AuEnqueue (mkExec 3 1)));
   EvKey 8 (CeAutomation AuNextInstruction); EvKey 8 (CeAutomation AuNextInstruction)].
Example C31_example :
  Forall (event_in_range (cf_automation sample_config)) two_macros
  /\ snd (plays [] (map (request_of (cf_automation sample_config)) two_macros))
     = [Some (InTap (out 4), false, false); None; Some (InTap (out 5), true, true); Some (InPress (out 6), true, false)]
  /\ returns (macro_run (auto_ctx_new (cf_automation sample_config)) two_macros) (fun '(_, outs) =>
       nth_error outs 2 = Some [mkSE Immediate (EvInput (VirtualKeyPress (out 5)));
         mkSE (After 10) (EvInput (VirtualKeyRelease (out 5))); mkSE (After 10) (EvKey 8 (CeAutomation AuExecutionFinished));
         mkSE (After 10) (EvKey 8 (CeAutomation AuNextInstruction))]).
Proof.
  split; [|vm_compute; repeat split; reflexivity].
  unfold two_macros, event_in_range, exec_in_range. cbn. repeat (apply Forall_cons || apply Forall_nil); cbn; try exact I; right; lia.
Qed.
(** A macro is dropped when eight are there. *)
Example C31_ninth_dropped :
  accepted [] (repeat (RqStart [InNoOp; InNoOp]) 9) = repeat [InNoOp; InNoOp] 8.
Proof. reflexivity. Qed.

Print Assumptions C31_player.
Print Assumptions C31_in_order_once.
Print Assumptions C31_keys.
Print Assumptions C31_composite.
