(** Theorems C32: whether running macros finish. *)
From Verif Require Import Base Output Types Scheduler Keymap SimpleKeys TapHold TapDance Sticky CapsWord Layered
  Automation Chorded Composite SpecScheduler SpecKeymap SpecComposite SpecKinds SpecMacro SpecMacroLive
  BaseFacts KeymapInv KeymapHist MacroFacts MacroLive CompositeFacts Samples.
From Verif Require SchedulerFacts.
Local Open Scope N_scope.

(** C32, in full: once started, a macro's instructions are executed.  This is
    false.  A tap-hold key whose tap is a macro is tapped twice, quickly: deciding
    the second tap cancels what the first tap's macro was waiting for.  From then
    on no history whatsoever makes the keymap execute another macro instruction,
    though two macros are waiting. *)
Definition macro_tap_data : key_data :=
  mkData [mkAutoKey (mkExec 0 2) (mkExec 2 0) (mkExec 2 0)] [] [] [] [] [] [] [] [] [mkTapHold (RAutomation 0) kLCtrl].
Definition macro_tap : kconf ref cctx cev cpks cks := cconf [RTapHold 0; RAutomation 0] macro_tap_data bs_std false.
Definition two_taps : list op :=
  [P 0; OpTick; OpTick; Rl 0; OpTick; OpTick; P 0; OpTick; OpTick; Rl 0] ++ ticks 30.
Theorem C32_finishes_refuted :
  returns (run_ops (watch macro_tap) 100 two_taps (km_new (sample_ctx, []))) (fun k1 =>
    macros_waiting (cf_automation sample_config) (seen k1) = [[InTap (out 5)]; [InTap (out 4); InTap (out 5)]]
    /\ executed_in (cf_automation sample_config) (seen k1) = [InTap (out 4)]
    /\ forall fuel ops k2, Forall (fun o => simple_op o = true) ops ->
         run_ops (watch macro_tap) fuel ops k1 = Ok k2 ->
         macros_waiting (cf_automation sample_config) (seen k2) <> []
         /\ executed_in (cf_automation sample_config) (seen k2) = [InTap (out 4)]).
Proof.
  assert (H : returns (run_ops (watch macro_tap) 100 two_taps (km_new (sample_ctx, []))) (fun k1 =>
    macros_waiting (cf_automation sample_config) (seen k1) = [[InTap (out 5)]; [InTap (out 4); InTap (out 5)]]
    /\ executed_in (cf_automation sample_config) (seen k1) = [InTap (out 4)]
    /\ forallb (fun en => negb (next_instruction (en_event en))) (sc_scheduled (km_sched k1)) = true /\ sc_pending (km_sched k1) = [] /\ km_pending k1 = None
    /\ auto_head_empty (cx_automation (fst (km_ctx k1))) = false)) by (vm_compute; repeat split; reflexivity).
  destruct (run_ops (watch macro_tap) 100 two_taps (km_new (sample_ctx, []))) as [k1| |]; try contradiction. unfold returns in *.
  destruct H as (H1 & H2 & H3 & H4 & H5 & H6). split; [exact H1|]. split; [exact H2|].
  intros fuel ops k2 Ho H.
  apply (dead_forever _ _ _ _ (cf_automation sample_config) [InTap (out 4)]) in H.
  - destruct H as (_ & A & B). split; [exact A|exact B].
  - exact Ho.
  - rewrite forallb_forall in H3. apply Forall_forall. intros en Hi. apply negb_true_iff. now apply H3.
  - exact H4.
  - intros p Hp. congruence.
  - split; [exact H6|]. split; [|exact H2]. intros Hx. unfold seen in H1. congruence.
Qed.
Print Assumptions C32_finishes_refuted.
(** Tapped once, the same key's macro is executed to the end. *)
Example C32_one_tap :
  returns (run_ops (watch macro_tap) 100 ([P 0; OpTick; OpTick; Rl 0] ++ ticks 36) (km_new (sample_ctx, []))) (fun k1 =>
    executed_in (cf_automation sample_config) (seen k1) = [InTap (out 4); InTap (out 5)]
    /\ macros_waiting (cf_automation sample_config) (seen k1) = []).
Proof. vm_compute. repeat split; reflexivity. Qed.

(** What is proved: in keymaps whose keys are decided when pressed or never
    become macro keys, exactly one continuation is on its way while macros are
    waiting, and none otherwise.  Missing: keymaps with macros under keys that are
    undecided for a while, and [init]. *)
Theorem C32_continuation_partial : forall refs d pos debug cfg D fuel ops k,
  undisturbed d refs -> keys_in_range d (cf_automation cfg) -> takes_at_most D (cf_automation cfg) ->
  Forall (fun o => simple_op o = true) ops ->
  run_ops (watch (cconf refs d pos debug)) fuel ops (km_new (ctx_from_config cfg, [])) = Ok k ->
  continuations k = match macros_waiting (cf_automation cfg) (seen k) with [] => 0 | _ => 1 end%nat.
Proof.
  intros refs d pos debug cfg D fuel ops k Hu Hr HD Ho H.
  exact (reach_continuations refs d pos debug _ D Hr Hu HD (ctx_from_config cfg) eq_refl fuel ops k Ho H).
Qed.
Print Assumptions C32_continuation_partial.

(** What was waiting is executed, in order and before anything else: given as
    many periods as there are instructions waiting.  Each period lasts longer than
    the longest instruction and then 32 ticks (for the 32 events that may be due
    before).  During this time keys may be pressed and released at will. *)
Theorem C32_finishes_partial : forall refs d pos debug cfg D fuel ops1 ops2 k1 k2,
  undisturbed d refs -> keys_in_range d (cf_automation cfg) -> takes_at_most D (cf_automation cfg) ->
  position_ok pos ->
  Forall (fun o => simple_op o = true) (ops1 ++ ops2) ->
  run_ops (watch (cconf refs d pos debug)) fuel ops1 (km_new (ctx_from_config cfg, [])) = Ok k1 ->
  run_ops (watch (cconf refs d pos debug)) fuel ops2 k1 = Ok k2 ->
  let waiting := concat (macros_waiting (cf_automation cfg) (seen k1)) in
  patient D (length waiting) (clocks_run ops1) ops2 ->
  exists later, executed_in (cf_automation cfg) (seen k2)
    = executed_in (cf_automation cfg) (seen k1) ++ waiting ++ later.
Proof.
  intros refs d pos debug cfg D fuel ops1 ops2 k1 k2 Hu Hr HD Hpos Ho H1 H2 w Hp.
  destruct (patient_executes refs d pos debug _ D Hr Hu HD (ctx_from_config cfg) eq_refl Hpos fuel _ _ _ Hp ops1 k1 k2 eq_refl Ho H1 H2)
    as (l & El & Hlen).
  assert (Hg : good (macros_waiting (cf_automation cfg) (seen k1))).
  { refine (reach_good refs d pos debug _ D Hr Hu HD (ctx_from_config cfg) eq_refl fuel ops1 k1 _ H1).
    now apply Forall_app in Ho. }
  rewrite El, executed_split.
  destruct (plays (macros_waiting (cf_automation cfg) (seen k1)) (map (request_of (cf_automation cfg)) l)) as [q xs] eqn:Ep.
  destruct (plays_order _ _ _ _ Hg Ep) as [_ Hord]. cbn [snd] in *. fold w in Hlen, Hord. rewrite Nat.min_id in Hlen.
  exists (skipn (length w) (instructions_of xs)). f_equal.
  rewrite <- (firstn_skipn (length w) (instructions_of xs)) at 1. f_equal.
  apply (f_equal (firstn (length w))) in Hord. rewrite !firstn_app, Nat.sub_diag, firstn_all in Hord. cbn [firstn] in Hord.
  rewrite app_nil_r in Hord. replace (length w - length (instructions_of xs))%nat with 0%nat in Hord by lia.
  cbn [firstn] in Hord. now rewrite app_nil_r in Hord.
Qed.
Print Assumptions C32_finishes_partial.

(** The sample of plain keys: a macro of two instructions, and while it runs
    another key is tapped. *)
Definition macro_begun : list op := [P 8; OpTick; OpTick; P 0; OpTick].
Definition macro_rest : list op := (ticks 4 ++ [Rl 0] ++ ticks 8) ++ ticks 32 ++ [].
Example C32_example :
  undisturbed sample_data plain_refs
  /\ keys_in_range sample_data (cf_automation sample_config)
  /\ takes_at_most 10 (cf_automation sample_config)
  /\ position_ok bs_std
  /\ Forall (fun o => simple_op o = true) (macro_begun ++ macro_rest)
  /\ patient 10 1 (clocks_run macro_begun) macro_rest
  /\ returns (run_ops (watch plain_sample) 100 macro_begun (km_new (sample_ctx, []))) (fun k1 =>
       concat (macros_waiting (cf_automation sample_config) (seen k1)) = [InTap (out 5)]
       /\ continuations k1 = 1%nat
       /\ returns (run_ops (watch plain_sample) 100 macro_rest k1) (fun k2 =>
            executed_in (cf_automation sample_config) (seen k2) = [InTap (out 4); InTap (out 5)] /\ continuations k2 = 0%nat)).
Proof.
  split; [|split; [|split; [|split; [|split; [|split]]]]].
  - intros r Hr. left. revert r Hr. apply Forall_forall.
    repeat (apply Forall_cons || apply Forall_nil); try (apply plain_basic; reflexivity);
      apply plain_layered; intros k r Hk Hr; injection Hk as <-; cbn in Hr;
      repeat (destruct Hr as [<-|Hr]); try contradiction; try (apply plain_basic; reflexivity).
    apply plain_layered. intros k r Hk Hr; injection Hk as <-; cbn in Hr;
      repeat (destruct Hr as [<-|Hr]); try contradiction; try (apply plain_basic; reflexivity).
  - intros k Hk. cbn in Hk. repeat (destruct Hk as [<-|Hk]); try contradiction; unfold exec_in_range; cbn; repeat split; right; lia.
  - split; [cbn; lia|]. intros t Ht. cbn in Ht. repeat (destruct Ht as [Ht|Ht]; [discriminate|]). contradiction.
  - exact SchedulerFacts.bs_std_position_ok.
  - repeat constructor.
  - apply patient_more; [vm_compute; reflexivity|vm_compute; lia|constructor].
  - vm_compute. repeat split; reflexivity.
Qed.
