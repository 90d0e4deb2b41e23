(** C45, C46: what a composite keymap reports, and where it comes from. *)
From Verif Require Import BaseFacts Output Types Scheduler Keymap SimpleKeys TapHold TapDance Sticky CapsWord
  Layered Automation Chorded Composite Samples SpecKeymap KeymapSafe SpecReport ReportFacts.
Local Open Scope N_scope.

(** C45: at any time the outputs are, in the order pressed, those of the pressed
    keys and virtual keys: each key acts as one of the keys configured at its index,
    and reports that key's own output. *)
Theorem C45_reported_outputs : forall refs d pos dbg fuel ops cf k kos,
  run_ops (cconf refs d pos dbg) fuel ops (km_new (ctx_from_config cf)) = Ok k ->
  km_pressed_keys (cconf refs d pos dbg) k = Ok kos ->
  exists ls, kos = concat ls /\ Forall2 (reported refs d) (pressed_shape k) ls.
Proof.
  intros refs d pos dbg fuel ops cf k kos H Hk. apply reach_report in H as [(_ & _ & _ & H & _) _].
  exact (outputs_reported refs d pos dbg _ _ _ H _ Hk).
Qed.
Print Assumptions C45_reported_outputs.

(** C45: there are such outputs, unless the key data lacks an entry or a mouse
    button is not one of 1 to 8. *)
Theorem C45_outputs_exist : forall refs d pos dbg fuel ops cf k,
  run_ops (cconf refs d pos dbg) fuel ops (km_new (ctx_from_config cf)) = Ok k ->
  (forall i r, In (inl (i, r)) (pressed_shape k) ->
     (exists l, own_outputs d r l) /\ forall b, r = RMouse (MsButton b) -> 1 <= b <= 8) ->
  exists kos, km_pressed_keys (cconf refs d pos dbg) k = Ok kos.
Proof.
  intros refs d pos dbg fuel ops cf k H Hk. apply reach_report in H as [(_ & _ & _ & H & _) _].
  exact (outputs_exist refs d pos dbg _ _ _ H Hk).
Qed.
Print Assumptions C45_outputs_exist.

(** C45: an undecided key is a tap-hold, tap-dance or chorded key its index can act as. *)
Theorem C45_undecided : forall refs d pos dbg fuel ops cf k p,
  run_ops (cconf refs d pos dbg) fuel ops (km_new (ctx_from_config cf)) = Ok k -> km_pending k = Some p ->
  (exists r0, nth_error refs (N.to_nat (pd_index p)) = Some r0 /\ acts_as d r0 (pd_ref p))
  /\ match pd_ref p, pd_state p with
     | RChorded _, PksChorded _ | RTapDance _, PksTapDance _ | RTapHold _, PksTapHold _ => True
     | _, _ => False
     end.
Proof.
  intros refs d pos dbg fuel ops cf k p H Hp. apply reach_report in H as [_ H]. exact (H p Hp).
Qed.
Print Assumptions C45_undecided.

(** C46: nothing is ever reported that is not configured. *)
Theorem C46_only_configured : forall refs d pos dbg fuel ops cf k kos ko,
  run_ops (cconf refs d pos dbg) fuel ops (km_new (ctx_from_config cf)) = Ok k ->
  km_pressed_keys (cconf refs d pos dbg) k = Ok kos -> In ko kos ->
  configured refs d (auc_instructions (cf_automation cf)) ops ko.
Proof.
  intros refs d pos dbg fuel ops cf k kos ko H Hk Hin. apply reach_report in H as [(_ & _ & _ & H & _) _].
  exact (outputs_configured refs d pos dbg _ _ _ H _ _ Hk Hin).
Qed.
Print Assumptions C46_only_configured.

(** C46: a virtual key is only ever pressed by the caller, a caps word key, a sticky
    key or a macro of the keymap; also while it is still waiting. *)
Theorem C46_virtual_keys : forall refs d pos dbg fuel ops cf k ko,
  run_ops (cconf refs d pos dbg) fuel ops (km_new (ctx_from_config cf)) = Ok k ->
  In (inr ko) (pressed_shape k) \/ In (VirtualKeyPress ko) (km_inq k)
  \/ (exists p, km_pending k = Some p /\ In (EvInput (VirtualKeyPress ko)) (pd_queued p)) ->
  typed_by refs d (auc_instructions (cf_automation cf)) ops ko.
Proof.
  intros refs d pos dbg fuel ops cf k ko H Hin. apply reach_report in H as [(_ & _ & Hq & H & Hp) _].
  destruct Hin as [Hin|[Hin|(p & Ep & Hin)]].
  - apply in_map_iff in Hin as (x & Ex & Hin). destruct x as [i r ks|ko']; [discriminate|]. injection Ex as ->.
    rewrite Forall_forall in H. exact (H _ Hin).
  - rewrite Forall_forall in Hq. exact (Hq _ Hin).
  - specialize (Hp _ Ep). rewrite Forall_forall in Hp. exact (Hp _ Hin).
Qed.
Print Assumptions C46_virtual_keys.

(** A keymap without caps word, sticky and macro keys types no virtual key. *)
Theorem C46_no_virtual_keys : forall refs d pos dbg fuel ops cf k ko,
  (forall r, offers refs d r -> match r with RCapsWord | RSticky _ | RAutomation _ => False | _ => True end) ->
  (forall ko t, ~ In (OpInput (VirtualKeyPress ko)) ops /\ ~ In (OpInputAfter t (VirtualKeyPress ko)) ops) ->
  run_ops (cconf refs d pos dbg) fuel ops (km_new (ctx_from_config cf)) = Ok k -> ~ In (inr ko) (pressed_shape k).
Proof.
  intros refs d pos dbg fuel ops cf k ko Ho Hops H Hin.
  assert (T : typed_by refs d (auc_instructions (cf_automation cf)) ops ko) by (eapply C46_virtual_keys; eauto).
  destruct T as [ko Hi|t ko Hi|Hc|i s Hs _|i s e ko Ha _ _ _].
  - exact (proj1 (Hops ko 0) Hi).
  - exact (proj2 (Hops ko t) Hi).
  - exact (Ho _ Hc).
  - exact (Ho _ Hs).
  - exact (Ho _ Ha).
Qed.
Print Assumptions C46_no_virtual_keys.

(** A tap-hold key held, a sticky key tapped, a macro and a mouse button. *)
Example C45_example :
  returns (run_ops sample 2000 ((P 2 :: ticks 12) ++ (P 5 :: ticks 2 ++ Rl 5 :: ticks 4) ++ (P 14 :: ticks 3) ++ (P 8 :: ticks 3))
      (km_new (ctx_from_config quick_config))) (fun k =>
    pressed_shape k = [inl (2, kLCtrl); inr (mods_output 2); inl (14, RMouse (MsButton 1)); inl (8, RAutomation 0); inr (out 4)]
    /\ km_pressed_keys sample k = Ok [mods_output 1; mods_output 2; mkKO (Mouse (mkMouse 1 0 0 0 0)) 0; out 4])
  /\ acts_as sample_data (RTapHold 0) kLCtrl.
Proof.
  split; [vm_compute; repeat split; reflexivity|]. eapply (AaHold _ 0); [reflexivity|apply AaSelf].
Qed.
(** The first macro of the sample types the keys A and B; the second also C. *)
Example C46_example :
  let code := auc_instructions (cf_automation sample_config) in
  typed_by sample_refs sample_data code [] (out 4) /\ typed_by sample_refs sample_data code [] (out 6)
  /\ forall ko, typed_by [RAutomation 0; kD] sample_data code [] ko -> ko = out 4 \/ ko = out 5.
Proof.
  split; [|split].
  - eapply (TbMacro _ _ _ _ 0); [|reflexivity|left; reflexivity|].
    + exists (RAutomation 0). split; [|apply AaSelf]. vm_compute. tauto.
    + right. exists 0. repeat split; vm_compute; discriminate.
  - eapply (TbMacro _ _ _ _ 1); [|reflexivity|right; right; reflexivity|].
    + exists (RAutomation 1). split; [|apply AaSelf]. vm_compute. tauto.
    + left. exists 3. repeat split; vm_compute; discriminate.
  - assert (O : forall r, offers [RAutomation 0; kD] sample_data r -> r = RAutomation 0 \/ r = kD).
    { intros r (r0 & [<-|[<-|[]]] & H); inversion H; auto. }
    intros ko [ko' []|t ko' []|Hc|i s Hs _|i s e ko' Ha Hn He Hm]; [apply O in Hc as [?|?]; discriminate|apply O in Hs as [?|?]; discriminate|].
    apply O in Ha as [Ha|?]; [|discriminate]. injection Ha as ->. injection Hn as <-.
    destruct Hm as [(n & A & B & C)|(n & A & B & C)]; destruct He as [->|[->| ->]]; cbn in A, B; try lia;
      (assert (n = 0 \/ n = 1) as [->| ->] by lia); cbn in C; try discriminate; injection C as <-; auto.
Qed.
