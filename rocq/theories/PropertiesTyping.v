(** C70: one-shot modifiers, one-shot layers and caps word on a keyboard with layers. *)
From Verif Require Import BaseFacts Output Types Scheduler Keymap SimpleKeys Sticky CapsWord Layered Chorded Composite Samples SpecKeymap KeymapQueue KeymapApi
  SpecPlain PlainFacts SpecLayer SpecBoard BoardFacts SpecMods SpecTyping TypingFacts.
Local Open Scope N_scope.

(** C70: the keyboard one has in mind is determined by its inputs, and exists for
    every sequence of inputs that names keys of the keymap. *)
Theorem C70_unique : forall sr n refs d h b1 b2, trun sr n refs d h b1 -> trun sr n refs d h b2 -> b1 = b2.
Proof. intros sr n refs d h b1 b2 H1 H2. exact (trun_fun _ _ _ _ _ _ H1 _ H2). Qed.
Theorem C70_exists : forall sr n refs d height h, Forall (tkey n d height) refs ->
  (forall i, In (Press i) h -> (N.to_nat i < length refs)%nat) -> exists b, trun sr n refs d h b.
Proof. exact trun_total. Qed.

(** C70: at any time the outputs are those of the keyboard after the inputs taken
    from the queue so far; layers, caps word and latched modifiers are its own; the
    functions called are those registered for the callbacks it asked for; the other
    inputs are still waiting.  Callbacks may have been registered before. *)
Theorem C70_pressed :
  forall refs d pos dbg height fuel setup ops cf k, Forall (tkey (cf_layer_count cf) d height) refs ->
  registers_two setup -> Forall (fun o => plain_op o = true) ops ->
  run_ops (cconf refs d pos dbg) fuel (setup ++ ops) (km_new (ctx_from_config cf)) = Ok k ->
  exists taken b, accepted ops = taken ++ km_inq k
  /\ trun (stc_release (cf_sticky cf)) (cf_layer_count cf) refs d taken b
  /\ km_pressed_keys (cconf refs d pos dbg) k = Ok (tboard_output b)
  /\ (forall l, is_on (cx_layered (km_ctx k)) l = tb_on b l) /\ lyx_default (cx_layered (km_ctx k)) = tb_default b
  /\ cwx_active (cx_caps_word (km_ctx k)) = tb_caps b /\ stx_active (cx_sticky (km_ctx k)) = tb_latched b
  /\ km_calls k = filter_map (registered setup) (tb_calls b).
Proof.
  intros refs d pos dbg height fuel setup ops cf k Hr Hset Ho H.
  destruct (setup_total (cconf refs d pos dbg) fuel setup Hset (ctx_from_config cf)) as (L & EL).
  pose proof (callbacks_registered _ _ _ _ _ EL) as Hreg.
  unfold run_ops in H, EL. rewrite fold_res_app, EL in H. cbn [bind] in H.
  pose proof (run_typing refs d pos dbg _ _ height Hr L fuel ops cf k eq_refl eq_refl Ho H) as ((b & Hrun & Hb) & _ & Hq & _ & HL).
  exists (q_done (queue_run ops)), b. rewrite (accepted_done ops Ho), Hq. split; [reflexivity|]. split; [exact Hrun|].
  pose proof Hb as ((Hc & _) & Hh & _ & _ & _ & _ & Hcl). split; [eapply touts; exact Hh|].
  split; [intros l; rewrite Hc; apply on_typing|]. rewrite Hc. do 3 (split; [reflexivity|]).
  rewrite Hcl, HL. clear -Hreg. generalize (tb_calls b) as cs. induction cs as [|c cs IH]; cbn; [reflexivity|]. unfold registered at 1. rewrite <- (Hreg c : _ = registered_in setup c None).
  cbn [set_callbacks km_callbacks]. destruct (lm_get L c); now rewrite IH.
Qed.

(** C70: after 32 ticks without input, they are those after all inputs accepted. *)
Theorem C70_settled :
  forall refs d pos dbg height fuel setup ops cf k m, Forall (tkey (cf_layer_count cf) d height) refs ->
  registers_two setup -> Forall (fun o => plain_op o = true) ops -> (32 <= m)%nat ->
  run_ops (cconf refs d pos dbg) fuel (setup ++ ops ++ repeat OpTick m) (km_new (ctx_from_config cf)) = Ok k ->
  exists b, trun (stc_release (cf_sticky cf)) (cf_layer_count cf) refs d (accepted ops) b
  /\ km_pressed_keys (cconf refs d pos dbg) k = Ok (tboard_output b)
  /\ (forall l, is_on (cx_layered (km_ctx k)) l = tb_on b l) /\ lyx_default (cx_layered (km_ctx k)) = tb_default b
  /\ cwx_active (cx_caps_word (km_ctx k)) = tb_caps b /\ stx_active (cx_sticky (km_ctx k)) = tb_latched b
  /\ km_calls k = filter_map (registered setup) (tb_calls b).
Proof.
  intros refs d pos dbg height fuel setup ops cf k m Hr Hset Ho Hm H.
  assert (Hticks : Forall (fun o => plain_op o = true) (repeat OpTick m)) by (apply Forall_forall; intros o Hi; apply repeat_spec in Hi; now subst).
  assert (Ho' : Forall (fun o => plain_op o = true) (ops ++ repeat OpTick m)) by (apply Forall_app; split; assumption).
  destruct (C70_pressed _ _ _ _ _ _ _ _ _ _ Hr Hset Ho' H) as (taken & b & Ea & Hb).
  destruct (setup_total (cconf refs d pos dbg) fuel setup Hset (ctx_from_config cf)) as (L & EL).
  unfold run_ops in H, EL. rewrite fold_res_app, EL in H. cbn [bind] in H.
  pose proof (run_typing refs d pos dbg _ _ height Hr L fuel _ cf k eq_refl eq_refl Ho' H) as (_ & _ & Hq & _).
  assert (Hl : (length (q_waiting (queue_run ops)) <= 31)%nat) by apply queue_bound.
  assert (Hw : q_waiting (queue_run (ops ++ repeat OpTick m)) = []).
  { unfold queue_run. rewrite fold_left_app. apply queue_drained. fold (queue_run ops). destruct (q_busy (queue_run ops)); lia. }
  rewrite Hq, Hw, app_nil_r, accepted_ticks in Ea. subst taken. exists b. exact Hb.
Qed.

(** C70: nothing panics while the accepted inputs name keys of the keymap, there is
    room for what goes down, and the 32-bit clock has not run out. *)
Theorem C70_never_panics :
  forall refs d pos dbg height fuel setup ops cf, Forall (tkey (cf_layer_count cf) d height) refs -> N.of_nat (length refs) <= 65535 ->
  (height + 74 <= fuel)%nat -> registers_two setup -> Forall (fun o => plain_op o = true) ops ->
  tfits (stc_release (cf_sticky cf)) (cf_layer_count cf) refs d (chc_max_pressed (cf_chorded cf)) (accepted ops) -> ck_now (clocks_run ops) <= u32_max ->
  exists k, run_ops (cconf refs d pos dbg) fuel (setup ++ ops) (km_new (ctx_from_config cf)) = Ok k.
Proof.
  intros refs d pos dbg height fuel setup ops cf Hr Hl Hf Hset Ho Hfit Hc. rewrite (accepted_done ops Ho) in Hfit. apply tfits_app in Hfit.
  destruct (setup_total (cconf refs d pos dbg) fuel setup Hset (ctx_from_config cf)) as (L & EL).
  destruct (run_typing_total refs d pos dbg _ _ height Hr L (fuel - height - 4) cf ops ltac:(lia) eq_refl eq_refl Hl Ho Hfit Hc) as (k & E & _).
  exists k. unfold run_ops in *. rewrite fold_res_app, EL. cbn [bind].
  replace fuel with (S (S (S (S (height + (fuel - height - 4)))))) by lia. exact E.
Qed.

(** C70, put together: press and release keys in any order and at any pace within
    these limits, wait 32 ticks, and the keyboard reports exactly what it should,
    and has made exactly the calls its callback keys ask for. *)
Theorem C70_reports_what_is_typed :
  forall refs d pos dbg height fuel setup ops cf, Forall (tkey (cf_layer_count cf) d height) refs -> N.of_nat (length refs) <= 65535 ->
  (height + 74 <= fuel)%nat -> registers_two setup -> Forall (fun o => plain_op o = true) ops ->
  tfits (stc_release (cf_sticky cf)) (cf_layer_count cf) refs d (chc_max_pressed (cf_chorded cf)) (accepted ops) ->
  ck_now (clocks_run ops) + 32 * ck_ms (clocks_run ops) <= u32_max ->
  exists k b, run_ops (cconf refs d pos dbg) fuel (setup ++ ops ++ repeat OpTick 32) (km_new (ctx_from_config cf)) = Ok k
  /\ trun (stc_release (cf_sticky cf)) (cf_layer_count cf) refs d (accepted ops) b
  /\ km_boot_keyboard_report (cconf refs d pos dbg) k = Ok (as_hid_boot_keyboard_report (tboard_output b))
  /\ km_calls k = filter_map (registered setup) (tb_calls b).
Proof.
  intros refs d pos dbg height fuel setup ops cf Hr Hl Hf Hset Ho Hfit Hc.
  assert (Hticks : Forall (fun o => plain_op o = true) (repeat OpTick 32)) by (apply Forall_forall; intros o Hi; apply repeat_spec in Hi; now subst).
  destruct (C70_never_panics refs d pos dbg height fuel setup (ops ++ repeat OpTick 32) cf Hr Hl Hf) as (k & E).
  - exact Hset.
  - apply Forall_app. split; assumption.
  - rewrite accepted_ticks. exact Hfit.
  - rewrite clocks_ticks. exact Hc.
  - destruct (C70_settled _ _ _ _ _ _ _ _ _ _ 32 Hr Hset Ho (le_n _) E) as (b & Hb & Hp & _ & _ & _ & _ & Ecs). exists k, b. split; [exact E|]. split; [exact Hb|].
    split; [|exact Ecs]. unfold km_boot_keyboard_report. rewrite Hp. reflexivity.
Qed.

(** C70: room is found for every history that presses at most eight keys. *)
Theorem C70_eight_presses_fit : forall sr n refs d max_tracked h, (forall i, In (Press i) h -> (N.to_nat i < length refs)%nat) ->
  (forall ko, ~ In (VirtualKeyPress ko) h) -> (length (filter (fun ie => match ie with Press _ => true | _ => false end) h) <= 8)%nat ->
  (max_tracked = O \/ 16 <= max_tracked)%nat -> tfits sr n refs d max_tracked h.
Proof.
  intros sr n refs d m h Hi Hv Hp Hm. apply few_fit; [exact Hi| |exact Hm].
  enough (X : (added h <= 2 * length (filter (fun ie => match ie with Press _ => true | _ => false end) h))%nat) by lia.
  clear Hi Hp Hm. induction h as [|ie h IH]; [cbn; lia|]. specialize (IH (fun ko H => Hv ko (or_intror H))).
  change (added (ie :: h)) with (adds ie + added h)%nat. destruct ie as [i|i|ko|ko]; cbn [adds filter length]; try lia. exfalso. apply (Hv ko). now left.
Qed.

(** What the settled keyboard reports, given the board. *)
Lemma settled_output refs d pos dbg height fuel setup ops cf k m b : Forall (tkey (cf_layer_count cf) d height) refs ->
  registers_two setup -> Forall (fun o => plain_op o = true) ops -> (32 <= m)%nat ->
  run_ops (cconf refs d pos dbg) fuel (setup ++ ops ++ repeat OpTick m) (km_new (ctx_from_config cf)) = Ok k ->
  trun (stc_release (cf_sticky cf)) (cf_layer_count cf) refs d (accepted ops) b ->
  km_pressed_keys (cconf refs d pos dbg) k = Ok (tboard_output b).
Proof.
  intros Hr Hset Ho Hm H Hb. destruct (C70_settled _ _ _ _ _ _ _ _ _ _ _ Hr Hset Ho Hm H) as (b' & Hb' & E & _). now rewrite (C70_unique _ _ _ _ _ _ _ Hb Hb').
Qed.

(** C70: a one-shot modifier.  From a keyboard at rest, tap key [i] of modifiers,
    then press an ordinary key [j]: it is sent with the modifiers; after its release
    nothing is, and the next key is sent alone. *)
Theorem C70_one_shot_modifier :
  forall refs d pos dbg height fuel setup ops cf k m h b i q sk j r ko, Forall (tkey (cf_layer_count cf) d height) refs ->
  registers_two setup -> Forall (fun o => plain_op o = true) ops -> (32 <= m)%nat ->
  run_ops (cconf refs d pos dbg) fuel (setup ++ ops ++ repeat OpTick m) (km_new (ctx_from_config cf)) = Ok k ->
  trun (stc_release (cf_sticky cf)) (cf_layer_count cf) refs d h b -> at_rest b ->
  nth_error refs (N.to_nat i) = Some (RSticky q) -> nth_error (kd_sticky d) (N.to_nat q) = Some sk ->
  nth_error refs (N.to_nat j) = Some r -> plain_key d r ko ->
  let sent := km_pressed_keys (cconf refs d pos dbg) k in
  (accepted ops = h ++ [Press i] -> sent = Ok [])
  /\ (accepted ops = h ++ [Press i; Release i] -> sent = Ok [mods_key (sk_mods sk)])
  /\ (accepted ops = h ++ [Press i; Release i; Press j] -> sent = Ok [mods_key (sk_mods sk); ko])
  /\ (accepted ops = h ++ [Press i; Release i; Press j; Release j] -> sent = Ok [])
  /\ (accepted ops = h ++ [Press i; Release i; Press j; Release j; Press j] -> sent = Ok [ko]).
Proof.
  intros refs d pos dbg height fuel setup ops cf k m h b i q sk j r ko Hr Hset Ho Hm H Hh Hb Hi Hs Hj Hp sent.
  set (sr := stc_release (cf_sticky cf)) in *. set (n := cf_layer_count cf) in *.
  destruct (one_shot_tap sr refs d b Hb i q sk j r ko Hi Hs Hj Hp) as (b1 & b2 & b3 & S1 & S2 & S3 & S4 & O1 & O2 & O3 & _).
  destruct (plain_tap sr refs d b Hb j r ko Hj Hp) as (b5 & S5 & O5).
  pose proof (trun_input _ _ _ _ _ _ _ _ Hh S1) as R1. pose proof (trun_input _ _ _ _ _ _ _ _ R1 S2) as R2. pose proof (trun_input _ _ _ _ _ _ _ _ R2 S3) as R3.
  pose proof (trun_input _ _ _ _ _ _ _ _ R3 S4) as R4. pose proof (trun_input _ _ _ _ _ _ _ _ R4 S5) as R5. rewrite <- ?app_assoc in *. cbn [app] in *.
  assert (X : forall h' b', trun sr n refs d h' b' -> accepted ops = h' -> sent = Ok (tboard_output b')).
  { intros h' b' R E. eapply settled_output; try eassumption. rewrite E. exact R. }
  pose proof (rest_output b Hb) as O0.
  repeat split; intros E.
  - rewrite <- O1. exact (X _ _ R1 E).
  - rewrite <- O2. exact (X _ _ R2 E).
  - rewrite <- O3. exact (X _ _ R3 E).
  - rewrite <- O0. exact (X _ _ R4 E).
  - rewrite <- O5. exact (X _ _ R5 E).
Qed.
(** C70: used as an ordinary modifier, held while the key is pressed, it is sent
    until it is released, and not afterwards. *)
Theorem C70_one_shot_held :
  forall refs d pos dbg height fuel setup ops cf k m h b i q sk j r ko, Forall (tkey (cf_layer_count cf) d height) refs ->
  registers_two setup -> Forall (fun o => plain_op o = true) ops -> (32 <= m)%nat ->
  run_ops (cconf refs d pos dbg) fuel (setup ++ ops ++ repeat OpTick m) (km_new (ctx_from_config cf)) = Ok k ->
  trun (stc_release (cf_sticky cf)) (cf_layer_count cf) refs d h b -> at_rest b ->
  nth_error refs (N.to_nat i) = Some (RSticky q) -> nth_error (kd_sticky d) (N.to_nat q) = Some sk ->
  nth_error refs (N.to_nat j) = Some r -> plain_key d r ko ->
  let sent := km_pressed_keys (cconf refs d pos dbg) k in
  (accepted ops = h ++ [Press i; Press j] -> sent = Ok [mods_key (sk_mods sk); ko])
  /\ (accepted ops = h ++ [Press i; Press j; Release i] -> sent = Ok [ko])
  /\ (accepted ops = h ++ [Press i; Press j; Release j] -> sent = Ok [mods_key (sk_mods sk)])
  /\ (accepted ops = h ++ [Press i; Press j; Release i; Release j] -> sent = Ok [])
  /\ (accepted ops = h ++ [Press i; Press j; Release j; Release i] -> sent = Ok [])
  /\ (accepted ops = h ++ [Press i; Press j; Release j; Release i; Press j] -> sent = Ok [ko]).
Proof.
  intros refs d pos dbg height fuel setup ops cf k m h b i q sk j r ko Hr Hset Ho Hm H Hh Hb Hi Hs Hj Hp sent.
  set (sr := stc_release (cf_sticky cf)) in *. set (n := cf_layer_count cf) in *.
  destruct (one_shot_held sr refs d b Hb i q sk j r ko Hi Hs Hj Hp) as (b1 & b2 & b3 & b4 & S1 & S2 & S3 & S4 & S5 & S6 & O2 & O3 & O4).
  destruct (plain_tap sr refs d b Hb j r ko Hj Hp) as (b7 & S7 & O7).
  pose proof (trun_input _ _ _ _ _ _ _ _ Hh S1) as R1. pose proof (trun_input _ _ _ _ _ _ _ _ R1 S2) as R2. pose proof (trun_input _ _ _ _ _ _ _ _ R2 S3) as R3.
  pose proof (trun_input _ _ _ _ _ _ _ _ R3 S4) as R4. pose proof (trun_input _ _ _ _ _ _ _ _ R2 S5) as R5. pose proof (trun_input _ _ _ _ _ _ _ _ R5 S6) as R6.
  pose proof (trun_input _ _ _ _ _ _ _ _ R6 S7) as R7. rewrite <- ?app_assoc in *. cbn [app] in *.
  assert (X : forall h' b', trun sr n refs d h' b' -> accepted ops = h' -> sent = Ok (tboard_output b')).
  { intros h' b' R E. eapply settled_output; try eassumption. rewrite E. exact R. }
  pose proof (rest_output b Hb) as O0.
  repeat split; intros E.
  - rewrite <- O2. exact (X _ _ R2 E).
  - rewrite <- O3. exact (X _ _ R3 E).
  - rewrite <- O4. exact (X _ _ R5 E).
  - rewrite <- O0. exact (X _ _ R4 E).
  - rewrite <- O0. exact (X _ _ R6 E).
  - rewrite <- O7. exact (X _ _ R7 E).
Qed.

(** C70: caps word.  Tap its key: letters typed then are sent with left shift, until
    a key [j'] outside words, itself sent without. *)
Theorem C70_caps_word :
  forall refs d pos dbg height fuel setup ops cf k m h b i j r ko j' r' ko', Forall (tkey (cf_layer_count cf) d height) refs ->
  registers_two setup -> Forall (fun o => plain_op o = true) ops -> (32 <= m)%nat ->
  run_ops (cconf refs d pos dbg) fuel (setup ++ ops ++ repeat OpTick m) (km_new (ctx_from_config cf)) = Ok k ->
  trun (stc_release (cf_sticky cf)) (cf_layer_count cf) refs d h b -> at_rest b ->
  nth_error refs (N.to_nat i) = Some RCapsWord ->
  nth_error refs (N.to_nat j) = Some r -> plain_key d r ko -> in_word ko = true ->
  nth_error refs (N.to_nat j') = Some r' -> plain_key d r' ko' -> in_word ko' = false ->
  let sent := km_pressed_keys (cconf refs d pos dbg) k in
  forall letters, 
  (accepted ops = h ++ [Press i; Release i] ++ concat (repeat [Press j; Release j] letters) ++ [Press j] -> sent = Ok [caps_shift; ko])
  /\ (accepted ops = h ++ [Press i; Release i] ++ concat (repeat [Press j; Release j] letters) ++ [Press j'] -> sent = Ok [ko'])
  /\ (accepted ops = h ++ [Press i; Release i] ++ concat (repeat [Press j; Release j] letters) ++ [Press j'; Release j'] -> sent = Ok [])
  /\ (accepted ops = h ++ [Press i; Release i] ++ concat (repeat [Press j; Release j] letters) ++ [Press j'; Release j'; Press j] -> sent = Ok [ko]).
Proof.
  intros refs d pos dbg height fuel setup ops cf k m h b i j r ko j' r' ko' Hr Hset Ho Hm H Hh Hb Hi Hj Hp Hw Hj' Hp' Hw' sent letters.
  set (sr := stc_release (cf_sticky cf)) in *. set (n := cf_layer_count cf) in *.
  destruct (caps_word sr refs d b Hb i j r ko j' r' ko' Hi Hj Hp Hw Hj' Hp' Hw') as (b1 & b2 & b3 & b4 & S1 & S2 & S3 & S4 & S5 & S6 & _ & O3 & O4 & _).
  destruct (plain_tap sr refs d b Hb j r ko Hj Hp) as (b7 & S7 & O7).
  pose proof (trun_input _ _ _ _ _ _ _ _ Hh S1) as R1. pose proof (trun_input _ _ _ _ _ _ _ _ R1 S2) as R2. rewrite <- app_assoc in R2. cbn [app] in R2.
  assert (RL : forall w, trun sr n refs d ((h ++ [Press i; Release i]) ++ concat (repeat [Press j; Release j] w)) b2).
  { induction w as [|w IH]; [cbn; rewrite app_nil_r; exact R2|]. pose proof (trun_input _ _ _ _ _ _ _ _ (trun_input _ _ _ _ _ _ _ _ IH S3) S4) as Y.
    replace (S w) with (w + 1)%nat by lia. rewrite repeat_app, concat_app. rewrite <- ?app_assoc in *. exact Y. }
  specialize (RL letters). rewrite <- app_assoc in RL.
  pose proof (trun_input _ _ _ _ _ _ _ _ RL S3) as R3. pose proof (trun_input _ _ _ _ _ _ _ _ RL S5) as R5. pose proof (trun_input _ _ _ _ _ _ _ _ R5 S6) as R6.
  pose proof (trun_input _ _ _ _ _ _ _ _ R6 S7) as R7. rewrite <- ?app_assoc in *. 
  assert (X : forall h' b', trun sr n refs d h' b' -> accepted ops = h' -> sent = Ok (tboard_output b')).
  { intros h' b' R E. eapply settled_output; try eassumption. rewrite E. exact R. }
  pose proof (rest_output b Hb) as O0.
  repeat split; intros E.
  - rewrite <- O3. exact (X _ _ R3 E).
  - rewrite <- O4. exact (X _ _ R5 E).
  - rewrite <- O0. exact (X _ _ R6 E).
  - rewrite <- O7. exact (X _ _ R7 E).
Qed.

(** C70: a one-shot layer.  Tap its key: the next key is taken from that layer as
    well, and afterwards the layer is off. *)
Theorem C70_one_shot_layer :
  forall refs d pos dbg height fuel setup ops cf k m h b i q l j p lk r ko, Forall (tkey (cf_layer_count cf) d height) refs ->
  registers_two setup -> Forall (fun o => plain_op o = true) ops -> (32 <= m)%nat ->
  run_ops (cconf refs d pos dbg) fuel (setup ++ ops ++ repeat OpTick m) (km_new (ctx_from_config cf)) = Ok k ->
  trun (stc_release (cf_sticky cf)) (cf_layer_count cf) refs d h b -> at_rest b ->
  nth_error refs (N.to_nat i) = Some (RLayered (LyModifier q)) -> nth_error (kd_layer_mods d) (N.to_nat q) = Some (LmSticky l) ->
  1 <= l <= N.of_nat (cf_layer_count cf) ->
  nth_error refs (N.to_nat j) = Some (RLayered (LyLayered p)) -> nth_error (kd_layered d) (N.to_nat p) = Some lk ->
  acts_as lk (fun x => x = l \/ tb_on b x = true) (tb_default b) r -> plain_key d r ko ->
  let sent := km_pressed_keys (cconf refs d pos dbg) k in
  (accepted ops = h ++ [Press i; Release i] -> sent = Ok [] /\ is_on (cx_layered (km_ctx k)) l = true)
  /\ (accepted ops = h ++ [Press i; Release i; Press j] -> sent = Ok [ko])
  /\ (accepted ops = h ++ [Press i; Release i; Press j; Release j] -> sent = Ok []
       /\ forall x, is_on (cx_layered (km_ctx k)) x = tb_on b x && negb (x =? l)).
Proof.
  intros refs d pos dbg height fuel setup ops cf k m h b i q l j p lk r ko Hr Hset Ho Hm H Hh Hb Hi Hq Hl Hj Hk Ha Hp sent.
  pose proof (trun_layers _ _ _ _ _ _ Hh) as EL.
  set (sr := stc_release (cf_sticky cf)) in *. set (n := cf_layer_count cf) in *. rewrite <- EL in Hl.
  destruct (one_shot_layer sr n refs d b Hb i q l j p lk r ko Hi Hq Hl Hj Hk Ha Hp) as (b1 & b2 & b3 & b4 & S1 & S2 & S3 & S4 & O1 & O2 & O3 & O4 & L4 & _ & L2).
  pose proof (trun_input _ _ _ _ _ _ _ _ Hh S1) as R1. pose proof (trun_input _ _ _ _ _ _ _ _ R1 S2) as R2. pose proof (trun_input _ _ _ _ _ _ _ _ R2 S3) as R3.
  pose proof (trun_input _ _ _ _ _ _ _ _ R3 S4) as R4. rewrite <- ?app_assoc in *. cbn [app] in *.
  destruct (C70_settled _ _ _ _ _ _ _ _ _ _ _ Hr Hset Ho Hm H) as (b' & Hb' & E & El & _). fold sr n in Hb'. subst sent. rewrite E.
  repeat split; try (intros x; rewrite El); try rewrite El; match goal with X : accepted ops = _ |- _ => rewrite X in Hb' | |- _ -> _ => intros X; rewrite X in Hb' end.
  - now rewrite (C70_unique _ _ _ _ _ _ _ Hb' R2), O2.
  - now rewrite (C70_unique _ _ _ _ _ _ _ Hb' R2).
  - now rewrite (C70_unique _ _ _ _ _ _ _ Hb' R3), O3.
  - now rewrite (C70_unique _ _ _ _ _ _ _ Hb' R4), O4.
  - rewrite (C70_unique _ _ _ _ _ _ _ Hb' R4). unfold tb_on, mode_of. rewrite L4. unfold put. destruct (N.leb_spec 1 l); [|lia].
    destruct (N.leb_spec 1 x); [|reflexivity]. destruct (N.eqb_spec x l) as [->|Hne].
    + rewrite set_nth_same by lia. cbn. now rewrite andb_false_r.
    + rewrite set_nth_other by lia. cbn. now rewrite andb_true_r.
Qed.

(** *** Examples *)
Definition typing_refs : list ref :=
  [kB; RLayered (LyLayered 0); RLayered (LyModifier 2); RSticky 0; RSticky 1; RCapsWord; RCallback 0; RLayered (LyModifier 1); RKeyboard (KbKeyCode 44)].
Example C70_example_keymap : Forall (tkey 3 sample_data 1) typing_refs /\ N.of_nat (length typing_refs) <= 65535 /\ at_rest (tboard_new 3).
Proof.
  split; [|split; [cbn; lia|]].
  - repeat apply Forall_cons; try apply Forall_nil.
    + eapply tk_plain. reflexivity.
    + eapply tk_layered; [reflexivity|reflexivity|eapply tk_plain; reflexivity|]. intros r [E|[E|[E|[]]]]; try discriminate E. injection E as <-. eapply tk_plain. reflexivity.
    + eapply tk_modifier; [reflexivity|split; [lia|cbn; lia]].
    + eapply tk_sticky. reflexivity.
    + eapply tk_sticky. reflexivity.
    + apply tk_caps.
    + eapply tk_callback. reflexivity.
    + eapply tk_modifier; [reflexivity|split; [lia|cbn; lia]].
    + eapply tk_plain. reflexivity.
  - do 4 (split; [reflexivity|]). intros l. unfold mode_of. destruct (1 <=? l); [|discriminate]. cbn [tboard_new tb_layers].
    destruct (N.to_nat (l - 1)) as [|[|[|[|]]]]; discriminate.
Qed.
Lemma layer_one_key : acts_as (mkLayeredKey kC [Some kD; None; None]) (fun x => x = 1 \/ tb_on (tboard_new 3) x = true) (tb_default (tboard_new 3)) kD.
Proof.
  apply on_layer with (l := 1); [now left|split; [lia|reflexivity]|]. intros l' r' [->|O] _; [lia|]. exfalso. unfold tb_on, mode_of in O. destruct (1 <=? l'); [|discriminate O].
  cbn [tboard_new tb_layers] in O. destruct (N.to_nat (l' - 1)) as [|[|[|[|]]]]; discriminate O.
Qed.
(** A fast typist with all of it at once: one-shot shift, caps word on, letters, a
    one-shot layer, a space, the callback key; eight presses. *)
Definition typing_ops : list op :=
  [P 3; Rl 3; P 0; OpTick; Rl 0; P 5; Rl 5; P 2; Rl 2; OpTick; P 1; OpTick; Rl 1; P 6; Rl 6; P 4; P 8].
Example C70_example :
  Forall (fun o => plain_op o = true) typing_ops
  /\ accepted typing_ops = filter_map (fun o => match o with OpInput ie => Some ie | _ => None end) typing_ops
  /\ tfits (stc_release (cf_sticky sample_config)) (cf_layer_count sample_config) typing_refs sample_data (chc_max_pressed (cf_chorded sample_config)) (accepted typing_ops)
  /\ returns (run_ops (cconf typing_refs sample_data bs_std false) 75 (typing_ops ++ repeat OpTick 32) (km_new sample_ctx)) (fun k =>
       km_pressed_keys (cconf typing_refs sample_data bs_std false) k = Ok [mods_key 1; mkKO (Keyboard 44) 0]
       /\ km_boot_keyboard_report (cconf typing_refs sample_data bs_std false) k = Ok [1; 0; 44; 0; 0; 0; 0; 0]).
Proof.
  split; [repeat constructor|]. split; [reflexivity|]. split.
  - apply C70_eight_presses_fit.
    + intros i Hi. vm_compute in Hi. repeat (destruct Hi as [Hi|Hi]; [try discriminate Hi; injection Hi as <-; cbn; lia|]). destruct Hi.
    + intros ko Hi. vm_compute in Hi. repeat (destruct Hi as [Hi|Hi]; [discriminate Hi|]). destruct Hi.
    + vm_compute. lia.
    + right. vm_compute. lia.
  - vm_compute. split; reflexivity.
Qed.
(** A one-shot control tapped, then B; a one-shot layer tapped, then the layered key;
    caps word, two letters and a space. *)
Definition typing_reports (ops : list op) (r : list u8) : Prop :=
  returns (run_ops (cconf typing_refs sample_data bs_std false) 75 (ops ++ repeat OpTick 32) (km_new sample_ctx)) (fun k =>
    km_boot_keyboard_report (cconf typing_refs sample_data bs_std false) k = Ok r).
Example C70_words_example :
  nth_error typing_refs 4 = Some (RSticky 1) /\ nth_error (kd_sticky sample_data) 1 = Some (mkStickyKey 1)
  /\ nth_error typing_refs 0 = Some kB /\ plain_key sample_data kB (out 5)
  /\ typing_reports [P 4; Rl 4; P 0] [1; 0; 5; 0; 0; 0; 0; 0]
  /\ typing_reports [P 4; Rl 4; P 0; Rl 0; P 0] [0; 0; 5; 0; 0; 0; 0; 0]
  /\ typing_reports [P 4; P 0] [1; 0; 5; 0; 0; 0; 0; 0]
  /\ typing_reports [P 4; P 0; Rl 4] [0; 0; 5; 0; 0; 0; 0; 0]
  /\ nth_error typing_refs 2 = Some (RLayered (LyModifier 2)) /\ nth_error (kd_layer_mods sample_data) 2 = Some (LmSticky 1)
  /\ nth_error typing_refs 1 = Some (RLayered (LyLayered 0)) /\ nth_error (kd_layered sample_data) 0 = Some (mkLayeredKey kC [Some kD; None; None])
  /\ typing_reports [P 2; Rl 2; P 1] [0; 0; 7; 0; 0; 0; 0; 0]
  /\ typing_reports [P 2; Rl 2; P 1; Rl 1; P 1] [0; 0; 6; 0; 0; 0; 0; 0]
  /\ in_word (out 5) = true /\ in_word (out 44) = false /\ nth_error typing_refs 5 = Some RCapsWord
  /\ typing_reports [P 5; Rl 5; P 0; Rl 0; P 0] [2; 0; 5; 0; 0; 0; 0; 0]
  /\ typing_reports [P 5; Rl 5; P 0; Rl 0; P 0; Rl 0; P 8] [0; 0; 44; 0; 0; 0; 0; 0]
  /\ typing_reports [P 5; Rl 5; P 0; Rl 0; P 8; Rl 8; P 0] [0; 0; 5; 0; 0; 0; 0; 0].
Proof. unfold typing_reports. vm_compute. repeat split; reflexivity. Qed.

(** C70: room can run out on an innocent history.  A one-shot modifier key tapped
    sixteen times with nothing typed in between leaves sixteen virtual keys down;
    the seventeenth press of any key panics. *)
Definition taps (i : u16) (n : nat) : list op := concat (repeat ([P i; OpTick; OpTick; Rl i] ++ repeat OpTick 4) n).
Lemma sixteen_taps :
  run_ops (cconf typing_refs sample_data bs_std false) 75 (taps 4 16 ++ [P 0; OpTick; OpTick]) (km_new sample_ctx) = Panic.
Proof. vm_compute. reflexivity. Qed.
Theorem C70_taps_alone_panic_refuted :
  ~ (forall refs d pos dbg height ops cf, Forall (tkey (cf_layer_count cf) d height) refs -> N.of_nat (length refs) <= 65535 ->
     Forall (fun o => plain_op o = true) ops -> (forall i, In (Press i) (accepted ops) -> (N.to_nat i < length refs)%nat) ->
     (* never more than one key is held *)
     (forall n, (length (down_after (firstn n (accepted ops))) <= 1)%nat) -> chc_max_pressed (cf_chorded cf) = O \/ (16 <= chc_max_pressed (cf_chorded cf))%nat -> ck_now (clocks_run ops) <= u32_max ->
     run_ops (cconf refs d pos dbg) (height + 74) ops (km_new (ctx_from_config cf)) <> Panic).
Proof.
  intros H. refine (H typing_refs sample_data bs_std false 1%nat (taps 4 16 ++ [P 0; OpTick; OpTick]) sample_config (proj1 C70_example_keymap) (proj1 (proj2 C70_example_keymap)) _ _ _ _ _ sixteen_taps).
  - repeat constructor.
  - intros i Hi. vm_compute in Hi. repeat (destruct Hi as [Hi|Hi]; [try discriminate Hi; injection Hi as <-; cbn; lia|]). destruct Hi.
  - intros n. do 33 (destruct n as [|n]; [vm_compute; lia|]). rewrite firstn_all2 by (vm_compute; lia). vm_compute. lia.
  - right. vm_compute. lia.
  - vm_compute. discriminate.
Qed.

Print Assumptions C70_unique.
Print Assumptions C70_exists.
Print Assumptions C70_pressed.
Print Assumptions C70_settled.
Print Assumptions C70_never_panics.
Print Assumptions C70_reports_what_is_typed.
Print Assumptions C70_eight_presses_fit.
Print Assumptions C70_one_shot_modifier.
Print Assumptions C70_one_shot_held.
Print Assumptions C70_caps_word.
Print Assumptions C70_one_shot_layer.
Print Assumptions C70_taps_alone_panic_refuted.
