(** C32: a macro's continuation is always on its way, in keymaps whose macro keys
    are never undecided. *)
From Coq Require Import Permutation.
From Verif Require Import BaseFacts Output Types Scheduler Reporter Keymap SimpleKeys TapHold TapDance Sticky CapsWord
  Layered Automation Chorded Composite SpecScheduler SchedulerFacts SpecKeymap KeymapFacts KeymapInv KeymapHist
  KeymapQueue KeymapCalls KeymapLive SpecComposite CompositeFacts CtxFacts SpecKinds SpecMacro MacroFacts SpecMacroLive.
Local Open Scope N_scope.

(** ** What keys turn into *)
Lemma chk_resolve_leads d i k c ki r n : nth_error (kd_chorded d) (N.to_nat i) = Some k ->
  chk_resolve k c ki r = Ok (NpkKey n) -> leads d (RChorded (ChChorded i)) n.
Proof.
  intros Hk H. apply (leads_chorded d i k n Hk). unfold chk_resolve in H.
  destruct r as [id|]; [|inv_ok H; now left]. inv_bind H. inv_bind H. destruct (_ =? _); [|discriminate].
  inv_bind H. inv_ok H. right.
  destruct (find_chord_key (chk_chords k) id) eqn:Ef; cbn in E1; [|discriminate]. inv_ok E1.
  eapply find_chord_key_in; eassumption.
Qed.
Lemma press_leads d i c r r' kes : c_new_pressed_key d i c r = Ok (PkNewPressedKey (NpkKey r'), kes) -> leads d r r'.
Proof.
  destruct r as [n|n| |[n|n]|n|n|n|[n|n]|n|n|n|n]; cbn; intros H; try discriminate.
  - inv_bind H. destruct a as [x y]. inv_ok H. unfold auto_new_pressed_key in E. inv_bind E. now inv_ok E.
  - unfold callback_new_pressed_key in H. inv_bind H. discriminate.
  - inv_bind H. destruct a as [x y]. inv_ok H. inv_bind E. apply index_ok in E0. unfold chk_new_pressed_key in E.
    inv_bind E. destruct (ch_initial_resolution _ _).
    + inv_bind E. inv_ok E. cbn in H0. injection H0 as ->. eapply chk_resolve_leads; eassumption.
    + unfold ch_pending_result in E. now inv_ok E.
  - inv_bind H. destruct a as [x y]. inv_ok H. inv_bind E. apply index_ok in E0. unfold cha_new_pressed_key in E.
    inv_bind E. destruct (ch_initial_resolution _ _).
    + inv_ok E. cbn in H0. destruct r as [id|]; [discriminate|]. injection H0 as <-. now apply leads_auxiliary.
    + unfold ch_pending_result in E. now inv_ok E.
  - inv_bind H. destruct a as [x y]. inv_ok H. unfold bind in E.
    destruct (index (kd_layer_mods d) (N.to_nat n)); [|discriminate..]. destruct (lm_new_pressed_key a). now inv_ok E.
  - inv_bind H. destruct a as [x y]. inv_ok H. inv_bind E. inv_bind E. inv_ok E.
    apply index_ok in E0. apply lk_new_in in E1 as (r & -> & Hr). cbn in H0. injection H0 as <-.
    eapply leads_layered; [exact E0|]. now apply layered_refs_in.
  - inv_bind H. destruct a as [x y]. inv_ok H. unfold th_new_pressed_key in E.
    assert (Hp : x = PkNewPressedKey (NpkKey r') ) by (destruct x; cbn in H0; try discriminate; congruence).
    subst x. destruct (thc_required_idle _); [|inv_ok E; discriminate].
    destruct (_ <=? _); [inv_ok E; discriminate|]. inv_bind E. injection E as <- _. apply index_ok in E0.
    eapply leads_tap_hold; eauto.
Qed.
Lemma decided_leads d p i c r ev p' r' kes : c_update_pending d p i c r ev = Ok (p', Some (NpkKey r'), kes) -> leads d r r'.
Proof.
  intros H. unfold c_update_pending in H.
  destruct r as [n|n| |cr|n|n|n|[n|n]|n|n|n|n]; try discriminate.
  - destruct p as [p| |]; try discriminate. destruct (try_event as_chorded ev) as [e|]; [|discriminate].
    inv_bind H. destruct a as [[p2 n] k2]. inv_ok H. destruct cr as [n|n]; cbn in E; inv_bind E.
    + apply index_ok in E0. unfold chk_update_pending in E. inv_bind E. destruct a0 as [p3 o].
      destruct o as [res|]; [|now inv_ok E]. inv_bind E. inv_ok E. eapply chk_resolve_leads; eassumption.
    + apply index_ok in E0. unfold cha_update_pending in E. inv_bind E. destruct a0 as [p3 o].
      destruct o as [[id|]|]; cbn in E; try discriminate. inv_ok E. now apply leads_auxiliary.
  - destruct p as [|p|]; try discriminate. destruct (try_event as_tap_dance ev) as [e|]; [|discriminate].
    inv_bind H. destruct a as [[p2 n2] k2]. inv_ok H. unfold td_update_pending in E. inv_bind E.
    apply index_ok in E0. inv_bind E. destruct a0 as [[p3 o] k3]. eapply leads_tap_dance; [exact E0|]. destruct o as [idx|].
    + inv_bind E. inv_ok E. eapply td_definition_in; eassumption.
    + destruct (td_count a); [discriminate|]. destruct (_ <=? _)%nat; [|discriminate].
      inv_bind E. inv_ok E. eapply td_definition_in; eassumption.
  - destruct p as [| |p]; try discriminate. destruct (try_event as_tap_hold ev) as [e|]; [|discriminate].
    inv_bind H. destruct a as [[p2 n2] k2]. inv_ok H. unfold th_update_pending in E.
    destruct (th_handle_event p (cx_tap_hold c) i e) as [p3 [st|]]; [|discriminate].
    inv_bind E. inv_ok E. apply index_ok in E0. eapply leads_tap_hold; [exact E0|]. destruct st; auto.
Qed.

(** ** The macro events keys emit *)
Definition macro_event (d : key_data) (i : u16) (r : ref) (ev : event cev) : Prop :=
  match ev with
  | EvKey j (CeAutomation a) =>
      j = i /\ (exists n, r = RAutomation n)
      /\ (a = AuExecutionFinished \/ exists k e, In k (kd_automation d) /\ a = AuEnqueue e
           /\ (e = ak_on_press k \/ e = ak_while_pressed k \/ e = ak_on_release k))
  | _ => True
  end.
Definition mac d i r (kes : key_events cev) : Prop := Forall (fun se => macro_event d i r (se_event se)) kes.
Lemma mac_map {A} (f : A -> cev) d i r l : (forall e, as_automation (f e) = None) -> mac d i r (ke_map f l).
Proof.
  intros Hf. induction l as [|[s [ie|j e|kk]] l IH]; constructor; auto; cbn; auto.
  specialize (Hf e). destruct (f e); try exact I. discriminate.
Qed.
Lemma press_mac d i c r x kes : c_new_pressed_key d i c r = Ok (x, kes) -> mac d i r kes.
Proof.
  destruct r as [n|n| |cr|n|n|n|lr|n|n|n|n]; cbn; intros H.
  - inv_bind H. destruct a as [p y]. inv_ok H. unfold auto_new_pressed_key in E. inv_bind E. inv_ok E.
    apply index_ok, nth_error_In in E0. constructor; [|constructor]. cbn. split; [reflexivity|]. split; [eauto|].
    destruct (exec_is_empty (ak_on_press a)); [now left|]. right. exists a, (ak_on_press a). auto.
  - unfold callback_new_pressed_key in H. inv_bind H. inv_ok H. repeat constructor.
  - inv_ok H. repeat constructor.
  - inv_bind H. destruct a as [p y]. inv_ok H. now apply mac_map.
  - inv_ok H. constructor.
  - inv_ok H. constructor.
  - inv_ok H. constructor.
  - inv_bind H. destruct a as [p y]. inv_ok H. now apply mac_map.
  - inv_ok H. constructor.
  - inv_ok H. constructor.
  - inv_ok H. repeat constructor.
  - inv_bind H. destruct a as [p y]. inv_ok H. now apply mac_map.
Qed.
Lemma pending_mac d p i c r ev x kes : c_update_pending d p i c r ev = Ok (x, kes) -> mac d i r kes.
Proof.
  unfold c_update_pending. intros H. destruct r; try discriminate; destruct p; try discriminate;
    match type of H with match ?o with _ => _ end = _ => destruct o end; try (inv_ok H; constructor);
    inv_bind H; destruct a as [[p2 n2] k2]; inv_ok H; now apply mac_map.
Qed.
Lemma state_mac d s r c i ev x kes : c_update_state d s r c i ev = Ok (x, kes) -> mac d i r kes.
Proof.
  unfold c_update_state. intros H. destruct r as [n|n| |cr|n|n|n|lr|n|n|n|n]; try (inv_ok H; constructor).
  - destruct s; try (inv_ok H; constructor). destruct (try_event as_automation ev) as [e|]; [|inv_ok H; constructor].
    inv_bind H. inv_ok H. unfold auto_update_state in E.
    destruct e as [[j|j|ko|ko]|j [e| |]|kk]; try (inv_ok E; constructor).
    + destruct (i =? j); [|inv_ok E; constructor]. inv_bind E. inv_ok E. apply index_ok, nth_error_In in E0.
      constructor; [|constructor]. cbn. split; [reflexivity|]. split; [eauto|]. right. eauto 10.
    + destruct (i =? j); [|inv_ok E; constructor]. inv_bind E. inv_ok E. apply index_ok, nth_error_In in E0.
      constructor; [|constructor]. cbn. split; [reflexivity|]. split; [eauto|]. right. eauto 10.
  - destruct s; try (inv_ok H; constructor). destruct (try_event as_layered ev) as [e|]; [|inv_ok H; constructor].
    inv_bind H. destruct a as [b' k']. inv_ok H. now apply mac_map.
  - destruct s; try (inv_ok H; constructor). destruct (try_event as_sticky ev) as [e|]; [|inv_ok H; constructor].
    inv_bind H. destruct (st_update_state b a i e). inv_ok H. now apply mac_map.
Qed.

(** ** The law *)
Section Macros.
Variables (refs : list ref) (d : key_data) (pos : position_fn) (debug : bool) (cf : automation_config) (D : N).
Local Notation conf := (cconf refs d pos debug).
Hypothesis Hrange : keys_in_range d cf.
Hypothesis Hund : undisturbed d refs.
Hypothesis HD : takes_at_most D cf.

Definition mcanc (i : u16) : Prop := exists r0, nth_error refs (N.to_nat i) = Some r0 /\ no_macro d r0.
Definition mG (i : u16) (r : ref) : Prop :=
  exists r0, nth_error refs (N.to_nat i) = Some r0 /\ reaches d r0 r /\ (plain d r \/ no_macro d r0).
Definition mE' (ev : event cev) : Prop :=
  match ev with
  | EvKey i (CeAutomation (AuEnqueue e)) => ~ mcanc i /\ exec_in_range cf e
  | EvKey i (CeAutomation AuNextInstruction) => ~ mcanc i
  | _ => True
  end.
Definition mE (se : sched_event cev) : Prop :=
  mE' (se_event se) /\ (next_instruction (se_event se) = true -> exists t, se_schedule se = After t /\ t <= D).
Definition mB (c : cctx) : nat := if auto_head_empty (cx_automation c) then 0 else 1.
Definition mC (c : cctx) : Prop := aux_config (cx_automation c) = cf /\ exists l, queue_is (cx_automation c) l.
Definition macro_law : @law ref cctx cev := mkLaw mcanc mG mE mE' next_instruction mB mC.

Lemma mac_E i r kes : mG i r -> mac d i r kes -> Forall mE kes /\ counted macro_law kes = 0%nat.
Proof.
  intros (r0 & Hr0 & Hreach & _) Hm. unfold mac in Hm. rewrite Forall_forall in Hm.
  assert (Hone : forall se, In se kes -> mE se /\ next_instruction (se_event se) = false).
  { intros se Hi. specialize (Hm se Hi). unfold mE, macro_event in *.
    destruct (se_event se) as [ie|j [a|e|e|e|e|e|e]|kk]; try (split; [split; [exact I|discriminate]|reflexivity]).
    destruct Hm as (-> & (n & ->) & Ha). assert (Hc : ~ mcanc i).
    { intros (r1 & H1 & H2). rewrite H1 in Hr0. injection Hr0 as ->. exact (H2 _ Hreach). }
    destruct Ha as [->|(k & e & Hk & -> & He)]; [split; [split; [exact I|discriminate]|reflexivity]|].
    split; [|reflexivity]. split; [|discriminate]. split; [exact Hc|].
    destruct (Hrange _ Hk) as (A & B & C). destruct He as [->|[->| ->]]; assumption. }
  split; [apply Forall_forall; intros se Hi; now apply Hone|].
  unfold counted. cbn. rewrite (proj2 (length_zero_iff_nil _)); [reflexivity|].
  destruct (filter _ kes) as [|x l] eqn:Ef; [reflexivity|]. exfalso.
  assert (Hx : In x (x :: l)) by now left. rewrite <- Ef in Hx. apply filter_In in Hx as [Hx1 Hx2].
  apply Hone in Hx1 as [_ Hx1]. congruence.
Qed.

Lemma map_other {A} (g : A -> cev) (l : key_events A) : (forall e, as_automation (g e) = None) ->
  Forall mE (ke_map g l) /\ counted macro_law (ke_map g l) = 0%nat.
Proof.
  intros Hg. unfold counted. cbn [M macro_law].
  assert (H1 : forall se, mE (map_sched g se) /\ next_instruction (se_event (map_sched g se)) = false).
  { intros [s [ie|j e|kk]]; unfold mE, map_sched; cbn; try (split; [split; [exact I|discriminate]|reflexivity]).
    specialize (Hg e). destruct (g e); try discriminate; (split; [split; [exact I|discriminate]|reflexivity]). }
  unfold ke_map. induction l as [|se l [IH1 IH2]]; cbn [map filter length]; [split; [constructor|reflexivity]|].
  destruct (H1 se) as [A1 A2]. rewrite A2. split; [now constructor|exact IH2].
Qed.
Lemma counted_app a b : counted macro_law (a ++ b) = (counted macro_law a + counted macro_law b)%nat.
Proof. unfold counted. now rewrite filter_app, app_length. Qed.

Lemma effect_E ki x : (forall i last more, x = Some (i, last, more) -> ~ mcanc ki) ->
  (forall t last more, x = Some (InWait t, last, more) -> t <= D) ->
  Forall mE (instruction_effect (auc_duration cf) ki x)
  /\ counted macro_law (instruction_effect (auc_duration cf) ki x)
     = match x with Some (_, last, more) => if negb last || more then 1 else 0 | None => 0 end%nat.
Proof.
  intros Hc Hw. destruct x as [[[i last] more]|]; [|split; [constructor|reflexivity]].
  specialize (Hc _ _ _ eq_refl). destruct HD as [Hd _].
  assert (HP : match i with InWait t => t | _ => auc_duration cf end <= D) by (destruct i; auto; eapply Hw; reflexivity).
  cbn [instruction_effect]. rewrite !Forall_app, !counted_app.
  assert (Hn : forall e, mE' e -> next_instruction e = false -> mE (mkSE Immediate e) /\ forall t, mE (mkSE (After t) e))
    by (intros e H1 H2; split; [|intros t]; (split; [exact H1|cbn; congruence])).
  assert (Hp : forall t, t <= D -> mE (mkSE (After t) (EvKey ki (CeAutomation AuNextInstruction))))
    by (intros t Ht; split; [exact Hc|intros _; exists t; auto]).
  split; [split; [|split]|].
  - destruct i; repeat (apply Forall_cons || apply Forall_nil); apply Hn; try exact I; reflexivity.
  - constructor; [|constructor]. destruct last; [apply Hn; [exact I|reflexivity]|now apply Hp].
  - destruct (last && more); constructor; [now apply Hp|constructor].
  - destruct i, last, more; reflexivity.
Qed.

Lemma queue_waits c l i last more : queue_is c l -> aux_config c = cf ->
  snd (play_one (todo cf l)) = Some (i, last, more) -> In i (auc_instructions cf).
Proof.
  intros (_ & _ & Hf) Hc H. unfold todo in H. destruct l as [|e l]; [discriminate|]. cbn [map] in H.
  inversion_clear Hf as [|? ? [H1 H2] _]. rewrite Hc in H2. destruct (macro_cons _ _ H1 H2) as (j & Hj & Hm & _).
  rewrite Hm in H. apply nth_error_In in Hj.
  destruct (macro_of cf (exec_incr e)); cbn in H; injection H as <- _ _; exact Hj.
Qed.

Lemma play_one_waits c l i last more : queue_is c l -> aux_config c = cf ->
  snd (play_one (todo cf l)) = Some (i, last, more) -> match i with InWait t => t <= D | _ => True end.
Proof.
  intros Hq Hc H. apply (queue_waits c l) in H; [|exact Hq|exact Hc]. destruct i; try exact I. now apply HD.
Qed.
Lemma play_one_count q q' x : good q -> play_one q = (q', x) ->
  (match q with [] => 0 | _ => 1 end
   = (match x with Some _ => 1 | None => 0 end))%nat
  /\ (match q' with [] => 0 | _ => 1 end
   = match x with Some (_, last, more) => if negb last || more then 1 else 0 | None => 0 end)%nat.
Proof.
  intros Hg H. destruct q as [|[|i [|i2 m]] t]; cbn in H; injection H as <- <-; try (split; reflexivity).
  - inversion_clear Hg. congruence.
  - destruct t; split; reflexivity.
Qed.
Lemma queue_good c l : queue_is c l -> aux_config c = cf -> good (todo cf l).
Proof.
  intros (_ & _ & Hf) Hc. unfold good, todo. apply Forall_map. eapply Forall_impl; [|exact Hf].
  intros e [H1 H2]. rewrite Hc in H2. now apply macro_nonempty.
Qed.
Lemma head_todo c l : queue_is c l -> ((if auto_head_empty c then 0 else 1) = match todo cf l with [] => 0 | _ => 1 end)%nat.
Proof. intros Hq. rewrite (head_empty _ _ Hq). destruct l; reflexivity. Qed.

(** One event, counted. *)
Lemma automation_counts c l ev c' kes : queue_is c l -> aux_config c = cf -> mE' ev -> step_automation c ev = Ok (c', kes) ->
  aux_config c' = cf /\ (exists l' x, queue_is c' l' /\ player (todo cf l) (request_of cf ev) = (todo cf l', x))
  /\ Forall mE kes
  /\ ((if next_instruction ev then 1 else 0) <= (if auto_head_empty c then 0 else 1) ->
      (if auto_head_empty c' then 0 else 1) + (if next_instruction ev then 1 else 0)
      = (if auto_head_empty c then 0 else 1) + counted macro_law kes)%nat.
Proof.
  intros Hq Hc Hev H. assert (Hr : event_in_range (aux_config c) ev).
  { rewrite Hc. destruct ev as [ie|j [[e| |]|e|e|e|e|e|e]|kk]; try exact I. exact (proj2 Hev). }
  destruct (automation_plays c l ev Hq Hr) as (c2 & l' & kes2 & x & E0 & Q & C0 & P & K).
  rewrite H in E0. injection E0 as <- <-. rewrite Hc in *.
  split; [exact C0|]. split; [eauto|].
  assert (Hx : (forall i last more, x = Some (i, last, more) -> ~ mcanc (event_key ev))
    /\ (forall t last more, x = Some (InWait t, last, more) -> t <= D)
    /\ ((if next_instruction ev then 1 else 0) <= (match todo cf l with [] => 0 | _ => 1 end) ->
        (match todo cf l' with [] => 0 | _ => 1 end) + (if next_instruction ev then 1 else 0)
        = (match todo cf l with [] => 0 | _ => 1 end) + match x with Some (_, last, more) => if negb last || more then 1 else 0 | None => 0 end)%nat).
  { pose proof (queue_good _ _ Hq Hc) as Hg.
    assert (Hs : player (todo cf l) (request_of cf ev) = (todo cf l, None) -> next_instruction ev = false ->
      todo cf l' = todo cf l /\ x = None).
    { intros Hs _. rewrite P in Hs. injection Hs as -> ->. auto. }
    assert (Hskip : player (todo cf l) (request_of cf ev) = (todo cf l, None) -> next_instruction ev = false ->
      (forall i last more, x = Some (i, last, more) -> ~ mcanc (event_key ev))
      /\ (forall t last more, x = Some (InWait t, last, more) -> t <= D)
      /\ ((if next_instruction ev then 1 else 0) <= (match todo cf l with [] => 0 | _ => 1 end) ->
        (match todo cf l' with [] => 0 | _ => 1 end) + (if next_instruction ev then 1 else 0)
        = (match todo cf l with [] => 0 | _ => 1 end) + match x with Some (_, last, more) => if negb last || more then 1 else 0 | None => 0 end)%nat).
    { intros H1 H2. destruct (Hs H1 H2) as [E1 E2]. rewrite E1, E2, H2. repeat split; try discriminate. }
    destruct ev as [ie|j [[e| |]|e|e|e|e|e|e]|kk]; try (apply Hskip; reflexivity).
    - cbn [mE' request_of event_key next_instruction] in *. destruct Hev as [Hnc Hin].
      destruct (macro_of cf e) as [|i m] eqn:Em; [apply Hskip; reflexivity|].
      destruct (todo cf l) as [|m0 t0] eqn:Et.
      + cbn [player] in P. assert (Hg1 : good [i :: m]) by (repeat constructor; discriminate).
        pose proof (play_one_count _ _ _ Hg1 P) as [_ K2]. split; [auto|]. split; [|intros _; rewrite K2; lia].
        intros t last more ->. assert (He : exec_is_empty e = false).
        { destruct (exec_is_empty e) eqn:Ee; [|reflexivity]. rewrite (macro_empty _ _ Ee) in Em. discriminate. }
        destruct (macro_cons _ _ He Hin) as (i2 & Hi2 & Hm2 & _). rewrite Em in Hm2. injection Hm2 as <- _.
        apply nth_error_In in Hi2. cbn in P. destruct m; injection P as _ -> _ _; now apply HD.
      + cbn [player] in P. destruct (_ <? 8)%nat; injection P as <- <-; (split; [discriminate|]; split; [discriminate|]; intros _; reflexivity).
    - cbn [mE' request_of event_key next_instruction player] in *.
      pose proof (play_one_count _ _ _ Hg P) as [K1 K2]. split; [auto|]. split.
      + intros t last more ->. pose proof (play_one_waits c l (InWait t) last more Hq Hc) as Hw. cbn in Hw. apply Hw. now rewrite P.
      + intros Hle. rewrite K2. destruct x as [[[i last] more]|]; lia. }
  destruct Hx as (X1 & X2 & X3). rewrite K. destruct (effect_E (event_key ev) x X1 X2) as [F1 F2].
  split; [exact F1|]. rewrite F2, (head_todo _ _ Hq), (head_todo _ _ Q). exact X3.
Qed.

Lemma macro_lawful : lawful conf macro_law.
Proof.
  assert (Hnth : forall i r r', nth_error refs (N.to_nat i) = Some r -> nth_error refs (N.to_nat i) = Some r' -> r' = r) by (intros; congruence).
  split; cbn [canc G E E' M B C macro_law kc_refs kc_sys cconf sys_new_pressed_key sys_update_pending_state sys_update_state
              sys_ctx_handle_event sys_ctx_set_keymap_context composite].
  - intros i r H. exists r. split; [exact H|]. split; [constructor|]. apply Hund. eapply nth_error_In; eauto.
  - intros i c r r' kes (r0 & H1 & H2 & H3) H. exists r0. split; [exact H1|]. split.
    + eapply reaches_more; [exact H2|]. eapply press_leads; eauto.
    + destruct H3 as [H3|H3]; [left|now right]. eapply plain_closed; eauto.
  - intros i c r p kes (r0 & H1 & H2 & H3) H. exists r0. split; [exact H1|].
    destruct H3 as [H3|H3]; [|exact H3]. exfalso. eapply plain_not_pending; eauto.
  - intros i c r p p' ev r' kes (r1 & Hr1 & Hn) (r0 & H1 & H2 & H3) H. exists r0. split; [exact H1|]. split.
    + eapply reaches_more; [exact H2|]. eapply decided_leads; eauto.
    + right. rewrite Hr1 in H1. injection H1 as <-. exact Hn.
  - intros i c r x kes Hg H. eapply mac_E; [exact Hg|]. eapply press_mac; eauto.
  - intros i c r p x ev kes _ Hg H. eapply mac_E; [exact Hg|]. eapply pending_mac; eauto.
  - intros i c r ks x ev kes Hg _ H. eapply mac_E; [exact Hg|]. eapply state_mac; eauto.
  - intros c ev c' kes [Hc (l & Hq)] Hev H. apply cctx_inv in H as (k1 & k2 & k5 & S1 & S2 & _ & _ & S5 & _ & _ & -> & _).
    destruct (automation_counts _ _ _ _ _ Hq Hc Hev S1) as (A1 & (l' & x & A2 & _) & A3 & A4).
    assert (F2 : Forall mE k2 /\ counted macro_law k2 = 0%nat).
    { unfold step_caps_word in S2. destruct (try_event as_caps_word ev) as [e|]; [|injection S2 as _ <-; split; [constructor|reflexivity]].
      destruct (cw_handle_event (cx_caps_word c) e). injection S2 as _ <-. now apply map_other. }
    assert (F5 : Forall mE k5 /\ counted macro_law k5 = 0%nat).
    { unfold step_sticky in S5. destruct (try_event as_sticky ev) as [e|]; [|injection S5 as _ <-; split; [constructor|reflexivity]].
      inv_bind S5. destruct a as [c2 k']. injection S5 as _ <-. now apply map_other. }
    split; [split; [exact A1|eauto]|]. split; [rewrite !Forall_app; split; [exact A3|split; [apply F2|apply F5]]|].
    rewrite !counted_app, (proj2 F2), (proj2 F5), !Nat.add_0_r. exact A4.
  - intros c t i. split; [reflexivity|]. auto.
  - intros x. split; [exact I|reflexivity].
  - intros [cb|i ko]; split; try exact I; reflexivity.
  - intros se [H _]. exact H.
  - intros i e Hc He Hm. destruct e as [ie|j [[e| |]|e|e|e|e|e|e]|kk]; try discriminate. cbn in *.
    apply N.eqb_neq. intros ->. exact (He Hc).
Qed.

(** ** The watched keymap *)
Local Notation W := (watch conf).
Local Notation wkm := (keymap ref (cctx * list (event cev)) cev cpks cks).

Lemma plays_app a : forall q b, plays q (a ++ b)
  = (fst (plays (fst (plays q a)) b), snd (plays q a) ++ snd (plays (fst (plays q a)) b)).
Proof.
  induction a as [|r a IH]; intros q b; cbn [app plays].
  - cbn. now destruct (plays q b).
  - destruct (player q r) as [q1 x]. rewrite IH. destruct (plays q1 a) as [q2 xs]. reflexivity.
Qed.
Lemma instructions_app a b : instructions_of (a ++ b) = instructions_of a ++ instructions_of b.
Proof. induction a as [|[[[i l] m]|] a IH]; cbn; [reflexivity| |exact IH]. now rewrite IH. Qed.

Definition wC (c : cctx * list (event cev)) : Prop :=
  aux_config (cx_automation (fst c)) = cf
  /\ exists q, queue_is (cx_automation (fst c)) q /\ macros_waiting cf (snd c) = todo cf q.
Definition wlaw : @law ref (cctx * list (event cev)) cev :=
  mkLaw mcanc mG mE mE' next_instruction (fun c => mB (fst c)) wC.
Lemma wlaw_lawful : lawful W wlaw.
Proof.
  pose proof (watch_lawful conf _ macro_lawful) as H. split.
  - exact (mb_start _ _ H).
  - exact (mb_next _ _ H).
  - exact (mb_pending _ _ H).
  - exact (mb_decided _ _ H).
  - exact (em_press _ _ H).
  - exact (em_pending _ _ H).
  - exact (em_state _ _ H).
  - intros c ev c' kes [HC (q & Hq & Hw)] Hev Hx.
    destruct (em_ctx _ _ H c ev c' kes (conj HC (ex_intro _ q Hq)) Hev Hx) as (_ & A2 & A3).
    split; [|split; [exact A2|exact A3]]. cbn in Hx. inv_bind Hx. destruct a as [c2 kes2]. inv_ok Hx.
    apply cctx_inv in E as (k1 & k2 & k5 & S1 & _). 
    destruct (automation_counts _ _ _ _ _ Hq HC Hev S1) as (B1 & (l' & x & B2 & B3) & _).
    split; [exact B1|]. exists l'. split; [exact B2|]. cbn [snd]. unfold macros_waiting in *. rewrite map_app, plays_app, Hw.
    cbn. now rewrite B3.
  - intros c t i. split; [reflexivity|]. auto.
  - exact (em_input _ _ H).
  - exact (em_keymap _ _ H).
  - exact (em_event _ _ H).
  - exact (em_kept _ _ H).
Qed.

(** Continuations are at most [D] ahead. *)
Definition near (s : scheduler cev) : Prop :=
  Forall (fun en => next_instruction (en_event en) = true -> en_time en <= sc_counter s + D) (sc_scheduled s)
  /\ (length (sc_scheduled s) <= MAX_SCHEDULED_EVENTS)%nat.
Lemma near_kept : sched_kept W wlaw near.
Proof.
  split.
  - intros s se s' [H1 H2] [_ He] H. apply sched_event_in_ok in H as (Ec & [(_ & Es & _)|(t & Et & _ & H)]).
    + unfold near. rewrite Es, Ec. split; assumption.
    + apply sched_after_ok in H as (_ & Hc & Es & Hl & _). unfold near. rewrite Es, Hc. split.
      * apply (Permutation_Forall (Permutation_sym (insert_at_perm _ _ _))). constructor; [|exact H1].
        cbn. intros Hn. destruct (He Hn) as (t' & Et' & Ht'). rewrite Et in Et'. injection Et' as <-. lia.
      * rewrite (Permutation_length (insert_at_perm _ _ _)). cbn. unfold lt in Hl. exact Hl.
  - intros s t H. exact H.
  - intros s i _ [H1 H2]. split; [|cbn; now rewrite map_length]. cbn. apply Forall_map. eapply Forall_impl; [|exact H1].
    cbn. intros en Hx. assert (Hy : en_event (cancel_entry i en) = en_event en /\ en_time (cancel_entry i en) = en_time en).
    { unfold cancel_entry. destruct (en_event en) eqn:Ee; auto. match goal with |- context[if ?b then _ else _] => destruct b end; auto. }
    destruct Hy as [-> ->]. exact Hx.
Qed.
Lemma near_tick s ms s' : near s -> sched_tick s ms = Ok s' -> near s'.
Proof.
  intros [H1 H2] H. apply sched_tick_ok in H as (Hc & [(_ & Es & _)|(en & Es & _ & _)]).
  - unfold near. rewrite Es, Hc. split; [|exact H2]. eapply Forall_impl; [|exact H1]. cbn. intros en He Hn. specialize (He Hn). lia.
  - rewrite Es in *. apply Forall_app in H1 as [H1 _]. rewrite app_length in H2. cbn in H2. split; [|lia].
    rewrite Hc. eapply Forall_impl; [|exact H1]. cbn. intros en' He Hn. specialize (He Hn). lia.
Qed.

Section Run.
Variable (c : cctx).
Hypothesis Hc : cx_automation c = auto_ctx_new cf.
Hypothesis Hpos : position_ok pos.
Lemma reach_state fuel ops k : Forall (fun o => simple_op o = true) ops ->
  run_ops W fuel ops (km_new (c, [])) = Ok k -> state_ok wlaw near k.
Proof.
  intros Ho H. refine (run_state W wlaw wlaw_lawful near near_kept near_tick fuel ops Ho _ _ _ H).
  apply new_state.
  - split; [constructor|cbn; lia].
  - cbn. unfold mB. now rewrite Hc.
  - unfold wlaw, C, wC. cbn [fst snd]. rewrite Hc. split; [reflexivity|]. exists []. split; [|reflexivity]. split; [reflexivity|]. split; [cbn; lia|constructor].
Qed.
Lemma reach_continuations fuel ops k : Forall (fun o => simple_op o = true) ops ->
  run_ops W fuel ops (km_new (c, [])) = Ok k ->
  continuations k = match macros_waiting cf (seen k) with [] => 0 | _ => 1 end%nat.
Proof.
  intros Ho H. destruct (reach_state _ _ _ Ho H) as ((_ & _ & (Hcf & q & Hq & Hw)) & Hd & Hn).
  unfold bal, on_way, drained in *. rewrite Hd in Hn. cbn in Hn. unfold continuations. cbn. 
  rewrite Hn. unfold seen. rewrite Hw. unfold mB. apply head_todo, Hq.
Qed.
Lemma reach_good fuel ops k : Forall (fun o => simple_op o = true) ops ->
  run_ops W fuel ops (km_new (c, [])) = Ok k -> good (macros_waiting cf (seen k)).
Proof.
  intros Ho H. destruct (reach_state _ _ _ Ho H) as ((_ & _ & (Hcf & q & Hq & Hw)) & _).
  unfold seen. rewrite Hw. eapply queue_good; eassumption.
Qed.

Lemma plays_next rs : forall q, good q -> q <> [] -> In RqNext rs -> instructions_of (snd (plays q rs)) <> [].
Proof.
  induction rs as [|r rs IH]; intros q Hg Hq Hi; [destruct Hi|]. cbn.
  destruct (player q r) as [q1 x] eqn:Ep. destruct (plays q1 rs) as [q2 xs] eqn:E2. cbn.
  destruct x as [[[i b] b']|]; [discriminate|]. 
  assert (K : q1 <> [] /\ good q1 /\ r <> RqNext).
  { destruct r as [[|i m]| |]; cbn [player] in Ep.
    - injection Ep as <-. split; [exact Hq|]. split; [exact Hg|discriminate].
    - destruct q as [|m0 q]; [congruence|]. destruct (_ <? 8)%nat; injection Ep as <-.
      + split; [discriminate|]. split; [|discriminate]. change (good ((m0 :: q) ++ [i :: m])). apply Forall_app.
        split; [exact Hg|]. repeat constructor. discriminate.
      + split; [discriminate|]. split; [exact Hg|discriminate].
    - exfalso. destruct (play_one_count _ _ _ Hg Ep) as [K _]. destruct q; [congruence|discriminate].
    - injection Ep as <-. split; [exact Hq|]. split; [exact Hg|discriminate]. }
  destruct K as (K1 & K2 & K3). destruct Hi as [Hi|Hi]; [congruence|].
  specialize (IH q1 K2 K1 Hi). now rewrite E2 in IH.
Qed.

(** One period of waiting executes an instruction, if any is left. *)
Lemma ticks_is ops : ticks_in ops = length (filter is_tick ops).
Proof. unfold ticks_in. induction ops as [|[] ops IH]; cbn in *; auto. Qed.
Lemma segment fuel ops1 a b k1 k2 :
  Forall (fun o => simple_op o = true) (ops1 ++ a ++ b) ->
  run_ops W fuel ops1 (km_new (c, [])) = Ok k1 -> run_ops W fuel (a ++ b) k1 = Ok k2 ->
  ck_now (clocks_run ops1) + D < ck_now (fold_left clocks_step a (clocks_run ops1)) ->
  (32 <= length (filter is_tick b))%nat ->
  macros_waiting cf (seen k1) <> [] ->
  exists l, seen k2 = seen k1 ++ l /\ In RqNext (map (request_of cf) l).
Proof.
  intros Ho H1 H2 Hck Hb Hne. apply Forall_app in Ho as [Ho1 Ho2]. pose proof Ho2 as Hab. apply Forall_app in Ho2 as [Hoa Hob].
  pose proof (reach_continuations _ _ _ Ho1 H1) as Hn. destruct (macros_waiting cf (seen k1)); [congruence|]. clear Hne.
  destruct (reach_state _ _ _ Ho1 H1) as ((U & [Ev1 [N1 N2]] & (HC & q & Hq & _)) & Hd & _).
  unfold continuations in Hn. destruct (filter _ (sc_scheduled (km_sched k1))) as [|en rest] eqn:Ef; [discriminate|].
  assert (Hi : In en (filter (fun en => en_live en && next_instruction (en_event en)) (sc_scheduled (km_sched k1))))
    by (rewrite Ef; now left).
  apply filter_In in Hi as [Hi Hl]. apply andb_true_iff in Hl as [Hl Hni].
  assert (Hev : mE' (en_event en)).
  { destruct Ev1 as [_ Ev1]. rewrite Forall_forall in Ev1. exact (Ev1 _ Hi). }
  rewrite run_ops_app in H2. inv_bind H2. rename a0 into ka. rename E into Ea.
  assert (Hsimple : forall o, simple_op o = true -> timed_op o = true) by (intros []; cbn; auto; discriminate).
  pose proof (run_ops_clock W _ _ (Forall_impl _ Hsimple Ho1) _ _ H1) as Ck1.
  pose proof (run_ops_clock W _ _ (Forall_impl _ Hsimple Hoa) _ _ Ea) as Cka.
  change (clocks_of (km_new (c, []))) with clocks_new in Ck1. change (clocks_of k1 = clocks_run ops1) in Ck1.
  rewrite Ck1 in Cka. rewrite <- Cka, <- Ck1 in Hck. cbn in Hck.
  rewrite Forall_forall in N1. specialize (N1 _ Hi Hni).
  assert (Hs : sorted_sched (km_sched k1)).
  { refine (run_ops_sorted W _ _ _ _ Hpos _ H1). constructor. }
  assert (Hx : extends k1 k2 (In (en_event en))).
  { refine (handled conf macro_law macro_lawful en Hl _ Hpos fuel a b k1 ka k2 Hoa Hob _ Hd Hs Ea _ H2 _).
    - intros i Hci. exact (em_kept _ _ macro_lawful i _ Hci Hev Hni).
    - split; [exact U|]. split; [|split; [exact HC|eauto]]. split; [exact Ev1|]. split; [exact Hi|exact N2].
    - exact (N.le_lt_trans _ _ _ N1 Hck).
    - rewrite ticks_is. exact Hb. }
  destruct Hx as (l & El & Hin). exists l. split; [exact El|]. apply in_map_iff. exists (en_event en). split; [|exact Hin].
  destruct (en_event en) as [ie|j [[e| |]|e|e|e|e|e|e]|kk]; try discriminate. reflexivity.
Qed.
Lemma executed_split (k1 : wkm) l : executed_in cf (seen k1 ++ l)
  = executed_in cf (seen k1) ++ instructions_of (snd (plays (macros_waiting cf (seen k1)) (map (request_of cf) l))).
Proof. unfold executed_in, macros_waiting. rewrite map_app, plays_app. cbn. apply instructions_app. Qed.
Lemma waiting_split (k1 : wkm) l : macros_waiting cf (seen k1 ++ l)
  = fst (plays (macros_waiting cf (seen k1)) (map (request_of cf) l)).
Proof. unfold macros_waiting. rewrite map_app, plays_app. reflexivity. Qed.

Lemma patient_executes fuel n ck ops2 : patient D n ck ops2 -> forall ops1 k1 k2, ck = clocks_run ops1 ->
  Forall (fun o => simple_op o = true) (ops1 ++ ops2) ->
  run_ops W fuel ops1 (km_new (c, [])) = Ok k1 -> run_ops W fuel ops2 k1 = Ok k2 ->
  exists l, seen k2 = seen k1 ++ l
    /\ (Nat.min n (length (concat (macros_waiting cf (seen k1))))
        <= length (instructions_of (snd (plays (macros_waiting cf (seen k1)) (map (request_of cf) l)))))%nat.
Proof.
  induction 1 as [ck ops2|n ck a b rest Hck Hb Hp IH]; intros ops1 k1 k2 -> Ho H1 H2.
  { apply Forall_app in Ho as [_ Ho2]. apply (run_extends conf) in H2 as (l & El & _); [|exact Ho2]. exists l. split; [exact El|lia]. }
  rewrite app_assoc in H2. rewrite run_ops_app in H2. inv_bind H2. rename a0 into ka.
  rewrite (app_assoc a b rest) in Ho. rewrite app_assoc in Ho. pose proof Ho as Ho'. apply Forall_app in Ho as [Ho1 _].
  pose proof (reach_good _ _ _ (proj1 (proj1 (Forall_app _ _ _) Ho1)) H1) as Hg.
  assert (Hka : run_ops W fuel (ops1 ++ a ++ b) (km_new (c, [])) = Ok ka) by (rewrite run_ops_app, H1; exact E).
  assert (Hseg : exists l, seen ka = seen k1 ++ l /\ (macros_waiting cf (seen k1) <> [] -> In RqNext (map (request_of cf) l))).
  { destruct (macros_waiting cf (seen k1)) eqn:Ew.
    - apply (run_extends conf) in E as (l & El & _); [|exact (proj2 (proj1 (Forall_app _ _ _) Ho1))]. exists l. split; [exact El|congruence].
    - destruct (segment fuel ops1 a b k1 ka Ho1 H1 E Hck Hb) as (l & A & B); [congruence|]. exists l. auto. }
  destruct Hseg as (l1 & El1 & Hn1).
  destruct (IH (ops1 ++ a ++ b) ka k2) as (l2 & El2 & Hlen2).
  - unfold clocks_run. now rewrite !fold_left_app.
  - exact Ho'.
  - exact Hka.
  - exact H2.
  - exists (l1 ++ l2). split; [rewrite El2, El1, app_assoc; reflexivity|].
    rewrite El1, waiting_split in Hlen2. rewrite map_app, plays_app. cbn [snd]. rewrite instructions_app, app_length.
    destruct (plays (macros_waiting cf (seen k1)) (map (request_of cf) l1)) as [q' xs] eqn:Ep.
    pose proof (plays_order _ _ _ _ Hg Ep) as [_ Hord]. apply (f_equal (@length _)) in Hord. rewrite !app_length in Hord.
    cbn [fst snd] in *. 
    destruct (macros_waiting cf (seen k1)) as [|m q] eqn:Ew; [cbn [concat length]; rewrite Nat.min_0_r; apply Nat.le_0_l|].
    assert (Hx : instructions_of xs <> []).
    { pose proof (plays_next (map (request_of cf) l1) (m :: q) Hg ltac:(discriminate) (Hn1 ltac:(discriminate))) as Hx. now rewrite Ep in Hx. }
    assert (Hx' : (1 <= length (instructions_of xs))%nat) by (destruct (instructions_of xs); [congruence|cbn; lia]).
    lia.
Qed.
End Run.
End Macros.

(** ** Macros left without a continuation *)
Section Dead.
Variables (refs : list ref) (d : key_data) (pos : position_fn) (debug : bool) (cf : automation_config).
Variable done : list instruction.
Local Notation conf := (cconf refs d pos debug).
Local Notation W := (watch conf).
Local Notation wkm := (keymap ref (cctx * list (event cev)) cev cpks cks).

Definition not_next (ev : event cev) : Prop := next_instruction ev = false.
Definition dC (c : cctx * list (event cev)) : Prop :=
  auto_head_empty (cx_automation (fst c)) = false /\ macros_waiting cf (snd c) <> [] /\ executed_in cf (snd c) = done.
Definition dead_law : @law ref (cctx * list (event cev)) cev :=
  mkLaw (fun _ => True) (fun _ _ => True) (fun se => not_next (se_event se)) not_next (fun _ => false) (fun _ => 0%nat) dC.
Lemma mac_not_next i r kes : mac d i r kes -> Forall (fun se => not_next (se_event se)) kes.
Proof.
  intros H. unfold mac in H. eapply Forall_impl; [|exact H]. intros se Hm. unfold not_next, macro_event in *.
  destruct (se_event se) as [ie|j [a|e|e|e|e|e|e]|kk]; try reflexivity.
  destruct Hm as (_ & _ & [->|(k & e & _ & -> & _)]); reflexivity.
Qed.
Lemma counted_none kes : counted dead_law kes = 0%nat.
Proof. unfold counted. cbn. induction kes; cbn; auto. Qed.
Lemma map_not_next {A} (g : A -> cev) (l : key_events A) : (forall e, as_automation (g e) = None) ->
  Forall (fun se => not_next (se_event se)) (ke_map g l).
Proof.
  intros Hg. apply (mac_not_next 0 RCapsWord). now apply mac_map.
Qed.
Lemma fill_head q e : match fill_slot q e with [] => true | x :: _ => exec_is_empty x end
  = match q with [] => true | x :: _ => if exec_is_empty x then exec_is_empty e else false end.
Proof. destruct q as [|x q]; [reflexivity|]. cbn. destruct (exec_is_empty x) eqn:E; [reflexivity|exact E]. Qed.
Lemma step_dead c ev c' kes : auto_head_empty c = false -> not_next ev -> step_automation c ev = Ok (c', kes) ->
  auto_head_empty c' = false /\ kes = [].
Proof.
  unfold step_automation. intros Hh Hn H. destruct (try_event as_automation ev) as [e|] eqn:Et; [|inv_ok H; auto].
  destruct ev as [ie|j [[x| |]|x|x|x|x|x|x]|kk]; cbn in Et; try discriminate; injection Et as <-; cbn in H; try (inv_ok H; auto).
  - destruct (exec_is_empty x) eqn:Ex; [cbn in H; inv_ok H; auto|]. rewrite Hh in H. cbn in H. inv_ok H. split; [|reflexivity].
    unfold auto_enqueue. rewrite Ex. unfold auto_head_empty in *. cbn. destruct (aux_queue c) as [|y q]; [discriminate|].
    cbn. rewrite Hh. exact Hh.
Qed.
Lemma dead_lawful : lawful W dead_law.
Proof.
  split; cbn; auto.
  - intros i c r x kes _ H. split; [|apply counted_none]. eapply mac_not_next, press_mac; eauto.
  - intros i c r p x ev kes _ _ H. split; [|apply counted_none]. eapply mac_not_next, pending_mac; eauto.
  - intros i c r ks x ev kes _ _ H. split; [|apply counted_none]. eapply mac_not_next, state_mac; eauto.
  - intros [c l] ev c' kes (H1 & H2 & H3) Hev H. rewrite counted_none. inv_bind H. destruct a as [c2 k']. inv_ok H. cbn [fst snd] in *.
    apply cctx_inv in E as (k1 & k2 & k5 & S1 & S2 & _ & _ & S5 & _ & _ & -> & _).
    destruct (step_dead _ _ _ _ H1 Hev S1) as [D1 ->].
    assert (F2 : Forall (fun se => not_next (se_event se)) k2).
    { unfold step_caps_word in S2. destruct (try_event as_caps_word ev) as [e|]; [|injection S2 as _ <-; constructor].
      destruct (cw_handle_event (cx_caps_word c) e). injection S2 as _ <-. now apply map_not_next. }
    assert (F5 : Forall (fun se => not_next (se_event se)) k5).
    { unfold step_sticky in S5. destruct (try_event as_sticky ev) as [e|]; [|injection S5 as _ <-; constructor].
      inv_bind S5. destruct a as [c3 k']. injection S5 as _ <-. now apply map_not_next. }
    split; [|split; [cbn [app]; rewrite Forall_app; auto|auto]].
    assert (Hp : exists q', player (macros_waiting cf l) (request_of cf ev) = (q', None) /\ q' <> []).
    { destruct (macros_waiting cf l) as [|m q]; [congruence|].
      destruct ev as [ie|j [[x| |]|x|x|x|x|x|x]|kk]; cbn [request_of player]; try (eexists; split; [reflexivity|discriminate]).
      - destruct (macro_of cf x) as [|i m']; [eexists; split; [reflexivity|discriminate]|].
        destruct (_ <? 8)%nat; (eexists; split; [reflexivity|discriminate]).
      - discriminate Hev. }
    destruct Hp as (q' & Hp & Hq'). unfold dC, macros_waiting, executed_in in *. cbn [fst snd].
    rewrite map_app, plays_app. cbn [map plays fst snd]. rewrite Hp. cbn. rewrite instructions_app. cbn. rewrite app_nil_r. auto.
  - intros x. split; reflexivity.
  - intros x. split; reflexivity.
  - intros; discriminate.
Qed.
Lemma dead_forever fuel ops k k' : Forall (fun o => simple_op o = true) ops ->
  Forall (fun en => not_next (en_event en)) (sc_scheduled (km_sched k)) -> drained k -> queued_ok k ->
  dC (km_ctx k) -> run_ops W fuel ops k = Ok k' -> dC (km_ctx k').
Proof.
  intros Ho Hs Hd Hq Hc H.
  assert (HS : sched_kept W dead_law (fun _ => True)) by (split; auto).
  assert (Hk : state_ok dead_law (fun _ => True) k).
  { split; [|split; [exact Hd|]].
    - split; [split; [|cbn; auto]|].
      + intros p Hp. cbn. split; [exact I|]. split; [exact I|exact (Hq _ Hp)].
      + split; [|exact Hc]. split; [|exact I]. split; [|exact Hs]. unfold drained in Hd. rewrite Hd. constructor.
    - unfold bal, on_way. unfold drained in Hd. rewrite Hd. cbn. clear. induction (sc_scheduled _) as [|en l IH]; [reflexivity|].
      cbn. rewrite andb_false_r. exact IH. }
  apply (run_state W dead_law dead_lawful _ HS (fun _ _ _ _ _ => I) _ _ Ho _ _ Hk) in H.
  exact (proj2 (proj2 (proj1 H))).
Qed.
End Dead.
