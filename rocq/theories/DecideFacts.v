(** The alarms of the composite keymap: each undecided key has one. *)
From Verif Require Import BaseFacts Output Types Scheduler Reporter Keymap SpecScheduler
  SimpleKeys Layered Automation TapHold TapDance Chorded Composite CompositeFacts CtxFacts SpecKeymap SpecDecide KeymapDecide.
Local Open Scope N_scope.

Section Decide.
Variable d : key_data.
Variable cf : config.

Definition c_alarm (p : cpks) (e : cev) : Prop :=
  match p, e with
  | PksTapHold _, CeTapHold TapHoldTimeout => True
  | PksChorded _, CeChorded ChTimeout => True
  | PksTapDance q, CeTapDance (NextPressTimeout n) => n = tdp_count q
  | _, _ => False
  end.
Definition c_fit (r : ref) (p : cpks) : Prop :=
  match r, p with
  | RTapDance i, PksTapDance q => tdp_count q = 0
      \/ exists k, nth_error (kd_tap_dance d) (N.to_nat i) = Some k /\ (N.to_nat (tdp_count q) + 1 < td_count k)%nat
  | RTapHold _, PksTapHold _ | RChorded _, PksChorded _ => True
  | _, _ => False
  end.
Definition c_config (c : cctx) : Prop :=
  thx_config (cx_tap_hold c) = cf_tap_hold cf /\ chx_config (cx_chorded c) = cf_chorded cf
  /\ tdx_config (cx_tap_dance c) = cf_tap_dance cf.
Definition c_alarms : @alarms ref cctx cev cpks :=
  mkAlarms c_alarm (timeout_of cf) (fun p => timeouts_started p - 1) c_fit c_config.

Lemma ch_config_kept c ev c' : ch_handle_event c ev = Ok c' -> chx_config c' = chx_config c.
Proof.
  unfold ch_handle_event. destruct ev as [[i|i|ko|ko]|i [[id|]|]|kk]; intros H; try (inv_ok H; reflexivity).
  - inv_bind H. inv_bind H. inv_bind H. inv_ok H. reflexivity.
  - inv_bind H. inv_ok H. reflexivity.
Qed.
Lemma c_config_kept c ev c' kes : c_config c -> cctx_handle_event c ev = Ok (c', kes) -> c_config c'.
Proof.
  intros (H1 & H2 & H3) H. apply cctx_inv in H as (k1 & k2 & k5 & _ & _ & S3 & _ & _ & S6 & S7 & _).
  unfold c_config. rewrite S6, S7. split; [exact H1|]. split; [|exact H3]. rewrite <- H2.
  unfold step_chorded in S3. destruct (try_event as_chorded ev); [now apply ch_config_kept in S3|].
  now injection S3 as <-.
Qed.

Lemma c_press i c r p kes : c_config c -> c_new_pressed_key d i c r = Ok (PkPending p, kes) ->
  timeouts_started p - 1 = 0 /\ raised c_alarms i p kes /\ c_fit r p.
Proof.
  intros (H1 & H2 & H3) H. unfold raised. cbn [c_alarms alarm lim].
  destruct r as [n|n| |r|r|r|r|r|r|n|n|n]; cbn in H; try discriminate.
  - inv_bind H. destruct a as [q ke]. injection H as Hp Hk. unfold auto_new_pressed_key in E. inv_bind E. inv_ok E. discriminate.
  - unfold callback_new_pressed_key in H. inv_bind H. discriminate.
  - inv_bind H. destruct a as [q ke]. injection H as Hp Hk. apply map_pkr_pending in Hp as Hq. destruct Hq as (q' & ->).
    cbn in Hp. injection Hp as <-. split; [reflexivity|]. split; [|exact I].
    assert (Hke : ke = [after (chc_timeout (cf_chorded cf)) (EvKey i ChTimeout)]).
    { rewrite <- H2. destruct r as [n|n]; cbn in E; inv_bind E.
      - unfold chk_new_pressed_key in E. inv_bind E. destruct (ch_initial_resolution (cx_chorded c) a0) as [y|y].
        + inv_bind E. discriminate.
        + injection E as _ <-. reflexivity.
      - unfold cha_new_pressed_key in E. inv_bind E. destruct (ch_initial_resolution (cx_chorded c) a0) as [y|y].
        + discriminate.
        + injection E as _ <-. reflexivity. }
    subst ke. rewrite <- Hk. exists (CeChorded ChTimeout), (chc_timeout (cf_chorded cf)). split; [now left|].
    split; [exact I|]. cbn. reflexivity.
  - inv_bind H. destruct a as [q ke]. injection H as Hp Hk. destruct r as [n|n]; cbn in E; inv_bind E.
    + destruct (lm_new_pressed_key a). inv_ok E. discriminate.
    + inv_bind E. inv_ok E. discriminate.
  - injection H as <- <-. split; [reflexivity|]. split; [|now left].
    exists (CeTapDance (NextPressTimeout 0)), (tdc_timeout (tdx_config (cx_tap_dance c))). split; [now left|].
    split; [reflexivity|]. cbn. rewrite H3. reflexivity.
  - inv_bind H. destruct a as [q ke]. injection H as Hp Hk. apply map_pkr_pending in Hp as Hq. destruct Hq as (q' & ->).
    cbn in Hp. injection Hp as <-. split; [reflexivity|]. split; [|exact I].
    assert (Hke : ke = [after (thc_timeout (cf_tap_hold cf)) (EvKey i TapHoldTimeout)]).
    { rewrite <- H1. unfold th_new_pressed_key in E. destruct (thc_required_idle _) as [x|].
      - destruct (_ <=? _); [injection E as _ <-; reflexivity|]. inv_bind E. discriminate.
      - injection E as _ <-. reflexivity. }
    subst ke. rewrite <- Hk. exists (CeTapHold TapHoldTimeout), (thc_timeout (cf_tap_hold cf)). split; [now left|].
    split; [exact I|]. cbn. reflexivity.
Qed.

Lemma c_wait p i c r ev p' kes e : c_config c -> c_fit r p -> c_update_pending d p i c r ev = Ok (p', None, kes) ->
  c_alarm p e -> ev <> EvKey i e /\ timeout_of cf p' = timeout_of cf p /\ c_fit r p'
    /\ ((c_alarm p' e /\ timeouts_started p' - 1 = timeouts_started p - 1)
        \/ (timeouts_started p' - 1 = timeouts_started p - 1 + 1 /\ raised c_alarms i p' kes)).
Proof.
  intros (H1 & H2 & H3) Hf0 H Ha.
  destruct r as [n|n| |r|r|r|r|r|r|n|n|n]; destruct p as [q|q|q]; cbn in H; try discriminate.
  - destruct e as [?|?|e|?|?|?|?]; try contradiction. destruct e; [contradiction|].
    destruct (try_event as_chorded ev) as [ev'|] eqn:Ee.
    + inv_bind H. destruct a as [[q2 n2] k2]. injection H as <- -> <-. cbn.
      assert (Hn : ev' <> EvKey i ChTimeout).
      { intros ->. destruct r as [n|n]; cbn in E; inv_bind E; unfold chk_update_pending, cha_update_pending in E; cbn in E.
        - inv_bind E. discriminate.
        - discriminate. }
      split; [|auto]. intros ->. injection Ee as <-. now apply Hn.
    + injection H as <- <-. split; [|auto]. intros ->. discriminate.
  - destruct e as [?|?|?|?|?|e|?]; try contradiction. destruct e as [m]. cbn in Ha. subst m.
    destruct (try_event as_tap_dance ev) as [ev'|] eqn:Ee.
    + inv_bind H. destruct a as [[q2 n2] k2]. injection H as <- -> <-.
      unfold td_update_pending in E. inv_bind E. inv_bind E. destruct a0 as [[q3 n3] k3].
      apply index_ok in E0. destruct n3 as [idx|]; [inv_bind E; discriminate|].
      destruct (td_count a) as [|m] eqn:Em; [discriminate|].
      destruct (Nat.leb_spec m (N.to_nat (tdp_count q3))); [inv_bind E; discriminate|]. injection E as <- <-.
      assert (Hfit : c_fit (RTapDance n) (PksTapDance q3)) by (right; exists a; rewrite Em; split; [exact E0|lia]).
      destruct ev' as [[j|j|ko|ko]|j [m']|kk]; cbn in E1;
        try (injection E1 as <- <-; split; [intros ->; discriminate|]; split; [reflexivity|]; split; [exact Hfit|left; split; reflexivity]).
      * destruct (N.eqb_spec j i) as [->|Hj].
        -- destruct (tdp_count q <? 255); [|discriminate]. injection E1 as <- <-.
           split; [intros ->; discriminate|]. split; [reflexivity|]. split; [exact Hfit|]. right.
           split; [cbn [timeouts_started tdp_count]; unfold u8 in *; lia|]. exists (CeTapDance (NextPressTimeout (tdp_count q + 1))), (tdc_timeout (tdx_config (cx_tap_dance c))).
           split; [now left|]. split; [reflexivity|]. cbn. rewrite H3. reflexivity.
        -- injection E1 as <- <-. split; [intros ->; discriminate|]. split; [reflexivity|]. split; [exact Hfit|left; split; reflexivity].
      * destruct ((j =? i) && (m' =? tdp_count q)) eqn:Ej; [discriminate|]. injection E1 as <- <-.
        split; [|split; [reflexivity|split; [exact Hfit|left; split; reflexivity]]].
        intros ->. injection Ee as <- <-. rewrite !N.eqb_refl in Ej. discriminate.
    + injection H as <- <-. split; [intros ->; discriminate|]. split; [reflexivity|]. split; [exact Hf0|left; split; reflexivity].
  - destruct e as [?|?|?|?|?|?|e]; try contradiction. destruct e.
    destruct (try_event as_tap_hold ev) as [ev'|] eqn:Ee.
    + inv_bind H. destruct a as [[q2 n2] k2]. injection H as <- -> <-. cbn.
      assert (Hn : ev' <> EvKey i TapHoldTimeout).
      { intros ->. unfold th_update_pending in E. cbn in E. destruct (thc_interrupt _); cbn in E; inv_bind E; discriminate. }
      split; [|auto]. intros ->. injection Ee as <-. now apply Hn.
    + injection H as <- <-. split; [|auto]. intros ->. discriminate.
Qed.
Lemma c_alarming refs pos debug : alarming (cconf refs d pos debug) c_alarms.
Proof.
  split; cbn [cconf kc_sys composite sys_ctx_handle_event sys_ctx_set_keymap_context sys_new_pressed_key sys_update_pending_state].
  - exact c_config_kept.
  - intros c t idle (H1 & H2 & H3). exact (conj H1 (conj H2 H3)).
  - exact c_press.
  - exact c_wait.
Qed.
End Decide.
