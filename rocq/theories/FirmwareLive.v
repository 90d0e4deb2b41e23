(** The firmware loops never crash where the keymap does not (C48). *)
From Verif Require Import Base BaseFacts Output OutputFacts Types Scheduler Reporter DistinctReports
  ReporterFacts SpecReporter Keymap KeymapInv KeymapApi CtxFacts Observed Firmware SpecWrap WrapFacts FirmwareFacts.
Local Open Scope N_scope.

Section Live.
Context {R Ctx Ev PKS KS : Type}.
Variable conf : kconf R Ctx Ev PKS KS.
Local Notation km := (keymap R Ctx Ev PKS KS).

Definition reached fuel (k : km) : Prop := exists ops ctx, run_ops conf fuel ops (km_new ctx) = Ok k.

Lemma reached_more fuel ops (k k' : km) outs : reached fuel k -> run_reporting conf fuel ops k = Ok (k', outs) -> reached fuel k'.
Proof.
  intros (o & c & H) Hr. exists (o ++ ops), c. rewrite run_ops_app, H. cbn. rewrite run_reporting_run, Hr. reflexivity.
Qed.
Lemma outputs_of_length l kos : outputs_of conf l = Ok kos -> (length kos <= length l)%nat.
Proof.
  revert kos. induction l as [|pi l IH]; cbn; intros kos H.
  - inversion H. cbn. lia.
  - destruct pi as [i r ks|ko].
    + inv_bind H. inv_bind H. inv_ok H. specialize (IH _ E0). destruct a; cbn; lia.
    + inv_bind H. inv_ok H. specialize (IH _ E). cbn. lia.
Qed.
Lemma report_length fuel (k k' : km) out : reached fuel k -> km_report_output conf k = Ok (k', out) ->
  (length out <= MAX_PRESSED_KEYS)%nat.
Proof.
  intros (o & c & H) Hr. destruct (report_prefix conf fuel o c k k' out H Hr) as (rest & kos & Hk & -> & _).
  apply outputs_of_length in Hk. rewrite app_length in Hk. apply reach_bounded in H as [H _]. lia.
Qed.

Lemma maybe_tick_live {Rep} fuel bl (s : firmware R Ctx Ev PKS KS Rep) k' outs :
  fw_ok s = negb bl -> reached fuel (be_km (fw_be s)) -> (length (be_output (fw_be s)) <= MAX_PRESSED_KEYS)%nat ->
  run_reporting conf fuel (if bl then [] else [OpTick; OpReport]) (be_km (fw_be s)) = Ok (k', outs) ->
  exists b, fw_maybe_tick conf fuel s = Ok b /\ be_km b = k' /\ reached fuel k' /\ (length (be_output b) <= MAX_PRESSED_KEYS)%nat.
Proof.
  intros Hok Hre Hlen Hr. pose proof (reached_more _ _ _ _ _ Hre Hr) as Hre'. unfold fw_maybe_tick. rewrite Hok.
  destruct bl; cbn [negb].
  - inversion Hr; subst. eauto.
  - unfold run_reporting in Hr. cbn [fold_res report_step fst snd run_op] in Hr. unfold be_tick.
    destruct (km_tick conf fuel (be_km (fw_be s))) as [k1| |] eqn:E1; cbn [bind fst snd] in *; try discriminate.
    destruct (km_report_output conf k1) as [[k2 kos]| |] eqn:E2; cbn [bind fst snd] in *; try discriminate.
    inversion Hr; subst. eexists. split; [reflexivity|]. split; [reflexivity|]. split; [exact Hre'|]. cbn.
    apply (report_length fuel k1 k' kos); [|exact E2].
    eapply (reached_more fuel [OpTick] (be_km (fw_be s)) k1 []); [exact Hre|]. unfold run_reporting. cbn. now rewrite E1.
Qed.

Lemma run_cons_split fuel a b (k k' : km) outs : run_reporting conf fuel (a ++ b) k = Ok (k', outs) ->
  exists k1 o1 o2, run_reporting conf fuel a k = Ok (k1, o1) /\ run_reporting conf fuel b k1 = Ok (k', o2) /\ outs = o1 ++ o2.
Proof.
  rewrite run_reporting_app. destruct (run_reporting conf fuel a k) as [[k1 o1]| |]; cbn; try discriminate.
  destruct (run_reporting conf fuel b k1) as [[k2 o2]| |] eqn:E; cbn; try discriminate. intros H. inversion H; subst.
  eauto 7.
Qed.

Lemma event_live {Rep} fuel ev (s : firmware R Ctx Ev PKS KS Rep) k' outs :
  run_reporting conf fuel [OpInput ev] (be_km (fw_be s)) = Ok (k', outs) ->
  exists s', fw_event conf fuel ev s = Ok s' /\ be_km (fw_be s') = k' /\ be_output (fw_be s') = be_output (fw_be s) /\ fw_ok s' = fw_ok s.
Proof.
  unfold run_reporting, fw_event, be_event. cbn [fold_res report_step fst snd run_op].
  destruct (km_handle_input conf fuel ev (be_km (fw_be s))); cbn; try discriminate. intros H. inversion H; subst. eauto.
Qed.

Lemma embassy_live fuel ms bl (s : firmware R Ctx Ev PKS KS report) k' outs :
  fw_ok s = negb bl -> reached fuel (be_km (fw_be s)) -> (length (be_output (fw_be s)) <= MAX_PRESSED_KEYS)%nat ->
  run_reporting conf fuel (fw_ops bl ms) (be_km (fw_be s)) = Ok (k', outs) ->
  exists s', embassy_run conf fuel ms s = Ok s'.
Proof.
  unfold embassy_run. revert bl s k' outs. induction ms as [|m ms IH]; intros bl s k' outs Hok Hre Hlen H; cbn [fold_res].
  - eauto.
  - destruct m as [ev|w]; cbn [fw_ops embassy_step] in *.
    + change (OpInput ev :: fw_ops bl ms) with ([OpInput ev] ++ fw_ops bl ms) in H.
      apply run_cons_split in H as (k1 & o1 & o2 & H1 & H2 & ->). pose proof (reached_more _ _ _ _ _ Hre H1) as Hre1.
      destruct (event_live _ _ _ _ _ H1) as (s1 & E & Ek & Eo & Ef). rewrite E. cbn [bind].
      apply (IH bl s1 k' o2); [congruence|now rewrite Ek|now rewrite Eo|now rewrite Ek].
    + apply run_cons_split in H as (k1 & o1 & o2 & H1 & H2 & ->).
      destruct (maybe_tick_live fuel bl s k1 o1 Hok Hre Hlen H1) as (b & Eb & Ek & Hre1 & Hlen1).
      unfold embassy_tick. rewrite Eb. cbn [bind].
      rewrite (pressed_consumer_codes_complete (be_output b) Hlen1).
      match goal with |- exists s', bind ?x _ = _ =>
        assert (Hx : exists s1, x = Ok s1 /\ fw_be s1 = b /\ fw_ok s1 = negb (blk w)) end.
      { cbv zeta. unfold blk. destruct (wr_kbd w); cbn [bind negb];
          repeat match goal with |- context[if ?c then _ else _] => destruct c end; eauto. }
      destruct Hx as (s1 & -> & Es & Ef). cbn [bind]. fold (blk w) in H2.
      apply (IH (blk w) s1 k' o2); [exact Ef|now rewrite Es, Ek|now rewrite Es|now rewrite Es, Ek].
Qed.
Lemma rtic_live fuel ms bl (s : firmware R Ctx Ev PKS KS (list u8)) k' outs :
  fw_ok s = negb bl -> reached fuel (be_km (fw_be s)) -> (length (be_output (fw_be s)) <= MAX_PRESSED_KEYS)%nat ->
  run_reporting conf fuel (fw_ops bl ms) (be_km (fw_be s)) = Ok (k', outs) ->
  exists s', rtic_run conf fuel ms s = Ok s'.
Proof.
  unfold rtic_run. revert bl s k' outs. induction ms as [|m ms IH]; intros bl s k' outs Hok Hre Hlen H; cbn [fold_res].
  - eauto.
  - destruct m as [ev|w]; cbn [fw_ops rtic_step] in *.
    + change (OpInput ev :: fw_ops bl ms) with ([OpInput ev] ++ fw_ops bl ms) in H.
      apply run_cons_split in H as (k1 & o1 & o2 & H1 & H2 & ->). pose proof (reached_more _ _ _ _ _ Hre H1) as Hre1.
      destruct (event_live _ _ _ _ _ H1) as (s1 & E & Ek & Eo & Ef). rewrite E. cbn [bind].
      apply (IH bl s1 k' o2); [congruence|now rewrite Ek|now rewrite Eo|now rewrite Ek].
    + apply run_cons_split in H as (k1 & o1 & o2 & H1 & H2 & ->).
      destruct (maybe_tick_live fuel bl s k1 o1 Hok Hre Hlen H1) as (b & Eb & Ek & Hre1 & Hlen1).
      unfold rtic_tick. rewrite Eb. cbn [bind].
      rewrite (pressed_key_codes_complete (be_output b) Hlen1), (pressed_consumer_codes_complete (be_output b) Hlen1).
      match goal with |- exists s', bind ?x _ = _ =>
        assert (Hx : exists s1, x = Ok s1 /\ fw_be s1 = b /\ fw_ok s1 = negb (blk w)) end.
      { cbv zeta. unfold blk. destruct (wr_kbd w); cbn [bind negb];
          repeat match goal with |- context[if ?c then _ else _] => destruct c end; eauto. }
      destruct Hx as (s1 & -> & Es & Ef). cbn [bind]. fold (blk w) in H2.
      apply (IH (blk w) s1 k' o2); [exact Ef|now rewrite Es, Ek|now rewrite Es|now rewrite Es, Ek].
Qed.
End Live.
