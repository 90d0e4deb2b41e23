(** Proofs about keymaps that are left alone (C82). *)
From Verif Require Import BaseFacts Output Types Scheduler Reporter Keymap SpecOutput SpecReporter ReporterFacts SpecKeymap KeymapInv KeymapQueue KeymapApi SpecPlain PlainFacts
  CApi CFirmware SpecCFirmware CFirmwareFacts CReport CCalls SpecCCalls CCallsFacts CKeyboard SpecCKeyboard CKeyboardFacts SpecWrap WrapFacts PropertiesReporter Composite SpecLayer SpecTapBoard.
Local Open Scope N_scope.

Section Alone.
Context {R Ctx Ev PKS KS : Type}.
Variable conf : kconf R Ctx Ev PKS KS.
Variable fuel : nat.
Local Notation km := (keymap R Ctx Ev PKS KS).
Implicit Types k : km.

Lemma polls_ticks n : filter (fun o => negb (is_report o)) (polls n) = repeat OpTick n.
Proof. unfold polls. induction n as [|n IH]; cbn in *; [reflexivity|]. now rewrite IH. Qed.
(** Ticks with reports between them do to the keymap what the ticks do. *)
Lemma polls_as_ticks n k k' : run_ops conf fuel (polls n) k = Ok k' ->
  exists k1, run_ops conf fuel (repeat OpTick n) k = Ok k1 /\ km_pressed k1 = km_pressed k' /\ km_has_scheduled_events k1 = km_has_scheduled_events k' /\ km_calls k1 = km_calls k' /\ km_ctx k1 = km_ctx k'.
Proof.
  intros H. destruct (run_ops_without_reports conf fuel _ k k k' eq_refl H) as (k1 & E & Hs). rewrite polls_ticks in E. exists k1. split; [exact E|].
  unfold same_but_reporter in Hs. destruct k', k1. injection Hs; intros; subst. repeat split.
Qed.

(** What a keymap with nothing to do does in a tick. *)
Lemma idle_tick k k' : km_has_scheduled_events k = false -> km_tick conf fuel k = Ok k' ->
  km_pressed k' = km_pressed k /\ km_has_scheduled_events k' = false /\ km_calls k' = km_calls k.
Proof.
  intros Hi H. unfold km_has_scheduled_events in Hi. apply orb_false_elim in Hi as [Hi Hq]. apply orb_false_elim in Hi as [Hp Hs].
  assert (Ep : sc_pending (km_sched k) = []) by (destruct (sc_pending (km_sched k)); [reflexivity|discriminate]).
  assert (Es : sc_scheduled (km_sched k) = []) by (destruct (sc_scheduled (km_sched k)); [reflexivity|discriminate]).
  assert (Eq : km_inq k = []) by (destruct (km_inq k); [reflexivity|discriminate]).
  unfold km_tick in H. cbn [km_inq set_ctx] in H. rewrite Eq in H. cbn [bind] in H. inv_bind H. inv_bind H. inv_bind H. injection H as <-.
  unfold sched_tick in E. inv_bind E. cbn [km_sched set_ctx set_delay] in E.
  assert (X : forall z : km, (if 0 <? km_delay z then set_delay z (km_delay z - 1) else z) = set_delay z (if 0 <? km_delay z then km_delay z - 1 else km_delay z)).
  { intros z. destruct (0 <? km_delay z); [reflexivity|]. destruct z; reflexivity. }
  rewrite X in E, E0. cbn [km_sched set_ctx set_delay] in E. rewrite Es in E. cbn [last_opt] in E. injection E as <-.
  destruct fuel as [|f]; [discriminate|]. cbn [exec step] in E0. unfold step_handle_pending, sched_dequeue in E0. cbn [km_sched set_sched sc_pending] in E0. rewrite Ep in E0.
  injection E0 as <-. unfold km_has_scheduled_events. cbn. rewrite Eq. auto.
Qed.
Lemma idle_ticks n : forall k k', km_has_scheduled_events k = false -> run_ops conf fuel (repeat OpTick n) k = Ok k' ->
  km_pressed k' = km_pressed k /\ km_has_scheduled_events k' = false /\ km_calls k' = km_calls k.
Proof.
  induction n as [|n IH]; intros k k' Hi H; unfold run_ops in *; cbn [repeat fold_res run_op] in H; [injection H as <-; auto|].
  inv_bind H. destruct (idle_tick _ _ Hi E) as (A & B & C). destruct (IH _ _ B H) as (A' & B' & C'). rewrite A', C'. auto.
Qed.

(** Output that stays is reported after 15 more ticks. *)
Lemma steady_report ctx quiet kos k n k' : reached conf fuel ctx k ->
  (forall n k', (quiet <= n)%nat -> run_ops conf fuel (repeat OpTick n) k = Ok k' -> km_pressed_keys conf k' = Ok kos) ->
  (quiet + 15 <= n)%nat -> run_ops conf fuel (polls n) k = Ok k' ->
  rep_reportable (km_rep k') = kos /\ km_pressed_keys conf k' = Ok kos.
Proof.
  intros Hk Hq Hn E.
  assert (Hp : forall i ki, (quiet <= i)%nat -> run_ops conf fuel (polls i) k = Ok ki -> km_pressed_keys conf ki = Ok kos).
  { intros i ki Hi Ei. destruct (polls_as_ticks _ _ _ Ei) as (k1 & E1 & P1 & _). unfold km_pressed_keys. rewrite <- P1. exact (Hq i k1 Hi E1). }
  split; [|eapply Hp; [|exact E]; lia].
  replace n with (quiet + (n - quiet))%nat in E by lia. rewrite polls_add in E. unfold run_ops in E. rewrite fold_res_app in E. inv_bind E. rename a into kq.
  fold (run_ops conf fuel (polls quiet) k) in E0.
  destruct (reached_ops conf _ _ _ _ _ Hk E0) as (ops & Eo). destruct (reach_rep _ _ _ _ _ Eo) as (rops & Hrep).
  assert (X : km_rep k' = rep_run (rops ++ report_times (n - quiet) kos)).
  { eapply polls_rep; [exact Hrep| |exact E]. intros i k1 Hi E1. apply (Hp (quiet + i)%nat); [lia|]. rewrite polls_add. unfold run_ops in *. rewrite fold_res_app, E0. exact E1. }
  rewrite X. apply C07_all_reported; [lia|]. pose proof (Hp quiet kq (le_n _) E0) as Y. apply outputs_length in Y. pose proof (reach_bounded _ _ _ _ _ Eo) as (Z & _). unfold MAX_PRESSED_KEYS in Z. lia.
Qed.
End Alone.

(** *** Keyboards report presses and releases in turn *)
Fixpoint turns (l : down) (h : list input_event) : Prop :=
  match h with
  | [] => True
  | e :: t => match e with Press i => existsb (is_key i) l = false | _ => True end /\ turns (down_step l e) t
  end.
Lemma turns_app h1 : forall l h2, turns l (h1 ++ h2) <-> turns l h1 /\ turns (fold_left down_step h1 l) h2.
Proof. induction h1 as [|e h1 IH]; intros l h2; cbn; [tauto|]. rewrite IH. tauto. Qed.
Lemma turns_in_turn h : turns [] h -> in_turn h.
Proof. intros H before i later ->. apply turns_app in H as [_ H]. exact (proj1 H). Qed.
Lemma turns_changes keys before now l : levels keys before l -> turns l (map meant (changes keys before now)).
Proof.
  intros H. unfold changes.
  assert (X : forall n m l', (n + m)%nat = keys -> levels keys (fun j => if (j <? n)%nat then now j else before j) l' ->
    turns l' (map meant (flat_map (fun i => if eqb (now i) (before i) then [] else [mkCEvent (if now i then CPress else CRelease) (N.of_nat i)]) (seq n m)))).
  { intros n m. revert n. induction m as [|m IH]; intros n l' Hnm Hl; cbn [seq flat_map map]; [exact Logic.I|].
    rewrite map_app. apply turns_app. destruct (eqb (now n) (before n)) eqn:E; cbn [map fold_left].
    - split; [exact Logic.I|]. apply IH; [lia|]. eapply levels_ext; [|exact Hl]. intros i Hi. cbn beta. apply eqb_prop in E. destruct (Nat.ltb_spec i n), (Nat.ltb_spec i (S n)); try reflexivity; try lia.
      replace i with n by lia. now symmetry.
    - assert (Hne : before n <> now n) by (intros Y; rewrite <- Y, eqb_reflx in E; discriminate).
      split.
      + cbn [turns]. split; [|exact Logic.I]. destruct (now n) eqn:En; cbn [meant]; [|exact Logic.I].
        destruct (existsb (is_key (N.of_nat n)) l') eqn:Ex; [|reflexivity]. apply is_key_In in Ex. destruct Hl as (Hl & _). apply Hl in Ex as [_ Ex]. rewrite Nat.ltb_irrefl in Ex. congruence.
      + apply IH; [lia|]. eapply levels_ext; [|apply (levels_step keys _ l' n (now n) ltac:(lia) Hl)].
        * intros i Hi. cbn beta. destruct (Nat.eqb_spec i n) as [->|Hn]; [destruct (Nat.ltb_spec n (S n)); [reflexivity|lia]|].
          destruct (Nat.ltb_spec i n), (Nat.ltb_spec i (S n)); try reflexivity; lia.
        * rewrite Nat.ltb_irrefl. exact Hne. }
  apply (X O keys l eq_refl). exact H.
Qed.
Lemma turns_scans keys (ca : nat -> nat -> bool) n : forall l m, levels keys (fun i => ca i m) l ->
  turns l (flat_map (fun k => map meant (changes keys (fun i => ca i k) (fun i => ca i (S k)))) (seq m n)).
Proof.
  induction n as [|n IH]; intros l m H; cbn [seq flat_map]; [exact Logic.I|].
  apply turns_app. split; [now apply turns_changes|]. apply IH. now apply levels_changes.
Qed.
Lemma typed_in_turn rows cols keys idx scans h : typed rows cols keys idx scans h -> in_turn h.
Proof.
  intros (ca & A & B & ->). apply turns_in_turn, turns_scans. eapply levels_ext; [|apply levels_new]. intros i Hi. symmetry.
  destruct (wired_dec rows cols idx i) as [[[r c] (Hr & Hc & Hx)]|Hn].
  - cbn in *. eapply settled_unique; [apply (A r c i O Hr Hc Hx); lia|]. exact (settled_false 0).
  - apply B; auto; lia.
Qed.
