(** Running the Bluetooth firmware of C58 in examples: the tables of events and timers,
    which are functions, can be replaced by equal ones on the way. *)
From Verif Require Import BaseFacts Output Types Scheduler Keymap CApi CReport CBle.
Local Open Scope N_scope.

Section Tidy.
Context {R Ctx Ev PKS KS : Type}.
Variable conf : kconf R Ctx Ev PKS KS.
Variable fuel : nat.
Local Notation ble := (@ble R Ctx Ev PKS KS).

Definition alike (s t : ble) : Prop :=
  bl_matrix s = bl_matrix t /\ bl_keymap s = bl_keymap t /\ bl_hid s = bl_hid t /\ bl_prev s = bl_prev t /\ bl_time s = bl_time t
  /\ bl_pending s = bl_pending t /\ bl_irq s = bl_irq t /\ (forall e, bl_set s e = bl_set t e) /\ (forall e, bl_timer s e = bl_timer t e)
  /\ bl_now s = bl_now t /\ bl_calls s = bl_calls t /\ bl_made s = bl_made t /\ bl_sent s = bl_sent t /\ bl_scans s = bl_scans t.
Definition alike_res (a b : res ble) : Prop := match a, b with Ok s, Ok t => alike s t | Panic, Panic => True | NoFuel, NoFuel => True | _, _ => False end.

Ltac al := unfold alike in *; cbn [bl_matrix bl_keymap bl_hid bl_prev bl_time bl_pending bl_irq bl_set bl_timer bl_now bl_calls bl_made bl_sent bl_scans] in *;
  repeat match goal with H : _ /\ _ |- _ => destruct H end; repeat split; intros; try congruence.
Lemma set_evt_alike {A} e (v : A) f g : (forall x, f x = g x) -> forall x, set_evt e v f x = set_evt e v g x.
Proof. intros H x. unfold set_evt. now rewrite H. Qed.
Lemma start_alike e t s s' : alike s s' -> alike (bl_start e t s) (bl_start e t s').
Proof. intros H. unfold bl_start. al. now apply set_evt_alike. Qed.
Lemma clear_alike e s s' : alike s s' -> alike (bl_clear e s) (bl_clear e s').
Proof. intros H. unfold bl_clear. al. now apply set_evt_alike. Qed.
Lemma irq_alike b s s' : alike s s' -> alike (bl_set_irq b s) (bl_set_irq b s').
Proof. intros H. unfold bl_set_irq. al. Qed.
Lemma pending_alike b s s' : alike s s' -> alike (bl_set_pending b s) (bl_set_pending b s').
Proof. intros H. unfold bl_set_pending. al. Qed.
Lemma called_alike c k r s s' : alike s s' -> alike (bl_set_time (bl_report r (bl_called c k s))) (bl_set_time (bl_report r (bl_called c k s'))).
Proof. intros H. unfold bl_set_time, bl_report, bl_called. al. Qed.
Lemma requests_alike s s' : alike s s' -> alike (bl_requests s) (bl_requests s').
Proof.
  intros H. unfold bl_requests. assert (X : forall l s s', alike s s' -> alike (fold_left bl_request l s) (fold_left bl_request l s')); [|now apply X].
  clear. induction l as [|c l IH]; intros s s' H; [exact H|]. cbn [fold_left]. apply IH. unfold bl_request.
  replace (bl_wants c s') with (bl_wants c s); [destruct (bl_wants c s); [now apply start_alike|exact H]|]. unfold bl_wants. destruct H as (_ & _ & -> & -> & _). reflexivity.
Qed.
Definition alike_after (a b : res (ble * u32)) : Prop :=
  match a, b with Ok (s, t), Ok (s', t') => alike s s' /\ t = t' | Panic, Panic => True | NoFuel, NoFuel => True | _, _ => False end.
Lemma one_alike c s s' t : alike s s' -> alike_after (bl_after conf fuel (s, t) c) (bl_after conf fuel (s', t) c).
Proof.
  intros H. unfold bl_after. cbn [fst snd].
  assert (E : bl_now s = bl_now s' /\ bl_time s = bl_time s' /\ bl_keymap s = bl_keymap s') by al. destruct E as (E1 & E2 & E3). rewrite E1, E2, E3.
  destruct (keymap_register_input_after_ms conf fuel _ _ _) as [[[k r] t']| |]; cbn [bind alike_after]; auto. split; [|reflexivity]. now apply called_alike.
Qed.
Lemma after_alike l : forall s s' t, alike s s' -> alike_after (fold_res (bl_after conf fuel) l (s, t)) (fold_res (bl_after conf fuel) l (s', t)).
Proof.
  induction l as [|c l IH]; intros s s' t H; cbn [fold_res]; [split; [exact H|reflexivity]|]. pose proof (one_alike c s s' t H) as X.
  destruct (bl_after conf fuel (s, t) c) as [[s1 t1]| |], (bl_after conf fuel (s', t) c) as [[s1' t1']| |]; cbn [bind alike_after] in *; try contradiction; auto.
  destruct X as (X & <-). now apply IH.
Qed.
Lemma event_alike l : forall s s', alike s s' -> alike_res (fold_res (bl_event conf fuel) l s) (fold_res (bl_event conf fuel) l s').
Proof.
  induction l as [|c l IH]; intros s s' H; cbn [fold_res]; [exact H|].
  assert (X : alike_res (bl_event conf fuel s c) (bl_event conf fuel s' c)).
  { unfold bl_event. assert (E : bl_keymap s = bl_keymap s') by al. rewrite E. destruct (keymap_register_input_event conf fuel _ _) as [k| |]; cbn [bind alike_res]; auto. unfold bl_called. al. }
  destruct (bl_event conf fuel s c), (bl_event conf fuel s' c); cbn [bind alike_res] in *; try contradiction; auto.
Qed.
Lemma scan_alike raw s s' : alike s s' -> alike (fst (bl_scan raw s)) (fst (bl_scan raw s')) /\ snd (bl_scan raw s) = snd (bl_scan raw s').
Proof. intros H. unfold bl_scan. assert (E : bl_matrix s = bl_matrix s') by al. rewrite E. destruct (ble_matrix_scan raw (bl_matrix s')) as [m ch]. cbn [fst snd]. split; [al|reflexivity]. Qed.

Lemma do_alike s s' a : alike s s' -> alike_res (bl_do conf fuel s a) (bl_do conf fuel s' a).
Proof.
  intros H. destruct a as [| |raw ok]; cbn [bl_do alike_res].
  - unfold bl_unit. al; match goal with H : forall e, bl_timer s e = _ |- _ => rewrite H end; match goal with |- context [bl_timer s' ?e] => destruct (bl_timer s' e) end; congruence.
  - unfold bl_gpio. assert (E : bl_irq s = bl_irq s') by al. rewrite E. destruct (bl_irq s'); [|exact H]. al. now apply set_evt_alike.
  - unfold bl_task. assert (E : bl_next s = bl_next s').
    { unfold bl_next. assert (Hs : forall e, bl_set s e = bl_set s' e) by al. cbn [find]. now rewrite !Hs. }
    rewrite E. destruct (bl_next s') as [e|]; [|exact H]. apply (clear_alike e) in H. revert H. generalize (bl_clear e s), (bl_clear e s'). clear s s' E. intros s s' H.
    destruct e as [| | |c|]; cbn [alike_res].
    + unfold bl_on_wake. now apply start_alike, irq_alike.
    + unfold bl_on_scan. destruct (scan_alike raw s s' H) as (Hs & Ec). destruct (bl_scan raw s) as [s1 ch], (bl_scan raw s') as [s1' ch']. cbn [fst snd] in Hs, Ec. subst ch'.
      pose proof (after_alike ch _ _ 0 Hs) as X. change (@pair (@CBle.ble R Ctx Ev PKS KS) u32) with (@pair (@CBle.ble R Ctx Ev PKS KS) N) in X.
      destruct (fold_res (bl_after conf fuel) ch (s1, 0)) as [[s2 t]| |], (fold_res (bl_after conf fuel) ch (s1', 0)) as [[s2' t']| |]; cbn [bind alike_res alike_after] in *; try contradiction; auto.
      destruct X as (X & <-). apply requests_alike, start_alike. assert (Ep : bl_pending s2 = bl_pending s2') by al. rewrite Ep. destruct (negb _ && _); [apply pending_alike, start_alike|]; exact X.
    + unfold bl_on_timeout. assert (Ek : bl_keymap s = bl_keymap s') by al. rewrite Ek. destruct (keymap_next_event_timeout conf fuel _) as [[[k r] t]| |]; cbn [bind alike_res]; auto.
      apply requests_alike. destruct (0 <? t); [apply start_alike|apply pending_alike]; now apply called_alike.
    + unfold bl_on_report. assert (Eh : bl_hid s = bl_hid s' /\ bl_prev s = bl_prev s') by al. destruct Eh as (-> & ->). al.
    + unfold bl_on_tick. destruct (scan_alike raw s s' H) as (Hs & Ec). destruct (bl_scan raw s) as [s1 ch], (bl_scan raw s') as [s1' ch']. cbn [fst snd] in Hs, Ec. subst ch'.
      pose proof (event_alike ch _ _ Hs) as X. destruct (fold_res (bl_event conf fuel) ch s1) as [s2| |], (fold_res (bl_event conf fuel) ch s1') as [s2'| |]; cbn [bind alike_res] in *; try contradiction; auto.
      assert (Ek : bl_keymap s2 = bl_keymap s2') by al. rewrite Ek. destruct (keymap_tick conf fuel _) as [[k r]| |]; cbn [bind alike_res]; auto.
      apply requests_alike. apply (called_alike BcTick k r) in X. revert X. generalize (bl_set_time (bl_report r (bl_called BcTick k s2))), (bl_set_time (bl_report r (bl_called BcTick k s2'))).
      intros s3 s3' X. assert (E3 : bl_keymap s3 = bl_keymap s3' /\ bl_matrix s3 = bl_matrix s3') by al. destruct E3 as (-> & ->). destruct (_ || _); [now apply start_alike|now apply irq_alike].
Qed.

Lemma run_alike l : forall s s', alike s s' -> alike_res (bl_run conf fuel l s) (bl_run conf fuel l s').
Proof.
  induction l as [|a l IH]; intros s s' H; [exact H|]. unfold bl_run in *. cbn [fold_res]. pose proof (do_alike s s' a H) as X.
  destruct (bl_do conf fuel s a), (bl_do conf fuel s' a); cbn [bind alike_res] in *; try contradiction; auto.
Qed.

(** The same state with its tables written out: those entries that are not the usual ones. *)
Definition every : list ble_evt := [EvWake; EvScan; EvTimeout; EvReport ChKb; EvReport ChMouse; EvReport ChCon; EvTick].
Definition tidy (s : ble) : ble :=
  let sets := filter (bl_set s) every in
  let timers := filter_map (fun e => option_map (fun t => (e, t)) (bl_timer s e)) every in
  match length sets, fold_left (fun a p => a + snd p) timers 0 with
  | _, _ =>
    mkBle (bl_matrix s) (bl_keymap s) (bl_hid s) (bl_prev s) (bl_time s) (bl_pending s) (bl_irq s)
      (fun e => existsb (evt_eqb e) sets) (fun e => option_map snd (find (fun p => evt_eqb e (fst p)) timers))
      (bl_now s) (bl_calls s) (bl_made s) (bl_sent s) (bl_scans s)
  end.
Lemma sets_tidy (f : ble_evt -> bool) e : existsb (evt_eqb e) (filter f every) = f e.
Proof.
  assert (X : forall l, existsb (evt_eqb e) (filter f l) = existsb (fun x => evt_eqb e x && f x) l).
  { induction l as [|x l IH]; [reflexivity|]. cbn [filter existsb]. destruct (f x); cbn [existsb]; rewrite IH; [now rewrite andb_true_r|now rewrite andb_false_r]. }
  rewrite X. destruct e as [| | |[| |]|]; cbn; now rewrite ?orb_false_r.
Qed.
Lemma timers_tidy (f : ble_evt -> option N) e : option_map snd (find (fun p => evt_eqb e (fst p)) (filter_map (fun e => option_map (fun t => (e, t)) (f e)) every)) = f e.
Proof.
  assert (X : forall l, option_map snd (find (fun p => evt_eqb e (fst p)) (filter_map (fun e => option_map (fun t => (e, t)) (f e)) l)) =
    fold_right (fun x r => match f x with Some t => if evt_eqb e x then Some t else r | None => r end) None l).
  { induction l as [|x l IH]; [reflexivity|]. cbn [filter_map fold_right]. destruct (f x); cbn [option_map find fst]; [|exact IH]. destruct (evt_eqb e x); [reflexivity|exact IH]. }
  rewrite X. unfold every. cbn [fold_right]. clear X. destruct e as [| | |[| |]|]; cbn [evt_eqb chan_eqb];
    repeat match goal with |- context [match f ?x with Some _ => ?r | None => ?r end] => replace (match f x with Some _ => r | None => r end) with r by now destruct (f x) end;
    now match goal with |- _ = f ?x => destruct (f x) end.
Qed.
Lemma tidy_alike s : alike s (tidy s).
Proof. unfold tidy. al; symmetry; [apply sets_tidy|apply timers_tidy]. Qed.
Lemma alike_trans s t u : alike s t -> alike t u -> alike s u.
Proof. intros A B. unfold alike in *. repeat match goal with H : _ /\ _ |- _ => destruct H end. repeat split; intros; etransitivity; eauto. Qed.
Definition tidy_run (segments : list (list bl_step)) (s : ble) : res ble := fold_res (fun s l => let! t := bl_run conf fuel l s in Ok (tidy t)) segments s.
Lemma tidy_run_alike segments : forall s s', alike s s' -> alike_res (bl_run conf fuel (concat segments) s) (tidy_run segments s').
Proof.
  induction segments as [|l segments IH]; intros s s' H; [exact H|]. pose proof (run_alike l s s' H) as X. unfold tidy_run. cbn [concat fold_res]. fold (tidy_run segments).
  unfold bl_run at 1. rewrite fold_res_app. fold (bl_run conf fuel l s).
  destruct (bl_run conf fuel l s) as [t| |], (bl_run conf fuel l s') as [t'| |]; cbn [bind alike_res] in X; try contradiction; cbn [bind]; try exact Logic.I.
  apply (IH t (tidy t')). eapply alike_trans; [exact X|apply tidy_alike].
Qed.
End Tidy.
