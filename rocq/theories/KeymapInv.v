(** Invariants of the keymap for an arbitrary key system. *)
From Verif Require Import BaseFacts Output Types Scheduler Reporter Keymap SpecScheduler SchedulerFacts
  SpecReporter ReporterFacts KeymapFacts.
Local Open Scope N_scope.

Section Inv.
Context {R Ctx Ev PKS KS : Type}.
Variable conf : kconf R Ctx Ev PKS KS.
Local Notation km := (keymap R Ctx Ev PKS KS).
Local Notation sys := (kc_sys conf).
Local Notation pos := (kc_pos conf).
Local Notation job := (job R Ev KS).
Implicit Types (k : km) (p : pending_state R Ev PKS).

(** ** Scheduler operations used by the keymap *)
Lemma sched_all_counter (s : scheduler Ev) kes s' : sched_all pos s kes = Ok s' -> sc_counter s' = sc_counter s.
Proof.
  intros H. apply (sched_all_inv conf (fun x => sc_counter x = sc_counter s)) in H; auto.
  intros s0 se s0' H0 _ H1. apply sched_event_in_ok in H1 as (H1 & _). congruence.
Qed.
Lemma update_pressed_list_counter ctx ev pis s pis' s' :
  update_pressed_list conf ctx ev pis s = Ok (pis', s') -> sc_counter s' = sc_counter s.
Proof.
  intros H. apply (update_pressed_list_inv conf (fun x => sc_counter x = sc_counter s)) in H; auto.
  intros s0 se s0' H0 H1. apply sched_event_in_ok in H1 as (H1 & _). congruence.
Qed.

(** ** Frame: what the recursion never changes *)
Definition frame k k' : Prop :=
  sc_counter (km_sched k') = sc_counter (km_sched k)
  /\ km_ms_per_tick k' = km_ms_per_tick k /\ km_idle k' = km_idle k /\ km_rep k' = km_rep k
  /\ km_delay k' = km_delay k /\ km_callbacks k' = km_callbacks k
  /\ exists new, km_calls k' = km_calls k ++ new
       /\ forall f, In f new -> exists cb, lm_get (km_callbacks k) cb = Some f.

Lemma frame_refl k : frame k k.
Proof. repeat split. exists []. rewrite app_nil_r. split; [reflexivity|intros f []]. Qed.
Lemma frame_trans k1 k2 k3 : frame k1 k2 -> frame k2 k3 -> frame k1 k3.
Proof.
  intros (A1 & A2 & A3 & A4 & A5 & A6 & n1 & A7 & A8) (B1 & B2 & B3 & B4 & B5 & B6 & n2 & B7 & B8).
  repeat split; try congruence. exists (n1 ++ n2). rewrite app_assoc, <- A7. split; [exact B7|].
  intros f Hf. apply in_app_or in Hf as [Hf|Hf]; [auto|]. rewrite A6 in B8. auto.
Qed.
Lemma frame_intro k k' :
  sc_counter (km_sched k') = sc_counter (km_sched k) ->
  km_ms_per_tick k' = km_ms_per_tick k -> km_idle k' = km_idle k -> km_rep k' = km_rep k ->
  km_delay k' = km_delay k -> km_callbacks k' = km_callbacks k -> km_calls k' = km_calls k -> frame k k'.
Proof.
  intros. repeat split; auto. exists []. rewrite app_nil_r. split; [assumption|intros f []].
Qed.
Lemma frame_callback k ev : frame k (run_callback k ev).
Proof.
  destruct (run_callback_eq k ev) as (new & -> & Hn). repeat split. exists new. split; [reflexivity|].
  intros f Hf. destruct (Hn f Hf) as (cb & _ & H). eauto.
Qed.

Hint Resolve frame_refl : core.

Lemma exec_frame fuel j k k' : exec conf fuel j k = Ok k' -> frame k k'.
Proof.
  apply (exec_contract conf (fun _ _ => True) (fun _ k k' => frame k k')); [|exact I].
  clear. intros j k k' _ H.
  assert (Hemit : forall i r ks a b,
    emit_rel conf (fun (j : job) a b => True -> frame a b) i r ks a b -> frame a b).
  { intros i r ks a b (o & _ & Ho). destruct o; [exact (Ho I)|subst; apply frame_refl]. }
  destruct H; inv_prim;
    repeat match goal with
    | H : True -> frame _ _ |- _ => specialize (H I)
    | H : emit_rel _ _ _ _ _ _ _ |- _ => apply Hemit in H
    | H : sched_all _ _ _ = Ok _ |- _ => apply sched_all_counter in H
    | H : update_pressed_list _ _ _ _ _ = Ok _ |- _ => apply update_pressed_list_counter in H
    | H : requeue _ _ _ _ _ = Ok _ |- _ => apply requeue_ok in H; destruct H as (? & _ & _ & ?)
    end; cbn in *.
  1,2: apply frame_intro; auto.
  1: { eapply frame_trans; [|eassumption]. eapply frame_trans; [|eassumption]. apply frame_intro; auto. }
  1: { destruct ev as [ie|i ke|kk]; try subst k'.
       1: eapply frame_trans; [|exact (H2 I)].
       all: eapply frame_trans; [apply (frame_callback k)|]; eapply frame_trans; [exact H|];
            apply frame_intro; cbn; congruence. }
  all: repeat match goal with
       | H : frame ?a ?x |- frame ?b ?x =>
           refine (frame_trans b a x _ H); clear H
       end; try apply frame_refl; apply frame_intro; cbn; congruence.
Qed.

(** ** C12: the immediate queue *)
Definition no_hole k : Prop := Forall (fun o => o <> None) (sc_pending (km_sched k)).
Definition p12 (j : job) k : Prop :=
  no_hole k \/ (j = JHandlePending /\ sc_pending (km_sched k) = [None]).
Definition q12 (j : job) (k k' : km) : Prop :=
  no_hole k' /\ match j with
                | JHandlePending | JProcessInput _ => sc_pending (km_sched k') = []
                | _ => True
                end.

Definition full (s : scheduler Ev) := Forall (fun o => o <> None) (sc_pending s).
Lemma sched_event_in_full (s : scheduler Ev) se s' : full s -> sched_event_in pos s se = Ok s' -> full s'.
Proof.
  intros Hf H. apply sched_event_in_ok in H as (_ & [(_ & _ & H & _)|(d & _ & H & _)]); unfold full; rewrite H.
  - apply Forall_app. split; [exact Hf|]. constructor; [discriminate|constructor].
  - exact Hf.
Qed.
Lemma sched_all_full (s : scheduler Ev) kes s' : sched_all pos s kes = Ok s' -> full s -> full s'.
Proof. intros H Hs. eapply sched_all_inv; [|exact Hs|exact H]. intros; eapply sched_event_in_full; eauto. Qed.
Lemma update_pressed_list_full ctx ev pis s pis' s' :
  update_pressed_list conf ctx ev pis s = Ok (pis', s') -> full s -> full s'.
Proof.
  intros H Hs. eapply update_pressed_list_inv; [|exact Hs|exact H]. intros; eapply sched_event_in_full; eauto.
Qed.

Lemma exec_drained fuel j k k' : p12 j k -> exec conf fuel j k = Ok k' -> q12 j k k'.
Proof.
  apply (exec_contract conf p12 q12). clear.
  intros j k k' HP H.
  assert (Hemit : forall i r ks a b, no_hole a ->
    emit_rel conf (fun (j : job) a b => p12 j a -> q12 j a b) i r ks a b -> no_hole b).
  { intros i r ks a b Ha (o & _ & Ho). destruct o; [|subst; exact Ha]. apply Ho. now left. }
  assert (Hn : j <> JHandlePending -> no_hole k).
  { intros Hj. destruct HP as [HP|[HP _]]; [exact HP|contradiction]. }
  unfold q12. destruct H; inv_prim;
    try (specialize (Hn ltac:(discriminate)));
    repeat match goal with
    | H : sched_all _ _ _ = Ok _ |- _ => let H' := fresh "Hs" in pose proof (sched_all_full _ _ _ H) as H'; clear H
    | H : update_pressed_list _ _ _ _ _ = Ok _ |- _ => let H' := fresh "Hs" in pose proof (update_pressed_list_full _ _ _ _ _ _ H) as H'; clear H
    | H : requeue _ _ _ _ _ = Ok _ |- _ => apply requeue_ok in H; destruct H as (? & _ & ? & _)
    end; unfold p12, q12, no_hole, full in *; cbn in *.
  - rewrite H. split; [constructor|reflexivity].
  - destruct HP as [HP|[_ HP]]; rewrite H in HP.
    + inversion HP; congruence.
    + injection HP as ->. split; [constructor|reflexivity].
  - destruct HP as [HP|[_ HP]]; [|congruence]. unfold no_hole in HP. rewrite H in HP. inversion HP; subst.
    destruct (H0 (or_introl H5)) as (H6 & _). destruct (H1 (or_introl H6)) as (H7 & H8). auto.
  - destruct (run_callback_eq k ev) as (new & Er & _). rewrite Er in H.
    destruct (H (or_introl Hn)) as (H3 & _).
    assert (H4 : no_hole (set_sched (set_ctx (set_sched (set_pressed k1 pis) s) ctx) s0))
      by (unfold no_hole; cbn; auto).
    destruct ev as [ie|i ke|kk].
    + destruct (H2 (or_introl H4)) as (H5 & _). auto.
    + subst. auto.
    + subst. auto.
  - destruct (H1 (or_introl Hn)) as (H3 & _). destruct (H2 (or_introl H3)) as (H4 & H5). auto.
  - apply H3. left. unfold no_hole. cbn. auto.
  - destruct H4 as (H6 & _); [left; unfold no_hole; cbn; auto|].
    destruct (H5 (or_introl H6)) as (H7 & H8). auto.
  - apply H2. left. unfold no_hole. cbn. auto.
  - apply H3. left. unfold no_hole. cbn. auto.
  - apply H2. left. unfold no_hole. cbn. auto.
  - split; [|exact I]. eapply Hemit; [|exact H2]. unfold no_hole. cbn. auto.
  - split; [|exact I]. apply H1. left. unfold no_hole. cbn. auto.
  - auto.
  - auto.
  - auto.
  - auto.
  - split; [|exact I]. apply H2. left. unfold no_hole. cbn. auto.
  - auto.
  - split; [|exact I]. apply H0. now left.
  - split; [|exact I]. apply H2. left. unfold no_hole. cbn. auto.
  - split; [|exact I]. apply H2. left. unfold no_hole. cbn. auto.
  - split; [|exact I]. apply H2. left. unfold no_hole. cbn. auto.
  - auto.
  - auto.
  - split; [|exact I]. destruct H3 as (H7 & _).
    + left. unfold no_hole. cbn. rewrite H5. cbn. exact Hn.
    + eapply Hemit; [exact H7|exact H4].
Qed.

(** Histories of API calls. *)
Definition drained k : Prop := sc_pending (km_sched k) = [].

Lemma handle_input_cases fuel ev k k' :
  km_handle_input conf fuel ev k = Ok k' ->
  (length (km_inq k) < INPUT_QUEUE_CAPACITY)%nat /\ km_delay k = 0
     /\ (exists ie q k2, km_inq k ++ [ev] = ie :: q
         /\ exec conf fuel (JProcessInput ie) (set_inq (set_idle k 0) q) = Ok k2
         /\ k' = set_delay k2 INPUT_QUEUE_TICK_DELAY)
  \/ (length (km_inq k) < INPUT_QUEUE_CAPACITY)%nat /\ km_delay k <> 0
     /\ k' = set_inq (set_idle k 0) (km_inq k ++ [ev])
  \/ (INPUT_QUEUE_CAPACITY <= length (km_inq k))%nat /\ k' = set_idle k 0.
Proof.
  unfold km_handle_input. cbv zeta. cbn [set_idle km_inq set_inq km_delay].
  destruct (Nat.ltb_spec (length (km_inq k)) INPUT_QUEUE_CAPACITY).
  - destruct (N.eqb_spec (km_delay k) 0).
    + destruct (km_inq k ++ [ev]) as [|ie q] eqn:Eq; [discriminate|]. intros H0. inv_bind H0. inv_ok H0.
      left. split; [exact H|]. split; [exact e|]. exists ie, q, a. auto.
    + intros H0. inv_ok H0. right. left. auto.
  - intros H0. inv_ok H0. right. right. auto.
Qed.

Lemma tick_cases fuel k k' :
  km_tick conf fuel k = Ok k' ->
  exists k1 k2 s k3,
    let k0 := set_ctx k (sys_ctx_set_keymap_context sys (km_ctx k)
                         (sc_counter (km_sched k)) (km_idle k)) in
    ((exists ie q k1', km_inq k = ie :: q /\ km_delay k = 0
        /\ exec conf fuel (JProcessInput ie) (set_inq k0 q) = Ok k1' /\ k1 = set_delay k1' INPUT_QUEUE_TICK_DELAY)
     \/ (k1 = k0 /\ (km_inq k = [] \/ km_delay k <> 0)))
    /\ k2 = (if 0 <? km_delay k1 then set_delay k1 (km_delay k1 - 1) else k1)
    /\ sched_tick (km_sched k2) (km_ms_per_tick k2) = Ok s
    /\ exec conf fuel JHandlePending (set_sched k2 s) = Ok k3
    /\ km_idle k3 + km_ms_per_tick k3 <= u32_max
    /\ k' = set_idle k3 (km_idle k3 + km_ms_per_tick k3).
Proof.
  unfold km_tick. cbv zeta. intros H. inv_bind H. inv_bind H. inv_bind H. inv_bind H. inv_ok H.
  apply u32_add_ok in E2 as [-> Hle].
  eexists a, _, a0, a1. split; [|split; [reflexivity|]; split; [exact E0|]; split; [exact E1|]; auto].
  cbn [set_ctx km_inq km_delay] in E. destruct (km_inq k) as [|ie q] eqn:Eq.
  - inv_ok E. right. auto.
  - destruct (N.eqb_spec (km_delay k) 0).
    + inv_bind E. inv_ok E. left. eauto 8.
    + inv_ok E. right. auto.
Qed.

Lemma tick_by_inv (I : km -> Prop) fuel d k k' :
  (forall k k', I k -> km_tick conf fuel k = Ok k' -> I k') ->
  I k -> km_tick_by conf fuel d k = Ok k' -> I k'.
Proof.
  intros HI Hk. unfold km_tick_by. destruct (d =? 0); [intros H; eauto|].
  destruct (km_ms_per_tick k =? 0); [discriminate|]. generalize (N.to_nat (d / km_ms_per_tick k)). intros n.
  revert k Hk. induction n as [|n IH]; intros k Hk H; cbn in H; [now inv_ok H|].
  inv_bind H. eapply IH; [|exact H]. eauto.
Qed.

(** An invariant kept by each primitive API call is kept by every history. *)
Lemma run_ops_inv (I : km -> Prop) fuel :
  (forall k ev k', I k -> km_handle_input conf fuel ev k = Ok k' -> I k') ->
  (forall k k', I k -> km_tick conf fuel k = Ok k' -> I k') ->
  (forall k r, I k -> I (set_rep k r)) ->
  (forall k, I k -> I (km_init k)) ->
  (forall k ms, I k -> I (set_ms_per_tick k ms)) ->
  (forall k c, I k -> I (set_callbacks k c)) ->
  forall ops k k', I k -> run_ops conf fuel ops k = Ok k' -> I k'.
Proof.
  intros Hin Htick Hrep Hinit Hms Hcb ops k k' Hk. unfold run_ops. apply fold_res_inv; [|exact Hk].
  clear k k' Hk. intros k o k' Hk _ H. destruct o as [ev| |d ev| | | |ms|c f]; cbn [run_op] in H.
  - eauto.
  - eauto.
  - inv_bind H. destruct a as [k2 t]. inv_ok H. unfold km_handle_input_after_time in E.
    inv_bind E. inv_bind E. inv_bind E.
    assert (k' = a0) as ->.
    { destruct a1 as [t'|]; [|now inversion E]. destruct ((t' =? 0) && kc_debug conf); inversion E; reflexivity. }
    eapply Hin; [|exact E1]. eapply tick_by_inv; eauto.
  - inv_bind H. destruct a as [k2 t]. inv_ok H. unfold km_tick_to_next in E. inv_bind E.
    destruct a as [d|].
    + inv_bind E. inv_bind E. inv_ok E. eapply tick_by_inv; eauto.
    + inv_ok E. exact Hk.
  - inv_bind H. destruct a as [k2 t]. inv_ok H. unfold km_report_output in E. inv_bind E. inv_ok E. auto.
  - inv_ok H. auto.
  - inv_ok H. apply Hms. exact Hk.
  - unfold km_set_callback in H. inv_bind H. inv_ok H. auto.
Qed.

Lemma handle_input_drained fuel ev k k' :
  drained k -> km_handle_input conf fuel ev k = Ok k' -> drained k'.
Proof.
  unfold drained. intros Hd H. apply handle_input_cases in H as [(_ & _ & ie & q & k2 & _ & H & ->)|[(_ & _ & ->)|(_ & ->)]].
  - apply exec_drained in H as (_ & H); [exact H|]. left. unfold no_hole. cbn. rewrite Hd. constructor.
  - exact Hd.
  - exact Hd.
Qed.

Lemma tick_drained fuel k k' : drained k -> km_tick conf fuel k = Ok k' -> drained k'.
Proof.
  unfold drained. intros Hd H. apply tick_cases in H as (k1 & k2 & s & k3 & H1 & -> & Hs & H3 & _ & ->).
  assert (Hd1 : drained k1).
  { destruct H1 as [(ie & q & k1' & _ & _ & H1 & ->)|(-> & _)]; [|exact Hd].
    apply exec_drained in H1 as (_ & H1); [exact H1|]. left. unfold no_hole. cbn. rewrite Hd. constructor. }
  apply exec_drained in H3 as (_ & H3); [exact H3|].
  assert (Hd2 : sc_pending (km_sched (if 0 <? km_delay k1 then set_delay k1 (km_delay k1 - 1) else k1)) = [])
    by (destruct (0 <? km_delay k1); exact Hd1).
  apply sched_tick_ok in Hs as (_ & [(Hp & _)|(en & _ & _ & Hp)]); rewrite Hd2 in Hp.
  - left. unfold no_hole. cbn. rewrite Hp. constructor.
  - destruct (en_live en).
    + left. unfold no_hole. cbn. rewrite Hp. constructor; [discriminate|constructor].
    + right. split; [reflexivity|]. cbn. rewrite Hp. reflexivity.
Qed.

Lemma run_ops_drained fuel ops k k' : drained k -> run_ops conf fuel ops k = Ok k' -> drained k'.
Proof.
  apply run_ops_inv; try (intros; assumption).
  - intros; eapply handle_input_drained; eauto.
  - intros; eapply tick_drained; eauto.
  - intros k0 H. unfold drained in *. cbn. unfold sched_init. cbn. rewrite H. reflexivity.
Qed.

(** ** C15: no key pressed twice *)
Fixpoint pressed_indices (pis : list (pressed_input R KS)) : list u16 :=
  match pis with
  | [] => []
  | PiKey i _ _ :: t => i :: pressed_indices t
  | PiVirtual _ :: t => pressed_indices t
  end.

Lemma pressed_indices_map pis pis' :
  map (@pi_index R KS) pis' = map (@pi_index R KS) pis -> pressed_indices pis' = pressed_indices pis.
Proof.
  revert pis'. induction pis as [|[i r ks|ko] pis IH]; intros [|[i' r' ks'|ko'] pis'] H; cbn in H; try discriminate.
  - reflexivity.
  - injection H as -> H. cbn. f_equal. auto.
  - injection H as H. cbn. auto.
Qed.
Lemma pressed_indices_app a b : pressed_indices (a ++ b) = pressed_indices a ++ pressed_indices b.
Proof. induction a as [|[i r ks|ko] a IH]; cbn; rewrite ?IH; reflexivity. Qed.
Lemma has_pressed_In k i : has_pressed k i = true <-> In i (pressed_indices (km_pressed k)).
Proof.
  unfold has_pressed. induction (km_pressed k) as [|[j r ks|ko] l IH]; cbn.
  - split; [discriminate|tauto].
  - rewrite orb_true_iff, IH, N.eqb_eq. split; intros [H|H]; auto.
  - exact IH.
Qed.
Lemma remove_first_indices f pis :
  (forall ko, f (PiVirtual ko) = false) ->
  forall i, In i (pressed_indices (remove_first f pis)) -> In i (pressed_indices pis).
Proof.
  intros Hf i. induction pis as [|[j r ks|ko] pis IH]; cbn; [auto| |].
  - destruct (f _); cbn; tauto.
  - rewrite Hf. cbn. exact IH.
Qed.
Lemma remove_first_indices_any f pis :
  forall i, In i (pressed_indices (remove_first f pis)) -> In i (pressed_indices pis).
Proof.
  intros i. induction pis as [|[j r ks|ko] pis IH]; cbn; [auto| |]; destruct (f _); cbn; tauto.
Qed.
Lemma remove_first_NoDup f pis : NoDup (pressed_indices pis) -> NoDup (pressed_indices (remove_first f pis)).
Proof.
  induction pis as [|[j r ks|ko] pis IH]; cbn; intros H; [constructor| |].
  - inversion H; subst. destruct (f _); [assumption|]. cbn. constructor; [|auto].
    intros Hi. apply H2. eapply remove_first_indices_any; eauto.
  - destruct (f _); [assumption|]. cbn. auto.
Qed.

Definition inv15 k : Prop :=
  NoDup (pressed_indices (km_pressed k))
  /\ (forall p, km_pending k = Some p -> ~ In (pd_index p) (pressed_indices (km_pressed k))).
Definition p15 (j : job) k : Prop :=
  inv15 k /\ match j with
             | JPressLoop i _ => ~ In i (pressed_indices (km_pressed k)) /\ km_pending k = None
             | _ => True
             end.

Lemma NoDup_snoc {A} (l : list A) x : NoDup l -> ~ In x l -> NoDup (l ++ [x]).
Proof.
  intros H Hx. induction l as [|y l IH]; cbn in *.
  - constructor; [intros []|constructor].
  - inversion H; subst. constructor; [|apply IH; tauto].
    intros Hy. apply in_app_or in Hy as [Hy|[Hy|[]]]; [tauto|]. subst. tauto.
Qed.

Lemma inv15_push k k' i r ks :
  inv15 k -> ~ In i (pressed_indices (km_pressed k)) -> km_pressed k' = km_pressed k ++ [PiKey i r ks] ->
  km_pending k' = None -> inv15 k'.
Proof.
  intros [H1 H2] Hi Hp Hn. unfold inv15. rewrite Hp, Hn, pressed_indices_app. cbn. split.
  - now apply NoDup_snoc.
  - discriminate.
Qed.

Lemma exec_inv15 fuel j k k' : p15 j k -> exec conf fuel j k = Ok k' -> inv15 k'.
Proof.
  apply (exec_contract conf p15 (fun _ _ k' => inv15 k')). clear.
  intros j k k' [HI HP] H.
  assert (Hemit : forall i r ks a b, inv15 a ->
    emit_rel conf (fun (j : job) a b => p15 j a -> inv15 b) i r ks a b -> inv15 b).
  { intros i r ks a b Ha (o & _ & Ho). destruct o; [|subst; exact Ha]. apply Ho. split; [exact Ha|exact I]. }
  assert (Hsame : forall a b, inv15 a -> pressed_indices (km_pressed b) = pressed_indices (km_pressed a) ->
             km_pending b = km_pending a -> inv15 b).
  { intros a b [A1 A2] Hp Hq. unfold inv15. rewrite Hp, Hq. auto. }
  assert (Hpend : forall a b p q, inv15 a -> pressed_indices (km_pressed b) = pressed_indices (km_pressed a) ->
             km_pending a = Some p -> km_pending b = Some q -> pd_index q = pd_index p -> inv15 b).
  { intros a b p q [A1 A2] Hp Ha Hb Hi. unfold inv15. rewrite Hp, Hb. split; [exact A1|].
    intros q0 Hq0. injection Hq0 as <-. rewrite Hi. auto. }
  destruct H; inv_prim;
    repeat match goal with
    | H : update_pressed_list _ _ _ _ _ = Ok _ |- _ =>
        apply update_pressed_list_ok, pressed_indices_map in H
    end; cbn in *.
  - exact HI.
  - apply (Hsame k); auto.
  - apply H1. split; [|exact I]. apply H0. split; [|exact I]. apply (Hsame k); auto.
  - assert (HI' : inv15 k1).
    { apply H. split; [|exact I]. destruct (run_callback_eq k ev) as (new & -> & _). apply (Hsame k); auto. }
    assert (HI2 : inv15 (set_sched (set_ctx (set_sched (set_pressed k1 pis) s) ctx) s0))
      by (apply (Hsame k1); auto).
    destruct ev; [apply H2; split; [exact HI2|exact I]|subst; exact HI2|subst; exact HI2].
  - apply H2. split; [|exact I]. apply H1. split; [|exact I]. eapply (Hpend k); [exact HI|reflexivity|exact H|reflexivity|reflexivity].
  - apply H3. split; [|exact I]. apply (Hsame k); auto.
  - apply H5. split; [|exact I]. apply H4. split; [apply (Hsame k); auto|]. split; [|exact H].
    intros Hin. apply has_pressed_In in Hin. unfold has_pressed in Hin. cbn in Hin. congruence.
  - apply H2. split; [|exact I]. destruct HI as [A1 A2].
    split; cbn; [|rewrite H; discriminate]. apply remove_first_NoDup. congruence.
  - apply H3. split; [|exact I]. apply (Hsame k); auto. cbn. rewrite pressed_indices_app. cbn. now rewrite app_nil_r.
  - apply H2. split; [|exact I]. destruct HI as [A1 A2].
    split; cbn; [|rewrite H; discriminate]. apply remove_first_NoDup. congruence.
  - destruct HP as [HP1 HP2]. eapply Hemit; [|exact H2]. eapply (inv15_push k); eauto; reflexivity.
  - apply H1. split; [apply (Hsame k); auto|exact HP].
  - destruct HP as [HP1 HP2]. eapply (inv15_push k); eauto; reflexivity.
  - destruct HP as [HP1 HP2]. destruct HI as [A1 A2]. split; cbn; [exact A1|].
    intros p Hp. injection Hp as <-. exact HP1.
  - exact HI.
  - eapply (Hpend k); [exact HI|reflexivity|exact H|reflexivity|reflexivity].
  - apply H2. split; [|exact I]. eapply (Hpend k); [exact HI|reflexivity|exact H|reflexivity|reflexivity].
  - exact HI.
  - apply H0. split; [exact HI|exact I].
  - apply H2. split; [|exact I]. eapply (Hpend k); [exact HI|reflexivity|exact H|reflexivity|reflexivity].
  - apply H2. split; [|exact I]. eapply (Hpend k); [exact HI|reflexivity|exact H|reflexivity|reflexivity].
  - apply H2. split; [|exact I]. eapply (Hpend k); [exact HI|reflexivity|exact H|reflexivity|reflexivity].
  - eapply (Hpend k); [exact HI|reflexivity|exact H|reflexivity|reflexivity].
  - exact HI.
  - eapply Hemit; [|exact H4]. apply H3. split; [|exact I].
    eapply (inv15_push k); eauto; try reflexivity. apply HI. exact H.
Qed.

Lemma inv15_ext k k' : inv15 k -> km_pressed k' = km_pressed k -> km_pending k' = km_pending k -> inv15 k'.
Proof. unfold inv15. intros H -> ->. exact H. Qed.

Lemma handle_input_inv15 fuel ev k k' : inv15 k -> km_handle_input conf fuel ev k = Ok k' -> inv15 k'.
Proof.
  intros HI H. apply handle_input_cases in H as [(_ & _ & ie & q & k2 & _ & H & ->)|[(_ & _ & ->)|(_ & ->)]].
  - apply exec_inv15 in H; [|split; [exact HI|exact I]]. exact H.
  - exact HI.
  - exact HI.
Qed.
Lemma tick_inv15 fuel k k' : inv15 k -> km_tick conf fuel k = Ok k' -> inv15 k'.
Proof.
  intros HI H. apply tick_cases in H as (k1 & k2 & s & k3 & H1 & -> & Hs & H3 & _ & ->).
  assert (HI1 : inv15 k1).
  { destruct H1 as [(ie & q & k1' & _ & _ & H1 & ->)|(-> & _)]; [|exact HI].
    apply exec_inv15 in H1; [exact H1|split; [exact HI|exact I]]. }
  apply exec_inv15 in H3; [exact H3|]. split; [|exact I].
  destruct (0 <? km_delay k1); exact HI1.
Qed.
Lemma inv15_init k : inv15 (km_init k).
Proof. split; cbn; [constructor|discriminate]. Qed.
Lemma run_ops_inv15 fuel ops k k' : inv15 k -> run_ops conf fuel ops k = Ok k' -> inv15 k'.
Proof.
  apply run_ops_inv; try (intros; assumption).
  - intros; eapply handle_input_inv15; eauto.
  - intros; eapply tick_inv15; eauto.
  - intros; apply inv15_init.
Qed.

(** ** C17: capacities *)
Definition inv17 k : Prop :=
  (length (km_pressed k) <= MAX_PRESSED_KEYS
  /\ (forall p, km_pending k = Some p -> length (pd_queued p) <= MAX_PRESSED_KEYS)
  /\ length (km_inq k) <= INPUT_QUEUE_CAPACITY
  /\ length (sc_pending (km_sched k)) <= PENDING_CAPACITY
  /\ length (sc_scheduled (km_sched k)) <= MAX_SCHEDULED_EVENTS)%nat.
Definition cap (s : scheduler Ev) : Prop :=
  (length (sc_pending s) <= PENDING_CAPACITY /\ length (sc_scheduled s) <= MAX_SCHEDULED_EVENTS)%nat.

Lemma sched_after_cap (s : scheduler Ev) d ev s' : cap s -> sched_after pos s d ev = Ok s' -> cap s'.
Proof.
  intros [H1 H2] H. apply sched_after_ok in H as (Hp & _ & Hs & Hl & _). unfold cap.
  rewrite Hp, Hs. split; [exact H1|]. rewrite (Permutation_length (insert_at_perm _ _ _)). cbn. lia.
Qed.
Lemma sched_event_in_cap (s : scheduler Ev) se s' : cap s -> sched_event_in pos s se = Ok s' -> cap s'.
Proof.
  intros Hc H. pose proof (sched_event_in_ok _ _ _ _ H) as (_ & [(_ & Hs & Hp & Hl)|(d & _ & _ & Ha)]).
  - unfold cap. rewrite Hs, Hp, app_length. cbn. destruct Hc. split; lia.
  - eapply sched_after_cap; eauto.
Qed.
Lemma sched_all_cap (s : scheduler Ev) kes s' : sched_all pos s kes = Ok s' -> cap s -> cap s'.
Proof. intros H Hs. eapply sched_all_inv; [|exact Hs|exact H]. intros; eapply sched_event_in_cap; eauto. Qed.
Lemma update_pressed_list_cap ctx ev pis s pis' s' :
  update_pressed_list conf ctx ev pis s = Ok (pis', s') -> cap s -> cap s'.
Proof.
  intros H Hs. eapply update_pressed_list_inv; [|exact Hs|exact H]. intros; eapply sched_event_in_cap; eauto.
Qed.
Lemma update_pressed_list_length ctx ev pis s pis' s' :
  update_pressed_list conf ctx ev pis s = Ok (pis', s') -> length pis' = length pis.
Proof.
  intros H. apply update_pressed_list_ok in H. apply (f_equal (@length _)) in H. now rewrite !map_length in H.
Qed.
Lemma requeue_cap evs i q s q' s' : requeue conf evs i q s = Ok (q', s') -> cap s -> cap s'.
Proof. intros H Hs. eapply requeue_inv; [|exact Hs|exact H]. intros; eapply sched_after_cap; eauto. Qed.
Lemma remove_first_length {A} (f : A -> bool) l : (length (remove_first f l) <= length l)%nat.
Proof. induction l as [|x l IH]; cbn; [lia|]. destruct (f x); cbn; lia. Qed.

Lemma requeue_reversed_len qd iq q :
  requeue_reversed (Ev:=Ev) qd iq = Ok q -> (length q <= INPUT_QUEUE_CAPACITY)%nat.
Proof.
  unfold requeue_reversed. intros H. inv_bind H. apply push_all_cap_ok in E as [-> H1].
  apply push_all_cap_ok in H as [-> H2]. cbn [app] in *.
  destruct iq as [|x iq]; [rewrite app_nil_r|apply H2; discriminate].
  destruct (filter_map _ _) as [|y l]; [cbn; lia|apply H1; discriminate].
Qed.

Lemma exec_inv17 fuel j k k' : inv17 k -> exec conf fuel j k = Ok k' -> inv17 k'.
Proof.
  apply (exec_contract conf (fun _ k => inv17 k) (fun _ _ k' => inv17 k')). clear.
  intros j k k' HI H.
  assert (Hemit : forall i r ks a b, inv17 a ->
    emit_rel conf (fun (j : job) a b => inv17 a -> inv17 b) i r ks a b -> inv17 b).
  { intros i r ks a b Ha (o & _ & Ho). destruct o; [|subst; exact Ha]. apply Ho. exact Ha. }
  assert (Hmk : forall b,
      (length (km_pressed b) <= MAX_PRESSED_KEYS)%nat ->
      (forall q, km_pending b = Some q -> (length (pd_queued q) <= MAX_PRESSED_KEYS)%nat) ->
      (length (km_inq b) <= INPUT_QUEUE_CAPACITY)%nat -> cap (km_sched b) -> inv17 b).
  { intros b H1 H2 H3 [C1 C2]. repeat split; auto. }
  assert (HC : cap (km_sched k)) by (split; apply HI).
  pose proof (proj1 HI) as HP. pose proof (proj1 (proj2 HI)) as HQ.
  pose proof (proj1 (proj2 (proj2 HI))) as HJ.
  destruct H; inv_prim;
    repeat match goal with
    | H : update_pressed_list _ _ _ _ _ = Ok _ |- _ =>
        pose proof (update_pressed_list_length _ _ _ _ _ _ H);
        let H' := fresh "Hs" in pose proof (update_pressed_list_cap _ _ _ _ _ _ H) as H'; clear H
    | H : sched_all _ _ _ = Ok _ |- _ => let H' := fresh "Hs" in pose proof (sched_all_cap _ _ _ H) as H'; clear H
    end; cbn in *; try assumption.
  - apply Hmk; cbn; auto. destruct HC as [C1 C2]. rewrite H in C1. split; cbn in *; lia.
  - apply H1, H0. apply Hmk; cbn; auto. destruct HC as [C1 C2]. rewrite H in C1. split; cbn in *; lia.
  - assert (HI1 : inv17 k1).
    { apply H. destruct (run_callback_eq k ev) as (new & -> & _). exact HI. }
    assert (HC1 : cap (km_sched k1)) by (split; apply HI1).
    assert (HI2 : inv17 (set_sched (set_ctx (set_sched (set_pressed k1 pis) s) ctx) s0)).
    { apply Hmk; cbn; auto.
      - rewrite H0. apply HI1.
      - apply HI1.
      - apply HI1. }
    destruct ev; [apply H2; exact HI2|subst; exact HI2|subst; exact HI2].
  - apply H2, H1. apply Hmk; cbn; auto. intros q Hq. injection Hq as <-. cbn.
    rewrite app_length. cbn. lia.
  - apply H3. apply Hmk; cbn; auto; try lia; try (rewrite H; discriminate).
  - apply H5, H4. apply Hmk; cbn; auto; try lia; try (rewrite H; discriminate).
  - apply H2. apply Hmk; cbn; auto; try (rewrite H; discriminate).
    pose proof (remove_first_length (pi_has_index i) pis). lia.
  - apply H3. apply Hmk; cbn; auto; try (rewrite H; discriminate). rewrite app_length; cbn; lia.
  - apply H2. apply Hmk; cbn; auto; try (rewrite H; discriminate).
    match goal with |- (length (remove_first ?f _) <= _)%nat => pose proof (remove_first_length f pis) end. lia.
  - eapply Hemit; [|exact H2]. apply Hmk; cbn; auto. rewrite app_length; cbn; lia.
  - apply H1. apply Hmk; cbn; auto.
  - apply Hmk; cbn; auto. rewrite app_length; cbn; lia.
  - apply Hmk; cbn; auto. intros q Hq. injection Hq as <-. cbn. lia.
  - apply Hmk; cbn; auto. intros q Hq. injection Hq as <-. cbn. auto.
  - apply H2. apply Hmk; cbn; auto. intros q Hq. injection Hq as <-. cbn. auto.
  - apply H0. exact HI.
  - apply H2. apply Hmk; cbn; auto. intros q Hq. injection Hq as <-. cbn. auto.
  - apply H2. apply Hmk; cbn; auto. intros q Hq. injection Hq as <-. cbn. auto.
  - apply H2. apply Hmk; cbn; auto. intros q Hq. injection Hq as <-. cbn. auto.
  - apply Hmk; cbn; auto.
    + intros q0 Hq. injection Hq as <-. cbn. lia.
    + eapply requeue_reversed_len; eauto.
  - eapply Hemit; [|exact H4]. apply H3. pose proof (requeue_ok _ _ _ _ _ _ _ H1) as (_ & Hq & _ & _).
    apply push_all_cap_ok in H2 as [-> Hq2].
    apply Hmk; cbn; auto.
    + rewrite app_length; cbn; lia.
    + discriminate.
    + destruct (km_inq k) as [|x iq]; [rewrite app_nil_r; apply Hq; cbn; lia|apply Hq2; discriminate].
    + eapply requeue_cap; [exact H1|]. destruct HC as [C1 C2]. split; cbn; [exact C1|]. now rewrite map_length.
Qed.

Lemma handle_input_inv17 fuel ev k k' : inv17 k -> km_handle_input conf fuel ev k = Ok k' -> inv17 k'.
Proof.
  intros HI H. pose proof HI as (I1 & I2 & I3 & I4 & I5).
  apply handle_input_cases in H as [(Hl & _ & ie & q & k2 & Eq & H & ->)|[(Hl & _ & ->)|(_ & ->)]].
  - apply exec_inv17 in H; [exact H|]. repeat split; cbn; auto.
    apply (f_equal (@length _)) in Eq. rewrite app_length in Eq. cbn in Eq. lia.
  - repeat split; cbn; auto. rewrite app_length; cbn. lia.
  - exact HI.
Qed.
Lemma tick_inv17 fuel k k' : inv17 k -> km_tick conf fuel k = Ok k' -> inv17 k'.
Proof.
  intros HI H. apply tick_cases in H as (k1 & k2 & s & k3 & H1 & -> & Hs & H3 & _ & ->).
  assert (HI1 : inv17 k1).
  { pose proof HI as (I1 & I2 & I3 & I4 & I5).
    destruct H1 as [(ie & q & k1' & Eq & _ & H1 & ->)|(-> & _)]; [|exact HI].
    apply exec_inv17 in H1; [exact H1|]. repeat split; cbn; auto. rewrite Eq in I3. cbn in I3. lia. }
  apply exec_inv17 in H3; [exact H3|].
  assert (HI2 : inv17 (if 0 <? km_delay k1 then set_delay k1 (km_delay k1 - 1) else k1))
    by (destruct (0 <? km_delay k1); exact HI1).
  clear - Hs HI2. revert Hs HI2. generalize (if 0 <? km_delay k1 then set_delay k1 (km_delay k1 - 1) else k1).
  intros k2 Hs (I1 & I2 & I3 & I4 & I5). pose proof (sched_tick_ok _ _ _ Hs) as (_ & [(Hp & Hq & _)|(en & Hq & _ & Hp)]).
  - repeat split; cbn; auto; congruence.
  - repeat split; cbn; auto.
    + unfold sched_tick in Hs. inv_bind Hs. destruct (last_opt (sc_scheduled (km_sched k2))); [|now inv_ok Hs].
      destruct (en_time s0 <=? a); [|now inv_ok Hs]. inv_bind Hs. inv_ok Hs. cbn.
      apply push_cap_ok in E0 as [-> ?]. rewrite app_length. cbn. lia.
    + rewrite Hq, app_length in I5. lia.
Qed.
Lemma inv17_init k : inv17 k -> inv17 (km_init k).
Proof.
  intros (I1 & I2 & I3 & I4 & I5). repeat split; cbn; try lia; try discriminate.
  assert (H : forall l : list (option (event Ev)), (length (drain_pending l) <= length l)%nat).
  { induction l as [|[e|] l IH]; cbn; lia. }
  specialize (H (sc_pending (km_sched k))). lia.
Qed.
Lemma run_ops_inv17 fuel ops k k' : inv17 k -> run_ops conf fuel ops k = Ok k' -> inv17 k'.
Proof.
  apply run_ops_inv; try (intros; assumption).
  - intros; eapply handle_input_inv17; eauto.
  - intros; eapply tick_inv17; eauto.
  - intros; now apply inv17_init.
Qed.

End Inv.
