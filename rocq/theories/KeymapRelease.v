(** Releases and virtual keys (C39): what one processed input does to the
    pressed inputs of a watched keymap that has no pending key. *)
From Verif Require Import BaseFacts Output Types Scheduler Reporter Keymap SpecScheduler SchedulerFacts
  KeymapFacts SpecKeymap KeymapInv KeymapHist KeymapQueue.
Local Open Scope N_scope.

Section Release.
Context {R Ctx Ev PKS KS : Type}.
Variable conf : kconf R Ctx Ev PKS KS.
Local Notation W := (watch conf).
Local Notation wkm := (keymap R (Ctx * list (event Ev)) Ev PKS KS).
Local Notation sys := (kc_sys conf).
Local Notation job := (job R Ev KS).
Implicit Types (k a b : wkm).

Definition twice (l : list input_event) : list input_event := flat_map (fun x => [x; x]) l.
Definition virtual (x : input_event) : Prop := physical x = false.
Definition ins k : list input_event := filter_map input_of (seen k).

Definition p39 (j : job) k : Prop :=
  km_pending k = None /\ pie not_physical j k
  /\ match j with
     | JHandlePending | JHandleEvent _ | JUpdatePending _ => True
     | JProcessInput (Press _) => False
     | JProcessInput _ => True
     | _ => False end.
Definition first (j : job) : list input_event := match j with JProcessInput x => [x] | _ => [] end.
Definition q39 (j : job) k k' : Prop :=
  km_pending k' = None
  /\ exists vs, Forall virtual vs /\ ins k' = ins k ++ first j ++ twice vs
     /\ pressed_shape k' = fold_left shape_step (first j ++ vs) (pressed_shape k).

Hypothesis He : emits_only sys not_physical.

Lemma ins_ctx k (ctx : Ctx * list (event Ev)) kes ev :
  sys_ctx_handle_event (kc_sys W) (km_ctx k) ev = Ok (ctx, kes) ->
  filter_map input_of (snd ctx) = ins k ++ match ev with EvInput x => [x] | _ => [] end.
Proof. intros H. apply watch_ctx_seen in H. rewrite H, filter_map_app. unfold ins, seen. f_equal. now destruct ev. Qed.

Lemma release_shape i (l : list (pressed_input R KS)) :
  map shape_of (remove_first (pi_has_index i) l) = shape_step (map shape_of l) (Release i).
Proof.
  induction l as [|[j r ks|ko] l IH]; cbn; [reflexivity| |].
  - destruct (i =? j); cbn; [reflexivity|now f_equal].
  - now f_equal.
Qed.
Lemma vrelease_shape ko (l : list (pressed_input R KS)) :
  map shape_of (remove_first (fun pi => match pi with PiVirtual ko' => ko_eqb ko ko' | PiKey _ _ _ => false end) l)
  = shape_step (map shape_of l) (VirtualKeyRelease ko).
Proof.
  induction l as [|[j r ks|ko'] l IH]; cbn; [reflexivity| |].
  - now f_equal.
  - destruct (ko_eqb ko ko'); cbn; [reflexivity|now f_equal].
Qed.

Lemma exec_shape fuel j k k' : p39 j k -> exec W fuel j k = Ok k' -> q39 j k k'.
Proof.
  pose proof (watch_emits conf _ He) as HeW. apply (exec_contract' W p39 q39). clear - HeW.
  intros j k k' (Hn & HI & HJ) H. unfold q39.
  assert (Hie : forall f j (a b : wkm), exec W f j a = Ok b -> pie not_physical j a -> ie not_physical b).
  { intros f j0 a b Hx Ha. eapply exec_ie; [exact HeW|intros; exact I|exact Ha|exact Hx]. }
  assert (Hie2 : forall ev pis s ctx kes s0, ie not_physical k ->
     update_pressed_list W (km_ctx k) ev (km_pressed k) (km_sched k) = Ok (pis, s) ->
     sys_ctx_handle_event (kc_sys W) (km_ctx k) ev = Ok (ctx, kes) ->
     sched_all (kc_pos conf) s kes = Ok s0 -> forall a, km_sched a = s0 -> km_pending a = km_pending k ->
     ie not_physical a).
  { intros ev pis s ctx kes s0 [A B] Hs Hc Hs0 a Ea Ep. split; [|unfold queued_ok in *; rewrite Ep; exact B].
    rewrite Ea. eapply sched_all_events; [exact Hs0|destruct HeW as (_ & _ & _ & He4); eapply He4; exact Hc|].
    eapply (update_pressed_list_events W); [exact HeW|exact Hs|exact A]. }
  destruct H; try contradiction; try congruence; inv_prim; cbn [first app] in *.
  - split; [exact Hn|]. exists []. repeat split; cbn; rewrite ?app_nil_r; auto.
  - split; [exact Hn|]. exists []. repeat split; cbn; rewrite ?app_nil_r; auto.
  - destruct H0 as [(f0 & X0) H0]. destruct H1 as [_ H1].
    assert (Hp : pie not_physical (JHandleEvent ev) (set_sched k (mkSched t (sc_scheduled (km_sched k)) (sc_counter (km_sched k))))).
    { destruct HI as ([[A B] C] & _). rewrite H in A. inversion A; subst. repeat split; cbn; auto. }
    destruct H0 as (N1 & v1 & V1 & S1 & P1); [split; [exact Hn|split; [exact Hp|exact I]]|].
    destruct H1 as (N2 & v2 & V2 & S2 & P2). { split; [exact N1|]. split; [|exact I]. split; [|exact I]. eapply Hie; eauto. }
    split; [exact N2|]. exists (v1 ++ v2). split; [now apply Forall_app|]. cbn in *. split.
    + rewrite S2, S1, <- app_assoc. unfold twice. rewrite flat_map_app. reflexivity.
    + rewrite P2, P1, fold_left_app. reflexivity.
  - destruct (run_callback_eq k ev) as (new & Er & _). rewrite Er in H.
    destruct H as [(f0 & X0) H].
    assert (Hp : pie not_physical (JUpdatePending ev) (set_calls k (km_calls k ++ new)))
      by (destruct HI as [[A B] _]; repeat split; try apply A; exact B).
    assert (k1 = set_calls k (km_calls k ++ new)) as ->.
    { destruct f0; [discriminate|]. cbn in X0. unfold step_update_pending in X0. cbn in X0. rewrite Hn in X0. now inv_ok X0. }
    clear H X0. pose proof (ins_ctx _ _ _ _ Hc) as Hins. cbn in Hs, Hs0, Hins, Hc.
    assert (HI0 : ie not_physical k) by apply HI.
    apply update_pressed_list_shape in Hs as Hsh.
    destruct ev as [x|i ke|kk]; cbn in Hins; rewrite ?app_nil_r in Hins.
    + destruct H2 as [_ H2]. destruct HI as [_ HI]. cbn in HI.
      destruct H2 as (N2 & v & V & S & P).
      * split; [exact Hn|]. split; [|destruct x; try discriminate; exact I]. split; [|exact I].
        eapply Hie2; [exact HI0|exact Hs|exact Hc|exact Hs0|reflexivity|reflexivity].
      * split; [exact N2|]. exists (x :: v). split; [constructor; auto|]. cbn [first app] in *.
        unfold ins at 2 in S. unfold seen in S. cbn in S. rewrite Hins in S. unfold pressed_shape at 2 in P. cbn in P. rewrite Hsh in P.
        split; [|exact P]. rewrite S, <- app_assoc. reflexivity.
    + subst k'. split; [exact Hn|]. exists []. unfold ins, seen, pressed_shape. cbn. rewrite Hins, Hsh, app_nil_r. repeat split; auto.
    + subst k'. split; [exact Hn|]. exists []. unfold ins, seen, pressed_shape. cbn. rewrite Hins, Hsh, app_nil_r. repeat split; auto.
  - pose proof (ins_ctx _ _ _ _ Hc) as Hins. apply update_pressed_list_shape in Hs as Hsh.
    destruct H2 as [_ H2]. destruct H2 as (N2 & v & V & S & P).
    + split; [exact Hn|]. split; [|exact I]. split; [|exact I].
      eapply Hie2; [apply HI|exact Hs|exact Hc|exact Hs0|reflexivity|reflexivity].
    + split; [exact N2|]. exists v. split; [exact V|]. cbn [first app] in *.
      unfold ins at 2 in S. unfold seen in S. cbn in S, Hins. rewrite Hins in S.
      split; [rewrite S, <- app_assoc; reflexivity|]. rewrite P. unfold pressed_shape at 1. cbn [set_pressed set_sched set_ctx km_pressed].
      rewrite release_shape, Hsh. reflexivity.
  - pose proof (ins_ctx _ _ _ _ Hc) as Hins. apply update_pressed_list_shape in Hs as Hsh.
    destruct H3 as [_ H3]. destruct H3 as (N2 & v & V & S & P).
    + split; [exact Hn|]. split; [|exact I]. split; [|exact I].
      eapply Hie2; [apply HI|exact Hs|exact Hc|exact Hs0|reflexivity|reflexivity].
    + split; [exact N2|]. exists v. split; [exact V|]. cbn [first app] in *.
      unfold ins at 2 in S. unfold seen in S. cbn in S, Hins. rewrite Hins in S.
      split; [rewrite S, <- app_assoc; reflexivity|]. rewrite P. unfold pressed_shape at 1. cbn [set_pressed set_sched set_ctx km_pressed].
      rewrite map_app, Hsh. reflexivity.
  - pose proof (ins_ctx _ _ _ _ Hc) as Hins. apply update_pressed_list_shape in Hs as Hsh.
    destruct H2 as [_ H2]. destruct H2 as (N2 & v & V & S & P).
    + split; [exact Hn|]. split; [|exact I]. split; [|exact I].
      eapply Hie2; [apply HI|exact Hs|exact Hc|exact Hs0|reflexivity|reflexivity].
    + split; [exact N2|]. exists v. split; [exact V|]. cbn [first app] in *.
      unfold ins at 2 in S. unfold seen in S. cbn in S, Hins. rewrite Hins in S.
      split; [rewrite S, <- app_assoc; reflexivity|]. rewrite P. unfold pressed_shape at 1. cbn [set_pressed set_sched set_ctx km_pressed].
      rewrite vrelease_shape, Hsh. reflexivity.
  - split; [exact Hn|]. exists []. repeat split; cbn; rewrite ?app_nil_r; auto.
Qed.
End Release.
