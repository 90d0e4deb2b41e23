(** Keyboards with layers and macro keys, computed (C77). *)
From Verif Require Import BaseFacts Output Types Scheduler Reporter Keymap SimpleKeys TapHold TapDance Sticky CapsWord
  Layered Automation Chorded Composite SpecKeymap KeymapHist KeymapQueue KeymapCalls KeymapApi SpecChord ChordFacts ChordHeld SpecPlain PlainFacts
  SpecLayer LayerFacts SpecKinds SpecBoard BoardFacts SpecScheduler SchedulerFacts SpecTapBoard TapBoardFacts SpecMacro MacroFacts SpecDanceBoard SpecMacroBoard.
From Coq Require Import Permutation.
Local Open Scope N_scope.

Definition alarm_event (al : alarm) : event cev :=
  match al with
  | AlRelease ko => EvInput (VirtualKeyRelease ko)
  | AlNext ki => EvKey ki (CeAutomation AuNextInstruction)
  | AlDone ki => EvKey ki (CeAutomation AuExecutionFinished)
  end.
Definition alarm_entry (p : N * alarm) : sch_entry cev := mkEntry (fst p) (alarm_event (snd p)) true.

(** At most two things that are to happen, the last set first among those for the same
    time: the order of the schedule. *)
Definition sort2 (l : list (N * alarm)) : list (N * alarm) :=
  match l with [a; b] => if fst b <? fst a then [a; b] else [b; a] | _ => l end.
(** The one of them that happens first. *)
Definition in_order (t : N) (l1 : list (N * alarm)) : Prop := l1 = [] \/ exists a, l1 = [a] /\ t < fst a.

Section MacroBoard.
Variables (refs : list ref) (d : key_data) (pos : position_fn) (dbg : bool) (n : nat) (cf : automation_config).
Hypothesis Hpos : position_ok pos.
Variable L : list (callback * callback_fn).
(** Whether few things are to happen at a time, of which the order is told then. *)
Variable few : bool.
Hypothesis Hfew : few = true -> forall t, pos [t] t = 0%nat.
Local Notation conf := (cconf refs d pos dbg).
Local Notation held := (held d n).

(** ** The pressed keys *)
Definition is_macro (i : u16) (M : list (u16 * automation_key)) : bool := existsb (fun p => fst p =? i) M.
Definition mheld (M : list (u16 * automation_key)) (pi : pressed_input ref cks) (x : u16 * meaning + key_output) : Prop :=
  (held pi x /\ forall i m, x = inl (i, m) -> is_macro i M = false)
  \/ exists i q a, pi = PiKey i (RAutomation q) KsAutomation /\ x = inl (i, Nothing) /\ nth_error (kd_automation d) (N.to_nat q) = Some a
       /\ find (fun p => fst p =? i) M = Some (i, a).
Lemma mheld_index M pi x i : mheld M pi x -> pi_has_index i pi = this_key i x.
Proof.
  intros [(H & _)|(j & q & a & -> & -> & _)]; [|reflexivity].
  destruct pi as [j r ks|ko], x as [[j' m]|ko']; cbn in H; try contradiction; [|reflexivity]. destruct H as (-> & _). reflexivity.
Qed.
Lemma mheld_has M pis l i : Forall2 (mheld M) pis l -> existsb (pi_has_index i) pis = existsb (this_key i) l.
Proof. induction 1 as [|pi x pis l H _ IH]; [reflexivity|]. cbn [existsb]. now rewrite IH, (mheld_index _ _ _ i H). Qed.
Lemma mheld_remove M pis l i : Forall2 (mheld M) pis l -> Forall2 (mheld M) (remove_first (pi_has_index i) pis) (remove_first (this_key i) l).
Proof.
  induction 1 as [|pi x pis l H Hl IH]; [constructor|]. cbn [remove_first]. rewrite (mheld_index _ _ _ i H). destruct (this_key i x); [exact Hl|]. now constructor.
Qed.
Lemma mheld_remove_virtual M pis l ko : Forall2 (mheld M) pis l ->
  Forall2 (mheld M) (remove_first (fun pi => match pi with PiVirtual ko' => ko_eqb ko ko' | PiKey _ _ _ => false end) pis) (remove_first (this_virtual ko) l).
Proof.
  induction 1 as [|pi x pis l H Hl IH]; [constructor|]. cbn [remove_first].
  assert (E : match pi with PiVirtual ko' => ko_eqb ko ko' | PiKey _ _ _ => false end = this_virtual ko x).
  { destruct H as [(H & _)|(j & q & a & -> & -> & _)]; [|reflexivity].
    destruct pi as [j r ks|ko1], x as [[j' m]|ko2]; cbn in H; try contradiction; [reflexivity|]. now subst. }
  rewrite E. destruct (this_virtual ko x); [exact Hl|]. now constructor.
Qed.
Lemma mheld_length M pis l : Forall2 (mheld M) pis l -> length pis = length l.
Proof. induction 1; cbn; congruence. Qed.
Lemma mheld_outputs M pis b : Forall2 (mheld M) pis (bd_down b) -> outputs_of conf pis = Ok (board_output b).
Proof.
  unfold board_output. generalize (bd_down b) as l. clear b. induction 1 as [|pi x pis l H _ IH]; [reflexivity|].
  destruct H as [(H & _)|(j & q & a & -> & -> & _)].
  - pose proof (outputs_held refs d pos dbg n [pi] (mkBoard [x] (fun _ => false) None) (Forall2_cons _ _ H (Forall2_nil _))) as X.
    unfold board_output in X. cbn [bd_down] in X.
    destruct pi as [j r ks|ko], x as [[j' m]|ko']; cbn in H; try contradiction; cbn [outputs_of filter_map] in *.
    + cbn [bind] in *. destruct (sys_key_output (kc_sys conf) r ks) as [o| |]; try discriminate. cbn [bind] in *. rewrite IH. cbn [bind].
      destruct o, m; cbn in X |- *; try discriminate X; try (injection X as ->); reflexivity.
    + subst ko'. rewrite IH. reflexivity.
  - cbn [outputs_of filter_map kc_sys cconf composite sys_key_output c_key_output bind]. rewrite IH. reflexivity.
Qed.

(** What a pressed key does on an event. *)
Definition reacts (M : list (u16 * automation_key)) (x : u16 * meaning + key_output) (ev : event cev) : list (event cev) :=
  match x with
  | inr _ => []
  | inl (i, m) =>
      match ev with
      | EvInput (Release j) =>
          if j =? i then
            match find (fun p => fst p =? i) M with
            | Some (_, a) => [EvKey i (CeAutomation (AuEnqueue (ak_on_release a)))]
            | None => match at_release m with Some e => [EvKey i (CeLayered e)] | None => [] end
            end
          else []
      | EvKey j (CeAutomation AuExecutionFinished) =>
          if j =? i then
            match find (fun p => fst p =? i) M with
            | Some (_, a) => [EvKey i (CeAutomation (AuEnqueue (ak_while_pressed a)))]
            | None => []
            end
          else []
      | _ => []
      end
  end.
Lemma is_macro_find i M : is_macro i M = false <-> find (fun p => fst p =? i) M = None.
Proof. unfold is_macro. induction M as [|p M IH]; cbn; [split; reflexivity|]. destruct (@fst N _ p =? i); cbn; [|exact IH].
  split; intros X; discriminate X. Qed.
Lemma update_one M c ev pi x s s' : mheld M pi x ->
  update_pressed_list conf c ev [pi] s = Ok s' -> exists s1, s' = ([pi], s1)
    /\ sc_pending s1 = sc_pending s ++ map Some (reacts M x ev) /\ sc_scheduled s1 = sc_scheduled s /\ sc_counter s1 = sc_counter s.
Proof.
  intros [(H & Hm)|(j & q & a & -> & -> & Hq & Hf)] E.
  - assert (Hno : reacts M x ev = [] -> (forall i, ev = EvInput (Release i) -> existsb (this_key i) [x] = false) ->
      exists s1, s' = ([pi], s1) /\ sc_pending s1 = sc_pending s ++ map Some (reacts M x ev) /\ sc_scheduled s1 = sc_scheduled s /\ sc_counter s1 = sc_counter s).
    { intros R Hev. rewrite (update_held refs d pos dbg n c ev s [pi] [x] (Forall2_cons _ _ H (Forall2_nil _)) Hev) in E. injection E as <-.
      exists s. rewrite R. cbn. rewrite app_nil_r. auto. }
    destruct x as [[i m]|ko].
    2:{ apply Hno; [reflexivity|]. intros i _. reflexivity. }
    pose proof (proj1 (is_macro_find _ _) (Hm i m eq_refl)) as Hn.
    destruct ev as [[j|j|ko|ko]|j e|e]; try (apply Hno; [reflexivity|discriminate]).
    + destruct (N.eqb_spec j i) as [->|Hne].
      2:{ apply Hno; [cbn; destruct (N.eqb_spec j i); [contradiction|reflexivity]|]. intros i' X. injection X as <-. cbn. destruct (N.eqb_spec j i); [contradiction|reflexivity]. }
      cbn [reacts]. rewrite N.eqb_refl, Hn. clear Hno.
      (* the release of an ordinary key *)
      destruct pi as [i' r ks|ko]; cbn in H; [|contradiction]. destruct H as (-> & H). cbn [update_pressed_list] in E. cbn [kc_sys cconf composite sys_update_state] in E.
      destruct m as [ko|lm|cb|].
      * destruct H as (H & ->). rewrite (plain_update d _ _ (ks_plain r) c i _ H) in E. cbn [bind sched_all fold_res] in E. injection E as <-.
        exists s. cbn. rewrite app_nil_r. auto.
      * destruct H as (q & -> & Hl & Hok & ->). cbn [c_update_state try_event ly_update_state] in E. unfold index in E. rewrite Hl in E. cbn [bind at_release] in *.
        destruct lm; cbn in E, Hok |- *; try contradiction; rewrite ?N.eqb_refl in E; cbn in E; try (injection E as <-; exists s; rewrite app_nil_r; auto; fail).
        all: inv_bind E; injection E as <-; inv_bind E0; injection E0 as <-; apply sched_enqueue_ok in E as (A & B & C & _); eexists; (split; [reflexivity|]); auto.
      * destruct H as (q & -> & ->). cbn [c_update_state bind sched_all fold_res] in E. injection E as <-. exists s. cbn. rewrite app_nil_r. auto.
      * destruct H as (q & -> & ->). cbn [c_update_state bind sched_all fold_res] in E. injection E as <-. exists s. cbn. rewrite app_nil_r. auto.
    + apply Hno; [|discriminate]. cbn. destruct e as [[]| | | | | |]; try reflexivity. rewrite Hn. now destruct (j =? i).
  - cbn [update_pressed_list kc_sys cconf composite sys_update_state c_update_state reacts] in *. rewrite Hf.
    assert (Keep : (let! (st', kes) := Ok (KsAutomation, []) in let! s1 := sched_all pos s kes in let! (t', s2) := Ok ([], s1) in Ok (PiKey j (RAutomation q) st' :: t', s2)) = Ok s' -> exists s1, s' = ([PiKey j (RAutomation q) KsAutomation], s1) /\ sc_pending s1 = sc_pending s ++ [] /\ sc_scheduled s1 = sc_scheduled s /\ sc_counter s1 = sc_counter s).
    { cbn. intros X. injection X as <-. exists s. rewrite app_nil_r. auto. }
    destruct ev as [[k|k|ko|ko]|k e|e]; cbn [try_event] in E; try (apply Keep; exact E).
    + cbn [auto_update_state] in E. rewrite (N.eqb_sym j k) in E. destruct (N.eqb_spec k j) as [->|]; [|apply Keep; exact E].
      unfold index in E. rewrite Hq in E. cbn in E. inv_bind E. injection E as <-. inv_bind E0. injection E0 as <-. apply sched_enqueue_ok in E as (A & B & C & _). eexists. split; [reflexivity|]. auto.
    + destruct e as [ae| | | | | |]; cbn [as_automation] in E; try (apply Keep; exact E).
      destruct ae; cbn [auto_update_state] in E; try (apply Keep; exact E).
      rewrite (N.eqb_sym j k) in E. destruct (N.eqb_spec k j) as [->|]; [|apply Keep; exact E].
      unfold index in E. rewrite Hq in E. cbn in E. inv_bind E. injection E as <-. inv_bind E0. injection E0 as <-. apply sched_enqueue_ok in E as (A & B & C & _). eexists. split; [reflexivity|]. auto.
Qed.
Lemma update_app c ev p1 p2 s r : update_pressed_list conf c ev (p1 ++ p2) s = Ok r ->
  exists p1' s1 p2' s2, update_pressed_list conf c ev p1 s = Ok (p1', s1) /\ update_pressed_list conf c ev p2 s1 = Ok (p2', s2) /\ r = (p1' ++ p2', s2).
Proof.
  revert s r. induction p1 as [|pi p1 IH]; intros s r H.
  - destruct r as [p2' s2]. exists [], s, p2', s2. auto.
  - cbn [app update_pressed_list] in *. destruct pi as [i r0 ks|ko].
    + inv_bind H. destruct a as [ks' kes]. inv_bind H. inv_bind H. destruct a0 as [t' s']. injection H as <-.
      destruct (IH _ _ E1) as (p1' & s1 & p2' & s2 & A & B & C). injection C as -> ->. exists (PiKey i r0 ks' :: p1'), s1, p2', s2.
      rewrite E. cbn [bind]. rewrite E0. cbn [bind]. rewrite A. cbn [bind]. auto.
    + inv_bind H. destruct a as [t' s']. injection H as <-.
      destruct (IH _ _ E) as (p1' & s1 & p2' & s2 & A & B & C). injection C as -> ->. exists (PiVirtual ko :: p1'), s1, p2', s2.
      rewrite A. cbn [bind]. auto.
Qed.
Lemma update_all M c ev pis l : Forall2 (mheld M) pis l -> forall s r, update_pressed_list conf c ev pis s = Ok r ->
  exists s1, r = (pis, s1) /\ sc_pending s1 = sc_pending s ++ map Some (flat_map (fun x => reacts M x ev) l)
    /\ sc_scheduled s1 = sc_scheduled s /\ sc_counter s1 = sc_counter s.
Proof.
  induction 1 as [|pi x pis l H _ IH]; intros s r E.
  - cbn in E. injection E as <-. exists s. cbn. rewrite app_nil_r. auto.
  - change (pi :: pis) with ([pi] ++ pis) in E. destruct (update_app _ _ _ _ _ _ E) as (p1 & s1 & p2 & s2 & A & B & ->).
    destruct (update_one _ _ _ _ _ _ _ H A) as (s1' & X & P1 & S1 & C1). injection X as -> <-.
    destruct (IH _ _ B) as (s2' & X & P2 & S2 & C2). injection X as -> <-.
    exists s2. split; [reflexivity|]. cbn [flat_map]. rewrite map_app, P2, P1, S2, S1, C2, C1, app_assoc. auto.
Qed.
Lemma reacts_none M l ev : (forall i, ev = EvInput (Release i) -> existsb (this_key i) l = false) ->
  (forall i, ev = EvKey i (CeAutomation AuExecutionFinished) -> existsb (this_key i) l = false) -> flat_map (fun x => reacts M x ev) l = [].
Proof.
  intros H1 H2. induction l as [|x l IH]; [reflexivity|]. cbn [flat_map]. rewrite IH.
  - rewrite app_nil_r. destruct x as [[i m]|ko]; [|reflexivity]. cbn [reacts].
    destruct ev as [[j|j|ko|ko]|j e|e]; try reflexivity.
    + specialize (H1 j eq_refl). cbn in H1. apply orb_false_iff in H1 as (-> & _). reflexivity.
    + destruct e as [[]| | | | | |]; try reflexivity. specialize (H2 j eq_refl). cbn in H2. apply orb_false_iff in H2 as (-> & _). reflexivity.
  - intros i E. specialize (H1 i E). cbn in H1. now apply orb_false_iff in H1.
  - intros i E. specialize (H2 i E). cbn in H2. now apply orb_false_iff in H2.
Qed.
Lemma reacts_key M l i m ev : NoDup (keys_down (map forget l)) -> In (inl (i, m)) l ->
  ev = EvInput (Release i) \/ ev = EvKey i (CeAutomation AuExecutionFinished) -> flat_map (fun x => reacts M x ev) l = reacts M (inl (i, m)) ev.
Proof.
  intros Hnd Hin Hev. induction l as [|x l IH]; [destruct Hin|]. cbn [flat_map].
  destruct x as [[j m']|ko].
  - cbn [map forget] in Hnd. rewrite keys_key in Hnd. inversion Hnd as [|? ? Hni Hnd']; subst. destruct (N.eq_dec j i) as [->|Hne].
    + assert (Hx : existsb (this_key i) l = false).
      { rewrite <- this_forget. destruct (existsb (is_key i) (map forget l)) eqn:Ei; [|reflexivity]. apply is_key_In in Ei. contradiction. }
      assert (m' = m) as ->.
      { destruct Hin as [E|Hin]; [congruence|]. exfalso. enough (existsb (this_key i) l = true) by congruence. apply existsb_exists. exists (inl (i, m)). split; [exact Hin|]. cbn. apply N.eqb_refl. }
      rewrite reacts_none; [apply app_nil_r| |]; intros i' E; destruct Hev as [->| ->]; congruence.
    + destruct Hin as [E|Hin]; [congruence|]. rewrite (IH Hnd' Hin).
      assert (X : reacts M (inl (j, m')) ev = []) by (destruct Hev as [->| ->]; cbn; destruct (N.eqb_spec i j); [congruence|reflexivity|congruence|reflexivity]).
      rewrite X. reflexivity.
  - destruct Hin as [E|Hin]; [discriminate|]. cbn [reacts app]. apply IH; [exact Hnd|exact Hin].
Qed.

(** ** The scheduler *)
Definition nows (kes : key_events cev) : list (event cev) :=
  flat_map (fun se => match se_schedule se with Immediate => [se_event se] | After _ => [] end) kes.
Definition laters (now : N) (kes : key_events cev) : list (sch_entry cev) :=
  flat_map (fun se => match se_schedule se with Immediate => [] | After t => [mkEntry (now + t) (se_event se) true] end) kes.
Lemma sched_all_split kes : forall s s', sched_all pos s kes = Ok s' -> decreasing (map en_time (sc_scheduled s)) ->
  sc_pending s' = sc_pending s ++ map Some (nows kes) /\ sc_counter s' = sc_counter s
  /\ Permutation (sc_scheduled s') (sc_scheduled s ++ laters (sc_counter s) kes) /\ decreasing (map en_time (sc_scheduled s')).
Proof.
  unfold sched_all. induction kes as [|[sc ev] kes IH]; intros s s' H Hd; cbn [fold_res] in H.
  - injection H as <-. cbn. rewrite !app_nil_r. auto.
  - inv_bind H. unfold sched_event_in in E. cbn [se_schedule se_event] in E. destruct sc as [|t].
    + apply sched_enqueue_ok in E as (P & C & S1 & _). destruct (IH _ _ H) as (A1 & A2 & A3 & A4); [now rewrite S1|].
      cbn [nows laters flat_map se_schedule se_event]. fold (nows kes). fold (laters (sc_counter s) kes). rewrite A1, A2, P, C. split; [cbn; now rewrite <- app_assoc|]. split; [reflexivity|].
      split; [|exact A4]. rewrite S1, C in A3. exact A3.
    + apply sched_after_ok in E as (P & C & S1 & _). assert (Hd1 : decreasing (map en_time (sc_scheduled a))).
      { rewrite S1, map_insert_at. apply insert_decreasing; assumption. }
      destruct (IH _ _ H Hd1) as (A1 & A2 & A3 & A4).
      cbn [nows laters flat_map se_schedule se_event]. fold (nows kes). fold (laters (sc_counter s) kes). rewrite A1, A2, P, C. split; [reflexivity|]. split; [reflexivity|].
      split; [|exact A4]. rewrite A3, S1, C, insert_at_perm. cbn [app]. apply Permutation_middle.
Qed.
Lemma insert_few A t ev : few = true -> (length A <= 1)%nat ->
  forall b, alarm_entry b = mkEntry t ev true -> insert_at (pos (map en_time (map alarm_entry A)) t) (mkEntry t ev true) (map alarm_entry A) = map alarm_entry (sort2 (A ++ [b])).
Proof.
  intros Hf Hl b Eb. assert (Et : fst b = t) by exact (f_equal en_time Eb). destruct A as [|a [|]]; cbn [length] in Hl; [| |lia]; rewrite <- Eb.
  - cbn [map app sort2]. destruct (Hpos [] t) as (X & _); [constructor|]. cbn [length] in X. destruct (pos [] t); [reflexivity|lia].
  - assert (Q : pos [fst a] t = (if N.ltb t (fst a) then 1 else 0)%nat).
    { destruct (Hpos [fst a] t) as (X & Y & Z); [repeat constructor|]. cbn [length] in X.
      destruct (N.ltb_spec t (fst a)) as [Hlt|Hge].
      + destruct (pos [fst a] t) as [|[|]]; [|reflexivity|lia]. cbn in Z. inversion Z. lia.
      + destruct (N.eq_dec t (fst a)) as [->|Hne]; [apply (Hfew Hf)|].
        destruct (pos [fst a] t) as [|[|]]; [reflexivity| |lia]. cbn in Y. inversion Y. lia. }
    cbn [map app sort2]. match goal with |- insert_at ?q _ _ = _ => change q with (pos [fst a] t) end. rewrite Q. subst t.
    match goal with |- context [if ?x then [a; b] else _] => change x with (N.ltb (fst b) (fst a)) end. destruct (N.ltb (fst b) (fst a)); reflexivity.
Qed.
Lemma sort2_short l : (length l <= 1)%nat -> sort2 l = l.
Proof. destruct l as [|a [|]]; cbn; intros; [reflexivity..|lia]. Qed.
Lemma sched_all_few kes : few = true -> forall A B s s', sched_all pos s kes = Ok s' -> sc_scheduled s = map alarm_entry (sort2 A) ->
  laters (sc_counter s) kes = map alarm_entry B -> (length (A ++ B) <= 2)%nat -> sc_scheduled s' = map alarm_entry (sort2 (A ++ B)).
Proof.
  unfold sched_all. intros Hf. induction kes as [|[sc ev] kes IH]; intros A B s s' H HA HB Hl; cbn [fold_res] in H.
  - injection H as <-. cbn in HB. destruct B; [|discriminate]. now rewrite app_nil_r.
  - inv_bind H. unfold sched_event_in in E. cbn [se_schedule se_event] in E. cbn [laters flat_map se_schedule se_event] in HB. fold (laters (sc_counter s) kes) in HB. destruct sc as [|t].
    + apply sched_enqueue_ok in E as (P & C & S1 & _). apply (IH A B a s' H); [now rewrite S1|now rewrite C|exact Hl].
    + apply sched_after_ok in E as (P & C & S1 & _). cbn [app] in HB. destruct B as [|b B]; [discriminate|]. cbn [map] in HB.
      pose proof (f_equal (hd (alarm_entry b)) HB) as Hb. cbn [hd] in Hb. apply (f_equal (@tl _)) in HB. cbn [tl] in HB.
      rewrite app_length in Hl. cbn [length] in Hl. replace (A ++ b :: B) with ((A ++ [b]) ++ B) by now rewrite <- app_assoc.
      apply (IH (A ++ [b]) B a s' H).
      * rewrite S1, HA, sort2_short by lia. apply insert_few; [exact Hf|lia|]. symmetry. exact Hb.
      * now rewrite C.
      * rewrite !app_length. cbn. lia.
Qed.
Definition at_once (i : instruction) : list (event cev) :=
  match i with
  | InPress ko | InTap ko => [EvInput (VirtualKeyPress ko)]
  | InRelease ko => [EvInput (VirtualKeyRelease ko)]
  | InNoOp | InWait _ => []
  end.
Lemma effect_split now dur ki i last more : auc_duration cf = dur ->
  nows (instruction_effect dur ki (Some (i, last, more))) = at_once i
  /\ laters now (instruction_effect dur ki (Some (i, last, more))) = map alarm_entry (leads_to cf now ki i last more).
Proof.
  intros <-. destruct i, last, more; split; reflexivity.
Qed.

(** ** The keymap and the keyboard *)
Record mstate (now : N) (k : desk) (p : list (event cev)) (m : ckeymap) : Prop := {
  ms_calm : calm (km_ctx m);
  ms_layers : layers_of n (km_ctx m) (dk_board k);
  ms_held : Forall2 (mheld (dk_macros k)) (km_pressed m) (bd_down (dk_board k));
  ms_nodup : NoDup (keys_down (shape (dk_board k)));
  ms_macros : forall i a, In (i, a) (dk_macros k) -> find (fun p => fst p =? i) (dk_macros k) = Some (i, a) /\ In (inl (i, Nothing)) (bd_down (dk_board k))
      /\ exec_in_range cf (ak_on_press a) /\ exec_in_range cf (ak_while_pressed a) /\ exec_in_range cf (ak_on_release a);
  ms_queue : exists l, queue_is (cx_automation (km_ctx m)) l /\ todo cf l = dk_queue k;
  ms_config : aux_config (cx_automation (km_ctx m)) = cf;
  ms_pending : sc_pending (km_sched m) = map Some p;
  ms_counter : sc_counter (km_sched m) = now;
  ms_alarms : Permutation (sc_scheduled (km_sched m)) (map alarm_entry (dk_alarms k));
  ms_sorted : decreasing (map en_time (sc_scheduled (km_sched m)));
  ms_none : km_pending m = None;
  ms_few : few = true -> (length (dk_alarms k) <= 2)%nat /\ sc_scheduled (km_sched m) = map alarm_entry (sort2 (dk_alarms k));
  ms_callbacks : km_callbacks m = L;
  ms_calls : km_calls m = filter_map (lm_get L) (dk_calls k)
}.
Definition mframe (m m' : ckeymap) : Prop :=
  km_inq m' = km_inq m /\ km_delay m' = km_delay m /\ km_idle m' = km_idle m /\ km_ms_per_tick m' = km_ms_per_tick m.
Lemma mframe_trans m1 m2 m3 : mframe m1 m2 -> mframe m2 m3 -> mframe m1 m3.
Proof. unfold mframe. intuition congruence. Qed.
Definition with_board (k : desk) (b : board) : desk := mkDesk b (dk_macros k) (dk_queue k) (dk_alarms k) (dk_calls k).

Lemma drain_none now k f m m' : mstate now k [] m -> exec conf f JHandlePending m = Ok m' -> m' = m.
Proof.
  intros H E. destruct f as [|f]; [discriminate|]. rewrite drain0 in E by (rewrite (ms_pending _ _ _ _ H); reflexivity). now injection E as <-.
Qed.
Lemma dequeue_inv now k ev p f m m' : mstate now k (ev :: p) m -> exec conf f JHandlePending m = Ok m' ->
  exists f' m0 m1, mstate now k p m0 /\ mframe m m0 /\ exec conf f' (JHandleEvent ev) m0 = Ok m1 /\ exec conf f' JHandlePending m1 = Ok m'.
Proof.
  intros H E. destruct f as [|f]; [discriminate|]. change (exec conf (S f) JHandlePending m) with (step_handle_pending (exec conf f) m) in E.
  unfold step_handle_pending, sched_dequeue in E. rewrite (ms_pending _ _ _ _ H) in E. cbn [map] in E. inv_bind E.
  exists f. eexists. exists a. split; [|split; [|split; [exact E0|exact E]]]; [|unfold mframe; auto].
  destruct H. constructor; try assumption. reflexivity.
Qed.
Lemma handle_inv f ev m m' : exec conf f (JHandleEvent ev) m = Ok m' -> km_pending m = None ->
  exists f' m1 m2, update_pressed conf (run_callback m ev) ev = Ok m1 /\ update_context conf m1 ev = Ok m2
    /\ match ev with EvInput ie => exec conf f' (JProcessInput ie) m2 = Ok m' | _ => m' = m2 end.
Proof.
  intros E Hp. destruct f as [|f]; [discriminate|]. change (exec conf (S f) (JHandleEvent ev) m) with (step_handle_event conf (exec conf f) ev m) in E.
  unfold step_handle_event in E. inv_bind E. assert (a = run_callback m ev) as ->.
  { destruct f as [|f]; [discriminate|]. cbn [exec step] in E0. unfold step_update_pending in E0.
    assert (Hp' : km_pending (run_callback m ev) = None) by (destruct ev as [|?|[]]; cbn; try exact Hp; destruct (lm_get _ _); exact Hp).
    rewrite Hp' in E0. now injection E0 as <-. }
  inv_bind E. inv_bind E. exists f, a, a0. split; [exact E1|]. split; [exact E2|]. destruct ev; [exact E|now injection E as <-..].
Qed.
Lemma pressed_step now k p ev m m1 : mstate now k p m -> update_pressed conf m ev = Ok m1 ->
  mstate now k (p ++ flat_map (fun x => reacts (dk_macros k) x ev) (bd_down (dk_board k))) m1 /\ mframe m m1 /\ km_ctx m1 = km_ctx m /\ km_pressed m1 = km_pressed m.
Proof.
  intros H E. unfold update_pressed in E. inv_bind E. destruct a as [pis s]. injection E as <-.
  destruct (update_all _ _ _ _ _ (ms_held _ _ _ _ H) _ _ E0) as (s1 & X & P & S1 & C). injection X as -> <-.
  split; [|split; [unfold mframe; auto|split; reflexivity]]. destruct H. constructor; try assumption; cbn.
  - rewrite P, ms_pending0, map_app. reflexivity.
  - now rewrite C.
  - now rewrite S1.
  - now rewrite S1.
  - now rewrite S1.
Qed.
Definition asked (now : N) (ki : u16) (rq : request) (k : desk) : desk * list (event cev) :=
  match player (dk_queue k) rq with
  | (q, None) => (mkDesk (dk_board k) (dk_macros k) q (dk_alarms k) (dk_calls k), [])
  | (q, Some (i, last, more)) =>
      (mkDesk (dk_board k) (dk_macros k) q (dk_alarms k ++ leads_to cf now ki i last more) (dk_calls k), at_once i)
  end.
Lemma extend_nil kes e : ke_extend (E := cev) [] kes = Ok e -> e = kes.
Proof.
  unfold ke_extend. intros H. assert (G : forall l a b : key_events cev, push_all_cap MAX_KEY_EVENTS a l = Ok b -> b = a ++ l).
  { clear. induction l as [|x l IH]; intros a b H; cbn in H; [injection H as <-; now rewrite app_nil_r|].
    unfold push_all_cap in *. cbn [fold_res] in H. inv_bind H. apply push_cap_ok in E as (-> & _). apply IH in H. rewrite H. now rewrite <- app_assoc. }
  apply G in H. exact H.
Qed.
Lemma context_step now k p ki e m m2 : mstate now k p m -> event_in_range cf (EvKey ki (CeAutomation e)) ->
  (few = true -> (length (dk_alarms (fst (asked now ki (request_of cf (EvKey ki (CeAutomation e))) k))) <= 2)%nat) ->
  update_context conf m (EvKey ki (CeAutomation e)) = Ok m2 ->
  mstate now (fst (asked now ki (request_of cf (EvKey ki (CeAutomation e))) k)) (p ++ snd (asked now ki (request_of cf (EvKey ki (CeAutomation e))) k)) m2 /\ mframe m m2.
Proof.
  intros H Hr Hlen E. unfold update_context in E. inv_bind E. destruct a as [c kes]. cbn [kc_sys cconf composite sys_ctx_handle_event] in E0.
  destruct (ms_queue _ _ _ _ H) as (l & Hq & Ht). pose proof (ms_config _ _ _ _ H) as Hcf.
  destruct (automation_plays (cx_automation (km_ctx m)) l (EvKey ki (CeAutomation e)) Hq) as (c' & l' & kes' & x & Ea & Hq' & Hc' & Hpl & Hk); [now rewrite Hcf|].
  rewrite Hcf in *. rewrite Ht in Hpl.
  unfold cctx_handle_event in E0. rewrite Ea in E0. cbn [bind] in E0. inv_bind E0. apply extend_nil in E1. subst a.
  unfold step_caps_word, step_chorded, step_layered, step_sticky in E0. cbn [try_event as_caps_word as_chorded as_layered as_sticky bind ke_extend push_all_cap fold_res] in E0. injection E0 as <- <-.
  unfold schedule_all in E. inv_bind E. injection E as <-. cbn [km_sched set_ctx] in E0.
  destruct (sched_all_split _ _ _ E0 (ms_sorted _ _ _ _ H)) as (A1 & A2 & A3 & A4).
  split; [|unfold mframe; auto]. unfold asked in *. rewrite Hpl in *. cbn [event_key] in Hk.
  pose proof (ms_pending _ _ _ _ H) as Mp. pose proof (ms_counter _ _ _ _ H) as Mc. pose proof (ms_alarms _ _ _ _ H) as Ma.
  destruct H, x as [[[i last] more]|]; cbn [fst snd].
  - destruct (effect_split (sc_counter (km_sched m)) _ ki i last more eq_refl) as (B1 & B2). rewrite Hk, B1 in A1. rewrite Hk, B2 in A3.
    constructor; cbn; try assumption.
    + exists l'. split; [exact Hq'|reflexivity].
    + rewrite A1, Mp, map_app. reflexivity.
    + rewrite A2. exact Mc.
    + rewrite A3, map_app, Ma, Mc. reflexivity.
    + intros Hf. split; [exact (Hlen Hf)|]. apply (sched_all_few _ Hf _ _ _ _ E0); [apply ms_few0, Hf|rewrite Hk, B2, Mc; reflexivity|exact (Hlen Hf)].
  - rewrite Hk in A1, A3. cbn in A1, A3. rewrite app_nil_r in A1, A3. constructor; cbn; try assumption.
    + exists l'. split; [exact Hq'|reflexivity].
    + rewrite app_nil_r, A1, Mp. reflexivity.
    + rewrite A2. exact Mc.
    + rewrite A3. exact Ma.
    + intros Hf. split; [exact (Hlen Hf)|]. rewrite <- (app_nil_r (dk_alarms k)). apply (sched_all_few _ Hf _ _ _ _ E0); [apply ms_few0, Hf|rewrite Hk; reflexivity|rewrite app_nil_r; exact (Hlen Hf)].
Qed.
Lemma context_input now k p ie m m2 : mstate now k p m -> update_context conf m (EvInput ie) = Ok m2 -> mstate now k p m2 /\ mframe m m2
  /\ km_pressed m2 = km_pressed m /\ step_chorded (cx_chorded (km_ctx m)) (EvInput ie) = Ok (cx_chorded (km_ctx m2)).
Proof.
  intros H E. unfold update_context in E. cbn [kc_sys cconf composite sys_ctx_handle_event] in E. rewrite calm_input in E by apply H.
  destruct (step_chorded (cx_chorded (km_ctx m)) (EvInput ie)) as [h| |] eqn:Eh; try discriminate. cbn [bind] in E.
  unfold schedule_all, sched_all in E. cbn [fold_res bind] in E. injection E as <-.
  split; [|split; [unfold mframe; auto|auto]]. destruct H. constructor; try assumption.
Qed.
Lemma input_inv f ie m m' : exec conf f (JProcessInput ie) m = Ok m' -> km_pending m = None ->
  exists f' m1 m2 m3, update_pressed conf m (EvInput ie) = Ok m1 /\ update_context conf m1 (EvInput ie) = Ok m2
    /\ step_input_dispatch conf (exec conf f') ie m2 = Ok m3 /\ exec conf f' JHandlePending m3 = Ok m'.
Proof.
  intros E Hp. destruct f as [|f]; [discriminate|]. change (exec conf (S f) (JProcessInput ie) m) with (step_process_input conf (exec conf f) ie m) in E.
  unfold step_process_input in E. rewrite Hp in E. inv_bind E. inv_bind E0. inv_bind E0. exists f, a0, a1, a. auto.
Qed.
Lemma virtual_input now k ie i f m m' : mstate now k [] m -> at_once i = [EvInput ie] ->
  exec conf f (JProcessInput ie) m = Ok m' -> mstate now (with_board k (performs i (dk_board k))) [] m' /\ mframe m m'.
Proof.
  intros H Hi E. destruct (input_inv _ _ _ _ E (ms_none _ _ _ _ H)) as (f' & m1 & m2 & m3 & E1 & E2 & E3 & E4).
  destruct (pressed_step _ _ _ _ _ _ H E1) as (H1 & F1 & _). rewrite reacts_none in H1 by (intros j X; try discriminate X; injection X as ->; destruct i; discriminate Hi). cbn [app] in H1.
  destruct (context_input _ _ _ _ _ _ H1 E2) as (H2 & F2 & _).
  assert (Push : forall ko, ie = VirtualKeyPress ko -> performs i (dk_board k) = set_down (dk_board k) (bd_down (dk_board k) ++ [inr ko]) ->
    mstate now (with_board k (performs i (dk_board k))) [] m' /\ mframe m m').
  { intros ko -> ->. cbn [step_input_dispatch] in E3. inv_bind E3. injection E3 as <-. apply push_cap_ok in E0 as (-> & _).
    assert (H3 : mstate now (with_board k (set_down (dk_board k) (bd_down (dk_board k) ++ [inr ko]))) [] (set_pressed m2 (km_pressed m2 ++ [PiVirtual ko]))).
    { destruct H2. constructor; cbn; try assumption.
      - apply Forall2_app; [exact ms_held0|]. constructor; [|constructor]. left. split; [reflexivity|discriminate].
      - unfold shape. cbn. rewrite map_app, keys_app. cbn. rewrite app_nil_r. exact ms_nodup0.
      - intros j a Hj. destruct (ms_macros0 j a Hj) as (A & B & C). split; [exact A|]. split; [|exact C]. apply in_or_app. now left. }
    rewrite (drain_none _ _ _ _ _ H3 E4). split; [exact H3|]. eapply mframe_trans; [exact F1|]. eapply mframe_trans; [exact F2|]. unfold mframe; auto. }
  destruct i as [|ko|ko|ko|t]; try discriminate Hi; injection Hi as <-; [now apply (Push ko)| |now apply (Push ko)].
  clear Push. cbn [step_input_dispatch] in E3. injection E3 as <-. cbn [performs].
  assert (H3 : mstate now (with_board k (set_down (dk_board k) (remove_first (this_virtual ko) (bd_down (dk_board k))))) []
     (set_pressed m2 (remove_first (fun pi => match pi with PiVirtual ko' => ko_eqb ko ko' | PiKey _ _ _ => false end) (km_pressed m2)))).
  { destruct H2. constructor; cbn; try assumption.
    - apply mheld_remove_virtual. exact ms_held0.
    - unfold shape. cbn. rewrite shape_remove_virtual, keys_virtual. exact ms_nodup0.
    - intros j a Hj. destruct (ms_macros0 j a Hj) as (A & B & C). split; [exact A|]. split; [|exact C].
      clear -B. induction (bd_down (dk_board k)) as [|x l IH]; [exact B|]. cbn. destruct B as [->|B]; [left; reflexivity|]. destruct (this_virtual ko x); [exact B|right; auto]. }
  rewrite (drain_none _ _ _ _ _ H3 E4). split; [exact H3|]. eapply mframe_trans; [exact F1|]. eapply mframe_trans; [exact F2|]. unfold mframe; auto.
Qed.
Lemma with_board_same k : with_board k (dk_board k) = k. Proof. destruct k; reflexivity. Qed.
(** Draining what one thing leads to. *)
Lemma drain_virtual now k i f m m' : mstate now k (at_once i) m -> exec conf f JHandlePending m = Ok m' ->
  mstate now (with_board k (performs i (dk_board k))) [] m' /\ mframe m m'.
Proof.
  intros H E. assert (Hi : at_once i = [] /\ performs i (dk_board k) = dk_board k \/ exists ie, at_once i = [EvInput ie] /\ forall j, ie <> Release j) by (destruct i; cbn; auto; right; eexists; split; reflexivity || discriminate).
  destruct Hi as [(Hi & ->)|(ie & Hi & Hn)]; rewrite Hi in H.
  - rewrite (drain_none _ _ _ _ _ H E), with_board_same. split; [exact H|unfold mframe; auto].
  - destruct (dequeue_inv _ _ _ _ _ _ _ H E) as (f1 & m0 & m1 & H0 & F0 & E1 & E2).
    destruct (handle_inv _ _ _ _ E1 (ms_none _ _ _ _ H0)) as (f2 & m2 & m3 & A1 & A2 & A3). cbn [run_callback] in A1.
    destruct (pressed_step _ _ _ _ _ _ H0 A1) as (H1 & F1 & _). rewrite reacts_none in H1 by (intros j X; congruence). cbn [app] in H1.
    destruct (context_input _ _ _ _ _ _ H1 A2) as (H2 & F2 & _).
    destruct (virtual_input _ _ _ _ _ _ _ H2 Hi A3) as (H3 & F3). rewrite (drain_none _ _ _ _ _ H3 E2).
    split; [exact H3|]. eapply mframe_trans; [exact F0|]. eapply mframe_trans; [exact F1|]. eapply mframe_trans; [exact F2|exact F3].
Qed.
Lemma asked_ask now ki rq k : (exists i, snd (asked now ki rq k) = at_once i /\ with_board (fst (asked now ki rq k)) (performs i (dk_board (fst (asked now ki rq k)))) = ask cf now ki rq k).
Proof.
  unfold asked, ask. destruct (player (dk_queue k) rq) as [q [[[i last] more]|]]; cbn.
  - exists i. auto.
  - exists InNoOp. auto.
Qed.
Lemma asked_alarms now ki rq k : dk_alarms (fst (asked now ki rq k)) = dk_alarms (ask cf now ki rq k).
Proof. unfold asked, ask. destruct (player (dk_queue k) rq) as (q & [[[i last] more]|]); reflexivity. Qed.
Lemma drain_ask now k ki e f m m' : mstate now k [EvKey ki (CeAutomation e)] m -> event_in_range cf (EvKey ki (CeAutomation e)) -> e <> AuExecutionFinished ->
  (few = true -> (length (dk_alarms (ask cf now ki (request_of cf (EvKey ki (CeAutomation e))) k)) <= 2)%nat) ->
  exec conf f JHandlePending m = Ok m' -> mstate now (ask cf now ki (request_of cf (EvKey ki (CeAutomation e))) k) [] m' /\ mframe m m'.
Proof.
  intros H Hr He Hlen E. destruct (dequeue_inv _ _ _ _ _ _ _ H E) as (f1 & m0 & m1 & H0 & F0 & E1 & E2).
  destruct (handle_inv _ _ _ _ E1 (ms_none _ _ _ _ H0)) as (f2 & m2 & m3 & A1 & A2 & ->). cbn [run_callback] in A1.
  destruct (pressed_step _ _ _ _ _ _ H0 A1) as (H1 & F1 & _). rewrite reacts_none in H1 by (intros j X; congruence). cbn [app] in H1.
  rewrite <- asked_alarms in Hlen.
  destruct (context_step _ _ _ _ _ _ _ H1 Hr Hlen A2) as (H2 & F2). cbn [app] in H2.
  destruct (asked_ask now ki (request_of cf (EvKey ki (CeAutomation e))) k) as (i & Es & Eb). rewrite Es in H2.
  destruct (drain_virtual _ _ _ _ _ _ H2 E2) as (H3 & F3). rewrite Eb in H3. split; [exact H3|].
  eapply mframe_trans; [exact F0|]. eapply mframe_trans; [exact F1|]. eapply mframe_trans; [exact F2|exact F3].
Qed.
Lemma find_macro M i j a : find (fun p : N * automation_key => fst p =? i) M = Some (j, a) -> In (i, a) M /\ j = i.
Proof. intros H. apply find_some in H as (H & E). cbn in E. apply N.eqb_eq in E. now subst j. Qed.
Lemma drain_done now k ki f m m' : mstate now k [EvKey ki (CeAutomation AuExecutionFinished)] m ->
  (few = true -> (length (dk_alarms (done cf now ki k)) <= 2)%nat) ->
  exec conf f JHandlePending m = Ok m' -> mstate now (done cf now ki k) [] m' /\ mframe m m'.
Proof.
  intros H Hlen E. destruct (dequeue_inv _ _ _ _ _ _ _ H E) as (f1 & m0 & m1 & H0 & F0 & E1 & E2).
  destruct (handle_inv _ _ _ _ E1 (ms_none _ _ _ _ H0)) as (f2 & m2 & m3 & A1 & A2 & ->). cbn [run_callback] in A1.
  destruct (pressed_step _ _ _ _ _ _ H0 A1) as (H1 & F1 & _). cbn [app] in H1.
  destruct (context_step _ _ _ ki AuExecutionFinished _ _ H1 Logic.I (fun Hf => proj1 (ms_few _ _ _ _ H1 Hf)) A2) as (H2 & F2). cbn [request_of] in H2. unfold asked in H2. cbn [player fst snd] in H2. rewrite app_nil_r in H2.
  assert (F : mframe m m3) by (eapply mframe_trans; [exact F0|]; eapply mframe_trans; [exact F1|exact F2]).
  assert (Ek : mkDesk (dk_board k) (dk_macros k) (dk_queue k) (dk_alarms k) (dk_calls k) = k) by (destruct k; reflexivity). rewrite Ek in H2.
  unfold done in *. destruct (find (fun p => fst p =? ki) (dk_macros k)) as [[j a]|] eqn:Ef.
  - destruct (find_macro _ _ _ _ Ef) as (Hin & ->). destruct (ms_macros _ _ _ _ H0 _ _ Hin) as (_ & Hd & _ & Hr & _).
    rewrite (reacts_key _ _ ki Nothing) in H2; [|apply H0|exact Hd|now right]. cbn [reacts] in H2. rewrite N.eqb_refl, Ef in H2.
    destruct (drain_ask _ _ _ _ _ _ _ H2 Hr ltac:(discriminate) Hlen E2) as (H3 & F3). split; [exact H3|]. eapply mframe_trans; [exact F|exact F3].
  - assert (X : flat_map (fun x => reacts (dk_macros k) x (EvKey ki (CeAutomation AuExecutionFinished))) (bd_down (dk_board k)) = []).
    { clear -Ef. induction (bd_down (dk_board k)) as [|[[j x]|ko] l IH]; cbn; [reflexivity| |exact IH]. rewrite IH, app_nil_r. destruct (N.eqb_spec ki j) as [<-|]; [|reflexivity]. now rewrite Ef. }
    rewrite X in H2. rewrite (drain_none _ _ _ _ _ H2 E2). auto.
Qed.
Definition with_calls (k : desk) (cs : list callback) : desk := mkDesk (dk_board k) (dk_macros k) (dk_queue k) (dk_alarms k) (dk_calls k ++ cs).
Lemma drain_layer now k i e f m m' : mstate now k [EvKey i (CeLayered e)] m -> layer_event_in n e ->
  exec conf f JHandlePending m = Ok m' -> mstate now (with_board k (switch n (Some e) (dk_board k))) [] m' /\ mframe m m'.
Proof.
  intros H He E. destruct (dequeue_inv _ _ _ _ _ _ _ H E) as (f1 & m0 & m1 & H0 & F0 & E1 & E2).
  destruct (handle_inv _ _ _ _ E1 (ms_none _ _ _ _ H0)) as (f2 & m2 & m3 & A1 & A2 & ->). cbn [run_callback] in A1.
  destruct (pressed_step _ _ _ _ _ _ H0 A1) as (H1 & F1 & _). rewrite reacts_none in H1 by (intros j X; congruence). cbn [app] in H1.
  unfold update_context in A2. cbn [kc_sys cconf composite sys_ctx_handle_event] in A2.
  destruct (layer_event_ctx n _ _ i e (ms_calm _ _ _ _ H1) (ms_layers _ _ _ _ H1) He) as (l & El & Hc' & Hly'). rewrite El in A2.
  cbn [bind schedule_all sched_all fold_res] in A2. injection A2 as <-.
  assert (H2 : mstate now (with_board k (switch n (Some e) (dk_board k))) [] (set_sched (set_ctx m2 (with_layered (km_ctx m2) l)) (km_sched (set_ctx m2 (with_layered (km_ctx m2) l))))).
  { destruct H1. constructor; cbn; try assumption. }
  rewrite (drain_none _ _ _ _ _ H2 E2). split; [exact H2|]. eapply mframe_trans; [exact F0|]. eapply mframe_trans; [exact F1|]. unfold mframe; auto.
Qed.
Lemma keymap_event now k p ke f m m' : mstate now k p m -> exec conf f (JHandleEvent (EvKeymap ke)) m = Ok m' ->
  mstate now (with_calls k (match ke with KmCallback cb => [cb] | _ => [] end)) p m' /\ mframe m m'.
Proof.
  intros H E1. destruct (handle_inv _ _ _ _ E1 (ms_none _ _ _ _ H)) as (f2 & m2 & m3 & A1 & A2 & ->).
  assert (H0 : mstate now (with_calls k (match ke with KmCallback cb => [cb] | _ => [] end)) p (run_callback m (EvKeymap ke)) /\ mframe m (run_callback m (EvKeymap ke))).
  { destruct ke as [cb|i ko]; cbn [run_callback].
    - rewrite (ms_callbacks _ _ _ _ H). pose proof (ms_calls _ _ _ _ H) as Mc. destruct (lm_get L cb) as [g|] eqn:Eg; (split; [|unfold mframe; auto]); destruct H; constructor; cbn; try assumption; rewrite filter_map_app; cbn; rewrite Eg, Mc; [reflexivity|now rewrite app_nil_r].
    - split; [|unfold mframe; auto]. destruct H; constructor; cbn; try assumption. now rewrite app_nil_r. }
  destruct H0 as (H0 & F0). destruct (pressed_step _ _ _ _ _ _ H0 A1) as (H1 & F1 & _). rewrite reacts_none in H1 by (intros j X; congruence). rewrite app_nil_r in H1.
  unfold update_context in A2. cbn [kc_sys cconf composite sys_ctx_handle_event] in A2.
  assert (Ec : cctx_handle_event (km_ctx m2) (EvKeymap ke) = Ok (km_ctx m2, [])) by (destruct ke; [apply callback_ctx|apply calm_resolved]; apply H1).
  rewrite Ec in A2. cbn [bind schedule_all sched_all fold_res] in A2. injection A2 as <-.
  split; [|eapply mframe_trans; [exact F0|]; eapply mframe_trans; [exact F1|]; unfold mframe; auto]. destruct H1. constructor; cbn; assumption.
Qed.
Lemma drain_callback now k cb f m m' : mstate now k [EvKeymap (KmCallback cb)] m ->
  exec conf f JHandlePending m = Ok m' -> mstate now (with_calls k [cb]) [] m' /\ mframe m m'.
Proof.
  intros H E. destruct (dequeue_inv _ _ _ _ _ _ _ H E) as (f1 & m0 & m1 & H0 & F0 & E1 & E2).
  destruct (keymap_event _ _ _ _ _ _ _ H0 E1) as (H1 & F1). rewrite (drain_none _ _ _ _ _ H1 E2). split; [exact H1|eapply mframe_trans; eassumption].
Qed.

(** ** A press *)
Definition press_evs (i : u16) (m : meaning) : list (event cev) :=
  match m with Switches lm => [EvKey i (CeLayered (press_effect lm))] | Calls cb => [EvKeymap (KmCallback cb)] | _ => [] end.
Definition pushed (k : desk) (i : u16) (x : meaning) : desk := with_board k (set_down (dk_board k) (bd_down (dk_board k) ++ [inl (i, x)])).
Lemma not_down now k p m i : mstate now k p m -> existsb (this_key i) (bd_down (dk_board k)) = false -> is_macro i (dk_macros k) = false.
Proof.
  intros H Hi. destruct (is_macro i (dk_macros k)) eqn:E; [|reflexivity]. unfold is_macro in E. apply existsb_exists in E as ([j a] & Hin & E). cbn in E. apply N.eqb_eq in E. subst j.
  destruct (ms_macros _ _ _ _ H _ _ Hin) as (_ & X & _). exfalso. enough (existsb (this_key i) (bd_down (dk_board k)) = true) by congruence.
  apply existsb_exists. eexists. split; [exact X|]. cbn. apply N.eqb_refl.
Qed.
Lemma push_key now k p m i r ks x : mstate now k p m -> existsb (this_key i) (bd_down (dk_board k)) = false -> held (PiKey i r ks) (inl (i, x)) ->
  mstate now (pushed k i x) p (set_pressed m (km_pressed m ++ [PiKey i r ks])).
Proof.
  intros H Hi Hx. pose proof (not_down _ _ _ _ _ H Hi) as Hm. destruct H. constructor; cbn; try assumption.
  - apply Forall2_app; [exact ms_held0|]. constructor; [|constructor]. left. split; [exact Hx|]. intros j y E. injection E as <- _. exact Hm.
  - unfold shape. cbn [pushed with_board dk_board set_down bd_down]. rewrite map_app, keys_app. cbn. apply nodup_snoc; [exact ms_nodup0|]. intros X. apply is_key_In in X. unfold shape in X. rewrite this_forget in X. congruence.
  - intros j a Hj. destruct (ms_macros0 j a Hj) as (A & B & C). split; [exact A|]. split; [|exact C]. apply in_or_app. now left.
Qed.
Lemma press_inv f i r m m' : exec conf f (JPressLoop i r) m = Ok m' -> exists f', step_press_loop conf (exec conf f') i r m = Ok m'.
Proof. destruct f as [|f]; [discriminate|]. intros E. exists f. exact E. Qed.
Lemma enqueue_step now k ev m s : mstate now k [] m -> sched_enqueue (km_sched m) ev = Ok s -> mstate now k [ev] (set_sched m s).
Proof.
  intros H E. apply sched_enqueue_ok in E as (A & B & C & _). destruct H. constructor; cbn; try assumption.
  - rewrite A, ms_pending0. reflexivity.
  - now rewrite B.
  - now rewrite C.
  - now rewrite C.
  - now rewrite C.
Qed.
Lemma layered_step now k p q lk i f m m' : mstate now k p m -> nth_error (kd_layered d) (N.to_nat q) = Some lk -> length (lk_layered lk) = n ->
  exec conf f (JPressLoop i (RLayered (LyLayered q))) m = Ok m' ->
  exists r f', acts_as lk (fun l => bd_on (dk_board k) l = true) (bd_default (dk_board k)) r /\ exec conf f' (JPressLoop i r) m = Ok m'.
Proof.
  intros H Hk Hlen E. destruct (press_inv _ _ _ _ _ E) as (f' & E'). unfold step_press_loop in E'.
  cbn [kc_sys cconf composite sys_new_pressed_key c_new_pressed_key ly_new_pressed_key] in E'. unfold index in E'. rewrite Hk in E'. cbn [bind] in E'.
  destruct (ms_layers _ _ _ _ H) as (Ln & Lo & Ld & Lr). destruct (layered_total lk (cx_layered (km_ctx m))) as (r' & Er); [congruence| |].
  { rewrite Ld, Ln. exact Lr. }
  rewrite Er in E'. cbn [bind map_pkr ke_map map] in E'. unfold schedule_all, sched_all in E'. cbn [fold_res bind] in E'. rewrite set_sched_id in E'.
  exists r', f'. split; [|exact E']. apply layered_lookup in Er. rewrite <- Ld. eapply acts_as_ext; [|exact Er]. intros l. rewrite layer_on_is_on, Lo. reflexivity.
Qed.
Lemma press_key_board h r : board_key n d h r -> forall now k i f m m', mstate now k [] m -> existsb (this_key i) (bd_down (dk_board k)) = false ->
  exec conf f (JPressLoop i r) m = Ok m' ->
  exists x, means d (bd_on (dk_board k)) (bd_default (dk_board k)) r x /\ (forall lm, x = Switches lm -> modifier_ok n lm)
    /\ mstate now (pushed k i x) (press_evs i x) m' /\ mframe m m'.
Proof.
  induction 1 as [h r ko Hk|h q lm Hm Hok|h q cb Hcb|h q lk Hk Hlen _ IHb _ IHl]; intros now k i f m m' H Hi E.
  - destruct (press_inv _ _ _ _ _ E) as (f' & E'). unfold step_press_loop in E'. cbn [kc_sys cconf composite sys_new_pressed_key] in E'.
    rewrite (plain_new d _ _ i (km_ctx m) Hk) in E'. cbn [bind schedule_all sched_all fold_res] in E'. unfold schedule_all, sched_all in E'. cbn [fold_res bind] in E'. rewrite set_sched_id in E'.
    inv_bind E'. apply push_cap_ok in E0 as (-> & _). unfold emit_resolved in E'. cbn [kc_sys cconf composite sys_key_output] in E'. rewrite (plain_output _ _ _ Hk) in E'. cbn [bind] in E'.
    assert (H1 : mstate now (pushed k i (Sends ko)) [] (set_pressed m (km_pressed m ++ [PiKey i r (ks_plain r)]))) by (apply push_key; [exact H|exact Hi|cbn; auto]).
    destruct (keymap_event _ _ _ _ _ _ _ H1 E') as (H2 & F2). exists (Sends ko). split; [now constructor|]. split; [discriminate|]. split; [|exact F2].
    replace (pushed k i (Sends ko)) with (with_calls (pushed k i (Sends ko)) []) by (unfold with_calls; cbn; now rewrite app_nil_r). exact H2.
  - destruct (press_inv _ _ _ _ _ E) as (f' & E'). unfold step_press_loop in E'. cbn [kc_sys cconf composite sys_new_pressed_key c_new_pressed_key ly_new_pressed_key] in E'.
    unfold index in E'. rewrite Hm in E'. cbn [bind] in E'.
    assert (Ep : lm_new_pressed_key lm = (BhRegular, press_effect lm)) by (destruct lm; cbn in *; try contradiction; reflexivity). rewrite Ep in E'. cbn [bind] in E'.
    unfold schedule_all, sched_all in E'. cbn [ke_map map map_sched immediate se_schedule se_event map_event fold_res sched_event_in] in E'. inv_bind E'. inv_bind E0. injection E0 as <-. inv_bind E1. injection E1 as <-.
    change (se_event (map_sched CeLayered (immediate (EvKey i (press_effect lm))))) with (EvKey i (CeLayered (press_effect lm))) in E0.
    pose proof (enqueue_step _ _ _ _ _ H E0) as H1. cbn [map_pkr] in E'. inv_bind E'. apply push_cap_ok in E1 as (-> & _).
    unfold emit_resolved in E'. cbn [kc_sys cconf composite sys_key_output c_key_output bind] in E'. injection E' as <-.
    exists (Switches lm). split; [now constructor|]. split; [intros lm' X; injection X as <-; exact Hok|]. split; [|unfold mframe; auto].
    apply (push_key now k _ (set_sched m a)); [exact H1|exact Hi|]. cbn. split; [reflexivity|]. exists q. auto.
  - destruct (press_inv _ _ _ _ _ E) as (f' & E'). unfold step_press_loop in E'. cbn [kc_sys cconf composite sys_new_pressed_key c_new_pressed_key] in E'.
    unfold callback_new_pressed_key, index in E'. rewrite Hcb in E'. cbn [bind] in E'.
    unfold schedule_all, sched_all in E'. cbn [immediate se_schedule se_event fold_res sched_event_in] in E'. inv_bind E'. inv_bind E0. injection E0 as <-. inv_bind E1. injection E1 as <-.
    change (se_event (immediate (EvKeymap (KmCallback cb)))) with (@EvKeymap cev (KmCallback cb)) in E0.
    pose proof (enqueue_step _ _ _ _ _ H E0) as H1. inv_bind E'. apply push_cap_ok in E1 as (-> & _). injection E' as <-.
    exists (Calls cb). split; [now constructor|]. split; [discriminate|]. split; [|unfold mframe; auto].
    apply (push_key now k _ (set_sched m a)); [exact H1|exact Hi|]. cbn. split; [reflexivity|]. exists q. auto.
  - destruct (layered_step _ _ _ _ _ _ _ _ _ H Hk Hlen E) as (r' & f' & Ha & E').
    assert (IH : exists x, means d (bd_on (dk_board k)) (bd_default (dk_board k)) r' x /\ (forall lm, x = Switches lm -> modifier_ok n lm)
      /\ mstate now (pushed k i x) (press_evs i x) m' /\ mframe m m').
    { destruct (acts_as_entry _ _ _ _ Ha) as [->|Hin]; [eapply IHb; eassumption|eapply (IHl r' Hin); eassumption]. }
    destruct IH as (x & M & X). exists x. split; [eapply means_layered; eassumption|exact X].
Qed.
Definition macro_pushed (k : desk) (i : u16) (a : automation_key) : desk :=
  mkDesk (set_down (dk_board k) (bd_down (dk_board k) ++ [inl (i, Nothing)])) (dk_macros k ++ [(i, a)]) (dk_queue k) (dk_alarms k) (dk_calls k).
Lemma find_app_macro M i a : is_macro i M = false -> find (fun p : N * automation_key => fst p =? i) (M ++ [(i, a)]) = Some (i, a).
Proof. intros H. apply is_macro_find in H. induction M as [|p M IH]; cbn in *; [now rewrite N.eqb_refl|]. destruct (@fst N _ p =? i); [discriminate|auto]. Qed.
Lemma find_app_other M i j a : j <> i -> find (fun p : N * automation_key => fst p =? j) (M ++ [(i, a)]) = find (fun p : N * automation_key => fst p =? j) M.
Proof. intros H. induction M as [|p M IH]; cbn in *; [destruct (N.eqb_spec i j); [congruence|reflexivity]|]. now rewrite IH. Qed.
Lemma is_macro_app i j M a : is_macro i (M ++ [(j, a)]) = is_macro i M || (j =? i).
Proof. unfold is_macro. rewrite existsb_app. cbn. now rewrite orb_false_r. Qed.
Lemma press_macro h r : macro_board_key n d cf h r -> forall now k i f m m', mstate now k [] m -> existsb (this_key i) (bd_down (dk_board k)) = false ->
  exec conf f (JPressLoop i r) m = Ok m' ->
  mframe m m' /\
  ((exists x, means d (bd_on (dk_board k)) (bd_default (dk_board k)) r x /\ (forall lm, x = Switches lm -> modifier_ok n lm)
    /\ mstate now (pushed k i x) (press_evs i x) m')
   \/ exists a, runs d (bd_on (dk_board k)) (bd_default (dk_board k)) r a
    /\ mstate now (macro_pushed k i a) [EvKey i (CeAutomation (if exec_is_empty (ak_on_press a) then AuExecutionFinished else AuEnqueue (ak_on_press a)))] m'
    /\ exec_in_range cf (ak_on_press a)).
Proof.
  induction 1 as [h r Hk|h q a Ha R1 R2 R3|h q lk Hk Hlen _ IHb _ IHl]; intros now k i f m m' H Hi E.
  - destruct (press_key_board _ _ Hk _ _ _ _ _ _ H Hi E) as (x & M & Hx & Hs & F). split; [exact F|]. left. eauto.
  - destruct (press_inv _ _ _ _ _ E) as (f' & E'). unfold step_press_loop in E'. cbn [kc_sys cconf composite sys_new_pressed_key c_new_pressed_key] in E'.
    unfold auto_new_pressed_key, index in E'. rewrite Ha in E'. cbn [bind] in E'.
    unfold schedule_all, sched_all in E'. cbn [ke_map map map_sched immediate se_schedule se_event map_event fold_res sched_event_in] in E'. inv_bind E'. inv_bind E0. injection E0 as <-. inv_bind E1. injection E1 as <-.
    set (ev := EvKey i (CeAutomation (if exec_is_empty (ak_on_press a) then AuExecutionFinished else AuEnqueue (ak_on_press a)))).
    match type of E0 with _ = Ok ?z => change (sched_enqueue (km_sched m) ev = Ok z) in E0 end.
    pose proof (enqueue_step _ _ _ _ _ H E0) as H1. cbn [map_pkr] in E'. inv_bind E'. apply push_cap_ok in E1 as (-> & _).
    unfold emit_resolved in E'. cbn [kc_sys cconf composite sys_key_output c_key_output bind] in E'. injection E' as <-.
    split; [unfold mframe; auto|]. right. exists a. split; [now constructor|]. split; [|exact R1].
    pose proof (not_down _ _ _ _ _ H Hi) as Hm. destruct H1. constructor; cbn; try assumption.
    + apply Forall2_app.
      * assert (Hall : Forall (fun x => this_key i x = false) (bd_down (dk_board k))) by (apply Forall_forall; intros x Hx; destruct (this_key i x) eqn:Ex; [|reflexivity]; enough (existsb (this_key i) (bd_down (dk_board k)) = true) by congruence; apply existsb_exists; eauto).
        clear -ms_held0 Hall Hm. cbn in ms_held0. induction ms_held0 as [|pi x pis l Hx _ IH]; [constructor|]. inversion_clear Hall as [|? ? Hix Hall']. constructor; [|auto].
        destruct Hx as [(Hx & Hn)|(j & q & b & -> & -> & Hq & Hf)].
        -- left. split; [exact Hx|]. intros j y ->. specialize (Hn j y eq_refl). cbn in Hix. rewrite is_macro_app, Hn. exact Hix.
        -- right. exists j, q, b. split; [reflexivity|]. split; [reflexivity|]. split; [exact Hq|]. cbn in Hix. apply N.eqb_neq in Hix. rewrite find_app_other by congruence. exact Hf.
      * constructor; [|constructor]. right. exists i, q, a. split; [reflexivity|]. split; [reflexivity|]. split; [exact Ha|]. now apply find_app_macro.
    + unfold shape. cbn [macro_pushed dk_board set_down bd_down]. rewrite map_app, keys_app. cbn. apply nodup_snoc; [exact ms_nodup0|]. intros X. apply is_key_In in X. unfold shape in X. rewrite this_forget in X. congruence.
    + intros j b Hj. apply in_app_or in Hj as [Hj|[Hj|[]]].
      * destruct (ms_macros0 j b Hj) as (A & B & C). assert (j <> i). { intros ->. apply is_macro_find in Hm. congruence. }
        rewrite find_app_other by assumption. split; [exact A|]. split; [|exact C]. apply in_or_app. now left.
      * injection Hj as <- <-. split; [now apply find_app_macro|]. split; [apply in_or_app; right; now left|auto].
  - destruct (layered_step _ _ _ _ _ _ _ _ _ H Hk Hlen E) as (r' & f' & Ha & E').
    assert (IH : mframe m m' /\
      ((exists x, means d (bd_on (dk_board k)) (bd_default (dk_board k)) r' x /\ (forall lm, x = Switches lm -> modifier_ok n lm)
        /\ mstate now (pushed k i x) (press_evs i x) m')
       \/ exists a, runs d (bd_on (dk_board k)) (bd_default (dk_board k)) r' a
        /\ mstate now (macro_pushed k i a) [EvKey i (CeAutomation (if exec_is_empty (ak_on_press a) then AuExecutionFinished else AuEnqueue (ak_on_press a)))] m'
        /\ exec_in_range cf (ak_on_press a))).
    { destruct (acts_as_entry _ _ _ _ Ha) as [->|Hin]; [eapply IHb; eassumption|eapply (IHl r' Hin); eassumption]. }
    destruct IH as (F & [(x & M & X)|(a & M & X)]); (split; [exact F|]).
    + left. exists x. split; [eapply means_layered; eassumption|exact X].
    + right. exists a. split; [eapply runs_layered; eassumption|exact X].
Qed.

(** ** One input *)
Lemma desk_eta k : mkDesk (dk_board k) (dk_macros k) (dk_queue k) (dk_alarms k) (dk_calls k ++ []) = k.
Proof. rewrite app_nil_r. destruct k; reflexivity. Qed.
Lemma not_this i l : existsb (this_key i) l = false -> remove_first (this_key i) l = l.
Proof. induction l as [|x l IH]; cbn; [reflexivity|]. intros H. apply orb_false_iff in H as (-> & H). now rewrite IH. Qed.
Lemma in_remove (P : u16 * meaning + key_output -> bool) x l : In x l -> P x = false -> In x (remove_first P l).
Proof. induction l as [|y l IH]; [intros []|]. intros [->|Hin] Hp; cbn; [rewrite Hp; now left|]. destruct (P y); [exact Hin|right; auto]. Qed.
Lemma remove_gone i l : NoDup (keys_down (map forget l)) -> existsb (this_key i) (remove_first (this_key i) l) = false.
Proof.
  induction l as [|[[j m]|ko] l IH]; intros H; cbn [remove_first this_key]; [reflexivity| |].
  - cbn [map forget] in H. rewrite keys_key in H. inversion H as [|? ? Hni Hnd]; subst. destruct (N.eqb_spec i j) as [->|Hne].
    + destruct (existsb (this_key j) l) eqn:E; [|reflexivity]. exfalso. apply Hni, is_key_In. now rewrite this_forget.
    + cbn. destruct (N.eqb_spec i j); [contradiction|]. cbn. auto.
  - cbn. apply IH. exact H.
Qed.
Lemma find_filter_other M i j : j <> i -> find (fun p : N * automation_key => fst p =? j) (filter (fun p => negb (fst p =? i)) M) = find (fun p : N * automation_key => fst p =? j) M.
Proof.
  intros H. induction M as [|p M IH]; cbn in *; [reflexivity|]. destruct (N.eqb_spec (@fst N _ p) i) as [E|E]; cbn.
  - rewrite IH. destruct (N.eqb_spec (@fst N _ p) j); [congruence|reflexivity].
  - now rewrite IH.
Qed.
Lemma removed_key now k p m i : mstate now k p m -> (forall a, ~ In (i, a) (dk_macros k)) ->
  mstate now (with_board k (set_down (dk_board k) (remove_first (this_key i) (bd_down (dk_board k))))) p (set_pressed m (remove_first (pi_has_index i) (km_pressed m))).
Proof.
  intros H Hi. destruct H. constructor; cbn; try assumption.
  - now apply mheld_remove.
  - unfold shape. cbn. rewrite shape_remove. now apply keys_remove.
  - intros j a Hj. destruct (ms_macros0 j a Hj) as (A & B & C). split; [exact A|]. split; [|exact C]. apply in_remove; [exact B|]. cbn. apply N.eqb_neq. intros ->. eapply Hi; exact Hj.
Qed.
Lemma removed_macro now k p m i : mstate now k p m ->
  mstate now (mkDesk (set_down (dk_board k) (remove_first (this_key i) (bd_down (dk_board k)))) (filter (fun p => negb (fst p =? i)) (dk_macros k)) (dk_queue k) (dk_alarms k) (dk_calls k))
    p (set_pressed m (remove_first (pi_has_index i) (km_pressed m))).
Proof.
  intros H. destruct H. constructor; cbn; try assumption.
  - pose proof (remove_gone i _ ms_nodup0) as Hg. apply (mheld_remove _ _ _ i) in ms_held0.
    induction ms_held0 as [|pi x pis l Hx _ IH]; [constructor|]. cbn in Hg. apply orb_false_iff in Hg as (Hix & Hg). constructor; [|auto].
    destruct Hx as [(Hx & Hn)|(j & q & b & -> & -> & Hq & Hf)].
    + left. split; [exact Hx|]. intros j y ->. specialize (Hn j y eq_refl). cbn in Hix. apply N.eqb_neq in Hix. apply is_macro_find. rewrite find_filter_other by congruence. now apply is_macro_find.
    + right. exists j, q, b. split; [reflexivity|]. split; [reflexivity|]. split; [exact Hq|]. cbn in Hix. apply N.eqb_neq in Hix. rewrite find_filter_other by congruence. exact Hf.
  - unfold shape. cbn. rewrite shape_remove. now apply keys_remove.
  - intros j a Hj. apply filter_In in Hj as (Hj & E). cbn in E. apply negb_true_iff, N.eqb_neq in E. destruct (ms_macros0 j a Hj) as (A & B & C).
    rewrite find_filter_other by exact E. split; [exact A|]. split; [|exact C]. apply in_remove; [exact B|]. cbn. apply N.eqb_neq. congruence.
Qed.
Hypothesis Hrefs : exists height, Forall (macro_board_key n d cf height) refs.
Lemma di_board now k x b' : (forall i a, x = Release i -> ~ In (i, a) (dk_macros k)) -> board_step n refs d (dk_board k) x b' -> step_calls refs d (dk_board k) x [] ->
  desk_input n refs d cf now k x (with_board k b').
Proof. intros A B C. pose proof (di_key n refs d cf now k x b' [] A B C) as X. rewrite app_nil_r in X. exact X. Qed.
Lemma input_macro now k x f m m' : mstate now k [] m ->
  (few = true -> forall k', desk_input n refs d cf now k x k' -> (length (dk_alarms k') <= 2)%nat) -> exec conf f (JProcessInput x) m = Ok m' ->
  exists k', desk_input n refs d cf now k x k' /\ mstate now k' [] m' /\ mframe m m'.
Proof.
  intros H Hlen E.
  assert (V : forall i, at_once i = [EvInput x] -> (forall j, x <> Press j) -> (forall j, x <> Release j) -> board_step n refs d (dk_board k) x (performs i (dk_board k)) ->
    exists k', desk_input n refs d cf now k x k' /\ mstate now k' [] m' /\ mframe m m').
  { intros i Hi N1 N2 Hb. destruct (virtual_input _ _ _ i _ _ _ H Hi E) as (H3 & F3). exists (with_board k (performs i (dk_board k))). split; [|split; [exact H3|exact F3]].
    apply di_board; [intros j a X; now elim (N2 j)|exact Hb|now apply sc_none]. }
  destruct (input_inv _ _ _ _ E (ms_none _ _ _ _ H)) as (f' & m1 & m2 & m3 & E1 & E2 & E3 & E4).
  destruct (pressed_step _ _ _ _ _ _ H E1) as (H1 & F1 & _). cbn [app] in H1.
  destruct (context_input _ _ _ _ _ _ H1 E2) as (H2 & F2 & _).
  assert (F12 : mframe m m2) by (eapply mframe_trans; eassumption). clear E E1 E2 H1 F1 F2 m1.
  destruct x as [i|i|ko|ko]; [| |apply (V (InPress ko)); [reflexivity|discriminate|discriminate|apply press_virtual]|apply (V (InRelease ko)); [reflexivity|discriminate|discriminate|apply release_virtual]]; clear V; cbn [step_input_dispatch] in E3.
  - rewrite reacts_none in H2 by (intros j X; discriminate X).
    unfold has_pressed in E3. rewrite (mheld_has _ _ _ i (ms_held _ _ _ _ H2)) in E3.
    destruct (existsb (this_key i) (bd_down (dk_board k))) eqn:Ei.
    + injection E3 as <-. rewrite (drain_none _ _ _ _ _ H2 E4). exists k. split; [|auto].
      pose proof (di_key n refs d cf now k (Press i) (dk_board k) []) as X. rewrite desk_eta in X. apply X; [discriminate|now apply press_again|now apply sc_again].
    + inv_bind E3. unfold index in E. cbn [kc_refs cconf] in E. destruct (nth_error refs (N.to_nat i)) as [r|] eqn:Er; [|discriminate]. injection E as <-.
      destruct Hrefs as (height & Hr). assert (Hk : macro_board_key n d cf height r) by (eapply Forall_forall; [exact Hr|eapply nth_error_In; exact Er]).
      destruct (press_macro _ _ Hk _ _ _ _ _ _ H2 Ei E3) as (F3 & [(x & M & Hx & H3)|(a & M & H3 & Ha)]).
      * assert (Step : forall b' cs, b' = switch n (at_press x) (dk_board (pushed k i x)) -> cs = match x with Calls cb => [cb] | _ => [] end ->
          desk_input n refs d cf now k (Press i) (mkDesk b' (dk_macros k) (dk_queue k) (dk_alarms k) (dk_calls k ++ cs))).
        { intros b' cs -> ->. apply di_key; [discriminate|eapply press_key; eassumption|].
          destruct x as [ko|lm|cb|]; try (eapply sc_key; try eassumption; discriminate); eapply sc_call; eassumption. }
        assert (StepB : forall b', b' = switch n (at_press x) (dk_board (pushed k i x)) -> (forall cb, x <> Calls cb) -> desk_input n refs d cf now k (Press i) (with_board k b')).
        { intros b' Eb Ex. pose proof (Step b' [] Eb) as X. rewrite app_nil_r in X. apply X. destruct x; try reflexivity. now elim (Ex cb). }
        destruct x as [ko|lm|cb|]; cbn [press_evs] in H3.
        -- rewrite (drain_none _ _ _ _ _ H3 E4). exists (pushed k i (Sends ko)). split; [|split; [exact H3|eapply mframe_trans; eassumption]].
           apply StepB; reflexivity || discriminate.
        -- destruct (drain_layer _ _ _ _ _ _ _ H3 (proj1 (modifier_events n lm (Hx lm eq_refl))) E4) as (H4 & F4). eexists. split; [|split; [exact H4|eapply mframe_trans; [exact F12|eapply mframe_trans; eassumption]]].
           apply StepB; reflexivity || discriminate.
        -- destruct (drain_callback _ _ _ _ _ _ H3 E4) as (H4 & F4). eexists. split; [|split; [exact H4|eapply mframe_trans; [exact F12|eapply mframe_trans; eassumption]]]. now apply Step.
        -- rewrite (drain_none _ _ _ _ _ H3 E4). exists (pushed k i Nothing). split; [|split; [exact H3|eapply mframe_trans; eassumption]].
           apply StepB; reflexivity || discriminate.
      * assert (Hd : few = true -> (length (dk_alarms (macro_down cf now i a k)) <= 2)%nat) by (intros Hf; apply (Hlen Hf); eapply di_press; eassumption).
        assert (X : mstate now (macro_down cf now i a k) [] m' /\ mframe m3 m').
        { unfold macro_down in *. fold (macro_pushed k i a) in *. destruct (exec_is_empty (ak_on_press a)) eqn:Ee.
          - rewrite (macro_empty _ _ Ee) in *. eapply drain_done; eassumption.
          - pose proof (macro_nonempty _ _ Ha Ee) as Hn. destruct (macro_of cf (ak_on_press a)) as [|i0 l0] eqn:Em; [congruence|].
            assert (Er' : request_of cf (EvKey i (CeAutomation (AuEnqueue (ak_on_press a)))) = RqStart (i0 :: l0)) by (cbn [request_of]; now rewrite Em).
            rewrite <- Er' in *. destruct (drain_ask _ _ _ _ _ _ _ H3 Ha ltac:(discriminate) Hd E4) as (H4 & F4). auto. }
        destruct X as (H4 & F4). exists (macro_down cf now i a k). split; [eapply di_press; eassumption|]. split; [exact H4|eapply mframe_trans; [exact F12|eapply mframe_trans; eassumption]].
  - injection E3 as <-.
    assert (F3 : forall l, mframe m (set_pressed m2 l)) by (intros l; eapply mframe_trans; [exact F12|unfold mframe; auto]).
    destruct (find (fun p => fst p =? i) (dk_macros k)) as [[j a]|] eqn:Ef.
    + destruct (find_macro _ _ _ _ Ef) as (Hin & ->). destruct (ms_macros _ _ _ _ H _ _ Hin) as (_ & Hd & _ & _ & Hr).
      rewrite (reacts_key _ _ i Nothing) in H2; [|apply H|exact Hd|now left]. cbn [reacts] in H2. rewrite N.eqb_refl, Ef in H2.
      apply (removed_macro _ _ _ _ i) in H2.
      assert (Hd' : few = true -> (length (dk_alarms (macro_up cf now i a k)) <= 2)%nat) by (intros Hf; apply (Hlen Hf); now apply di_release).
      destruct (drain_ask _ _ _ _ _ _ _ H2 Hr ltac:(discriminate) Hd' E4) as (H4 & F4).
      exists (macro_up cf now i a k). split; [now apply di_release|]. split; [exact H4|]. eapply mframe_trans; [apply F3|exact F4].
    + assert (Hno : forall a, ~ In (i, a) (dk_macros k)).
      { intros a Hin. destruct (ms_macros _ _ _ _ H _ _ Hin) as (X & _). congruence. }
      apply (removed_key _ _ _ _ i) in H2; [|exact Hno].
      destruct (existsb (this_key i) (bd_down (dk_board k))) eqn:Ei.
      * apply existsb_exists in Ei as ([[j x]|ko] & Hin & E); cbn in E; [|discriminate]. apply N.eqb_eq in E. subst j.
        rewrite (reacts_key _ _ i x) in H2; [|apply H|exact Hin|now left]. cbn [reacts] in H2. rewrite N.eqb_refl, Ef in H2.
        assert (Hle : forall e, at_release x = Some e -> layer_event_in n e).
        { intros e Ee. destruct x as [ko|lm|cb|]; try discriminate Ee. eapply (modifier_events n lm); [|exact Ee].
          pose proof (ms_held _ _ _ _ H) as Hh. clear -Hh Hin. induction Hh as [|pi y pis l Hy _ IH]; [destruct Hin|]. destruct Hin as [->|Hin]; [|auto].
          destruct Hy as [(Hy & _)|(j & q & a & _ & X & _)]; [|discriminate]. destruct pi; cbn in Hy; [|contradiction]. destruct Hy as (_ & q & _ & _ & X & _). exact X. }
        assert (X : mstate now (with_board k (switch n (at_release x) (set_down (dk_board k) (remove_first (this_key i) (bd_down (dk_board k)))))) [] m' /\ mframe m m').
        { destruct (at_release x) as [e|].
          - destruct (drain_layer _ _ _ _ _ _ _ H2 (Hle e eq_refl) E4) as (H4 & F4). split; [exact H4|eapply mframe_trans; [apply F3|exact F4]].
          - rewrite (drain_none _ _ _ _ _ H2 E4). split; [exact H2|apply F3]. }
        destruct X as (H4 & F4). eexists. split; [|split; [exact H4|exact F4]]. apply di_board; [|now apply release_key|apply sc_none; discriminate].
        intros i' a E. injection E as <-. apply Hno.
      * rewrite reacts_none in H2; [|intros j E; injection E as <-; exact Ei|discriminate]. rewrite (drain_none _ _ _ _ _ H2 E4).
        exists k. split; [|split; [|apply F3]].
        -- pose proof (di_key n refs d cf now k (Release i) (dk_board k) []) as X. rewrite desk_eta in X. apply X; [intros i' a E; injection E as <-; apply Hno|now apply release_again|apply sc_none; discriminate].
        -- rewrite not_this in H2 by exact Ei. assert (Ek : with_board k (set_down (dk_board k) (bd_down (dk_board k))) = k) by (destruct k as [[]]; reflexivity). now rewrite Ek in H2.
Qed.

(** ** The calls *)
Definition psim (now : N) (s : playing) (k : ckeymap) : Prop :=
  mstate now (pl_desk s) [] k /\ km_inq k = pl_waiting s /\ km_delay k = (if pl_busy s then 1 else 0).
Lemma mstate_same now k p m m' : mstate now k p m -> km_pressed m' = km_pressed m -> km_sched m' = km_sched m -> km_pending m' = km_pending m ->
  km_callbacks m' = km_callbacks m -> km_calls m' = km_calls m ->
  cx_automation (km_ctx m') = cx_automation (km_ctx m) -> cx_layered (km_ctx m') = cx_layered (km_ctx m) -> cx_caps_word (km_ctx m') = cx_caps_word (km_ctx m) -> cx_sticky (km_ctx m') = cx_sticky (km_ctx m) ->
  mstate now k p m'.
Proof.
  intros H A B C D E G I J K. destruct H. constructor; rewrite ?A, ?B, ?C, ?D, ?E, ?G; try assumption.
  - unfold calm in *. now rewrite I, J, K.
  - unfold layers_of in *. now rewrite I.
Qed.
Lemma sorted_last (l : list N) x : decreasing (l ++ [x]) -> forall y, In y l -> x <= y.
Proof. intros H y Hy. apply SSorted_app in H as (_ & _ & H). apply H; [exact Hy|now left]. Qed.
Lemma tick_alarm now k m ms s f m' : mstate now k [] m -> sched_tick (km_sched m) ms = Ok s ->
  (few = true -> forall t al l1 l2, dk_alarms k = l1 ++ (t, al) :: l2 -> t <= now + ms -> (forall t' al', In (t', al') (l1 ++ l2) -> t <= t') -> in_order t l1 ->
     (length (dk_alarms (ring cf (now + ms) al (mkDesk (dk_board k) (dk_macros k) (dk_queue k) (l1 ++ l2) (dk_calls k)))) <= 2)%nat) ->
  exec conf f JHandlePending (set_sched m s) = Ok m' ->
  mframe m m' /\ ((forall t al, In (t, al) (dk_alarms k) -> now + ms < t) /\ mstate (now + ms) k [] m'
   \/ exists t al l1 l2, dk_alarms k = l1 ++ (t, al) :: l2 /\ t <= now + ms /\ (forall t' al', In (t', al') (l1 ++ l2) -> t <= t') /\ (few = true -> in_order t l1)
      /\ mstate (now + ms) (ring cf (now + ms) al (mkDesk (dk_board k) (dk_macros k) (dk_queue k) (l1 ++ l2) (dk_calls k))) [] m').
Proof.
  intros H Et Hlen E. pose proof (ms_counter _ _ _ _ H) as Mc. pose proof (ms_alarms _ _ _ _ H) as Ma. pose proof (ms_sorted _ _ _ _ H) as Ms.
  destruct (sched_tick_ok _ _ _ Et) as (C & [(P & S1 & Hl)|(en & S1 & Hle & P)]).
  - assert (H1 : mstate (now + ms) k [] (set_sched m s)).
    { destruct H. constructor; cbn; try assumption; rewrite ?P, ?S1, ?C; try assumption. now rewrite Mc. }
    rewrite (drain_none _ _ _ _ _ H1 E). split; [unfold mframe; auto|]. left. split; [|exact H1]. intros t al Hin.
    assert (Hi : In (alarm_entry (t, al)) (sc_scheduled (km_sched m))) by (eapply Permutation_in; [symmetry; exact Ma|]; now apply in_map).
    rewrite <- Mc. destruct (last_opt (sc_scheduled (km_sched m))) as [en|] eqn:El.
    + specialize (Hl en eq_refl). apply last_opt_spec in El. rewrite El in Ms, Hi. rewrite map_app in Ms. apply in_app_or in Hi as [Hi|[->|[]]]; [|exact Hl].
      pose proof (sorted_last _ _ Ms t) as X. enough (en_time en <= t) by (unfold u32, u8 in *; lia). apply X. apply (in_map en_time) in Hi. exact Hi.
    + apply last_opt_none in El. rewrite El in Hi. destruct Hi.
  - assert (Hin : exists t al l1 l2, alarm_entry (t, al) = en /\ dk_alarms k = l1 ++ (t, al) :: l2
      /\ (few = true -> in_order t l1 /\ (length (l1 ++ l2) <= 2)%nat /\ sc_scheduled s = map alarm_entry (sort2 (l1 ++ l2)))).
    { destruct few eqn:Ef.
      - destruct (ms_few _ _ _ _ H Ef) as (Hl & Hs). rewrite S1 in Hs. destruct (dk_alarms k) as [|[t al] [|[t2 al2] [|]]]; cbn [length] in Hl; [| | |lia].
        + cbn in Hs. destruct (sc_scheduled s); discriminate Hs.
        + apply (app_inj_tail (sc_scheduled s) [] en) in Hs as (Hs & ->). exists t, al, [], []. split; [reflexivity|]. split; [reflexivity|]. intros _. split; [now left|]. split; [cbn; lia|exact Hs].
        + cbn [sort2 fst] in Hs. destruct (N.ltb_spec t2 t) as [Hlt|Hge].
          * apply (app_inj_tail (sc_scheduled s) [alarm_entry (t, al)] en) in Hs as (Hs & ->). exists t2, al2, [(t, al)], []. split; [reflexivity|]. split; [reflexivity|]. intros _. split; [right; eauto|]. split; [cbn; lia|exact Hs].
          * apply (app_inj_tail (sc_scheduled s) [alarm_entry (t2, al2)] en) in Hs as (Hs & ->). exists t, al, [], [(t2, al2)]. split; [reflexivity|]. split; [reflexivity|]. intros _. split; [now left|]. split; [cbn; lia|exact Hs].
      - assert (Hin : In en (map alarm_entry (dk_alarms k))) by (eapply Permutation_in; [exact Ma|]; rewrite S1; apply in_or_app; right; now left).
        apply in_map_iff in Hin as ([t al] & Ee & Hin). apply in_split in Hin as (l1 & l2 & El). exists t, al, l1, l2. split; [exact Ee|]. split; [exact El|discriminate]. }
    destruct Hin as (t & al & l1 & l2 & Ee & El & Hord).
    assert (Hp : Permutation (sc_scheduled s) (map alarm_entry (l1 ++ l2))).
    { rewrite S1, El, map_app in Ma. cbn [map] in Ma. rewrite Ee in Ma. rewrite map_app.
      apply (Permutation_app_inv (sc_scheduled s) [] (map alarm_entry l1) (map alarm_entry l2) en) in Ma. now rewrite app_nil_r in Ma. }
    assert (Hd : decreasing (map en_time (sc_scheduled s))) by (rewrite S1, map_app in Ms; apply SSorted_app in Ms; apply Ms).
    assert (Hmin : forall t' al', In (t', al') (l1 ++ l2) -> t <= t').
    { intros t' al' Hi. rewrite S1, map_app in Ms. pose proof (sorted_last _ _ Ms t') as X. rewrite <- Ee in X. apply X.
      apply (in_map alarm_entry) in Hi. eapply Permutation_in in Hi; [|symmetry; exact Hp]. apply (in_map en_time) in Hi. exact Hi. }
    assert (Hle' : t <= now + ms) by (rewrite <- Ee in Hle; cbn in Hle; rewrite Mc in Hle; exact Hle).
    set (k1 := mkDesk (dk_board k) (dk_macros k) (dk_queue k) (l1 ++ l2) (dk_calls k)).
    assert (H1 : mstate (now + ms) k1 [alarm_event al] (set_sched m s)).
    { destruct H. constructor; cbn; try assumption; rewrite ?C; try (now rewrite Mc); [rewrite P, ms_pending0; rewrite <- Ee; reflexivity|]. intros Hf. apply Hord, Hf. }
    assert (Hlen' : few = true -> (length (dk_alarms (ring cf (now + ms) al k1)) <= 2)%nat).
    { intros Hf. apply (Hlen Hf _ _ _ _ El Hle' Hmin). apply Hord, Hf. }
    assert (X : mstate (now + ms) (ring cf (now + ms) al k1) [] m' /\ mframe (set_sched m s) m').
    { destruct al as [ko|ki|ki]; cbn [ring].
      - exact (drain_virtual _ _ (InRelease ko) _ _ _ H1 E).
      - exact (drain_ask _ _ ki AuNextInstruction _ _ _ H1 Logic.I ltac:(discriminate) Hlen' E).
      - exact (drain_done _ _ _ _ _ _ H1 Hlen' E). }
    destruct X as (H2 & F2). split; [exact F2|]. right. exists t, al, l1, l2. split; [exact El|]. split; [exact Hle'|]. split; [exact Hmin|]. split; [|exact H2]. intros Hf. apply Hord, Hf.
Qed.
End MacroBoard.

Section MacroRun.
Variables (refs : list ref) (d : key_data) (pos : position_fn) (dbg : bool) (cf : config) (fuel : nat).
Local Notation n := (cf_layer_count cf).
Local Notation ac := (cf_automation cf).
Hypothesis Hpos : position_ok pos.
Hypothesis Hrefs : exists height, Forall (macro_board_key n d ac height) refs.
Variable L : list (callback * callback_fn).
Variable few : bool.
Hypothesis Hfew : few = true -> forall t, pos [t] t = 0%nat.
Local Notation conf := (cconf refs d pos dbg).
Local Notation k0 := (set_callbacks (km_new (ctx_from_config cf)) L).
Local Notation sim := (psim d n ac L few).
Lemma psim_new : sim 0 playing_new k0.
Proof.
  split; [|split; reflexivity]. constructor; cbn; try reflexivity; try (now constructor).
  - apply calm_new.
  - unfold layers_of. cbn. rewrite repeat_length. split; [reflexivity|]. split; [intros x; apply is_on_new|]. split; [reflexivity|discriminate].
  - exists []. split; [|reflexivity]. split; [reflexivity|]. split; [cbn; lia|constructor].
  - intros _. split; [lia|reflexivity].
Qed.
Inductive rings_in_order (now : N) (s : playing) : playing -> Prop :=
| ro_not : (forall t al, In (t, al) (dk_alarms (pl_desk s)) -> now < t) -> rings_in_order now s s
| ro_one t al l1 l2 : dk_alarms (pl_desk s) = l1 ++ (t, al) :: l2 -> t <= now ->
    (forall t' al', In (t', al') (l1 ++ l2) -> t <= t') -> in_order t l1 ->
    rings_in_order now s (mkPlaying (ring ac now al (mkDesk (dk_board (pl_desk s)) (dk_macros (pl_desk s)) (dk_queue (pl_desk s)) (l1 ++ l2) (dk_calls (pl_desk s))))
                           (pl_waiting s) (pl_busy s)).
Lemma op_play ops s (k k' : ckeymap) o : Forall (fun o => plain_op o = true) (ops ++ [o]) -> run_ops conf fuel ops k0 = Ok k -> sim (now_after ops) s k ->
  (few = true -> (forall s1, picks_up n refs d ac (now_after ops) s s1 -> (length (dk_alarms (pl_desk s1)) <= 2)%nat)
    /\ (forall x s1, picks_up n refs d ac (now_after ops) (hears s x) s1 -> o = OpInput x -> (length (dk_alarms (pl_desk s1)) <= 2)%nat)
    /\ (forall s1 s2, picks_up n refs d ac (now_after ops) s s1 -> rings_in_order (now_after (ops ++ [OpTick])) (rests s1) s2 -> o = OpTick -> (length (dk_alarms (pl_desk s2)) <= 2)%nat)) ->
  run_op conf fuel k o = Ok k' -> exists s', play_call n refs d ac ops s o s'
  /\ (few = true -> o = OpTick -> exists s1, picks_up n refs d ac (now_after ops) s s1 /\ rings_in_order (now_after (ops ++ [OpTick])) (rests s1) s') /\ sim (now_after (ops ++ [o])) s' k'.
Proof.
  intros Hops Hrun Hc Hfl H. apply Forall_app in Hops as (Hops & Ho). inversion Ho as [|? ? Hop _]; subst. clear Ho.
  pose proof (plain_basic _ Hops) as (_ & Hti).
  assert (Hck : clocks_run ops = mkClocks (sc_counter (km_sched k)) (km_idle k) (km_ms_per_tick k)).
  { symmetry. exact (run_ops_clock _ fuel ops Hti _ _ Hrun). }
  assert (Hnow : forall o, now_after (ops ++ [o]) = ck_now (clocks_step (clocks_run ops) o)) by (intros o'; unfold now_after, clocks_run; now rewrite fold_left_app).
  pose proof Hc as (Hs & Hq & Hd).
  destruct o as [ev| |dd ev| | | |ms|c g]; try discriminate Hop; cbn [run_op] in *.
  - rewrite (Hnow (OpInput ev)). change (ck_now (clocks_step (clocks_run ops) (OpInput ev))) with (now_after ops).
    unfold km_handle_input in H. cbn zeta in H. change (km_inq (set_idle k 0)) with (km_inq k) in H. change INPUT_QUEUE_CAPACITY with 31%nat in H.
    destruct (Nat.ltb_spec (length (km_inq k)) 31) as [Hl|Hl].
    2:{ injection H as <-. exists s. split; [constructor; now rewrite <- Hq|]. split; [discriminate|]. split; [|split; [exact Hq|exact Hd]]. eapply mstate_same; [exact Hs|..]; reflexivity. }
    rewrite Hq in Hl.
    set (k1 := set_inq (set_idle k 0) (km_inq k ++ [ev])) in *.
    assert (Hc1 : sim (now_after ops) (hears s ev) k1). { split; [eapply mstate_same; [exact Hs|..]; reflexivity|]. split; [cbn; now rewrite Hq|exact Hd]. }
    change (km_delay k1) with (km_delay k) in H. rewrite Hd in H. destruct (pl_busy s) eqn:Eb; cbn [N.eqb] in H.
    { injection H as <-. exists (hears s ev). split; [|split; [discriminate|exact Hc1]]. apply pc_input; [exact Hl|]. now apply pu_busy. }
    destruct (km_inq k1) as [|x w] eqn:Eq; [destruct (km_inq k); discriminate|]. change (0 =? 0) with true in H. cbn iota in H. inv_bind H. injection H as <-.
    assert (Hs1 : mstate d n ac L few (now_after ops) (pl_desk s) [] (set_inq k1 w)) by (eapply mstate_same; [exact Hs|..]; reflexivity).
    assert (Hpick : forall dk, desk_input n refs d ac (now_after ops) (pl_desk s) x dk -> picks_up n refs d ac (now_after ops) (hears s ev) (mkPlaying dk w true)).
    { intros dk Hi. apply pu_input with x; [exact Eb| |exact Hi]. cbn. rewrite <- Hq. exact Eq. }
    destruct (input_macro refs d pos dbg n ac Hpos L few Hfew Hrefs _ _ _ _ _ _ Hs1 (fun Hf dk Hi => proj1 (proj2 (Hfl Hf)) _ _ (Hpick dk Hi) eq_refl) E) as (dk & Hi & H2 & (F1 & F2 & _)).
    exists (mkPlaying dk w true). split; [|split; [discriminate|]].
    + apply pc_input; [exact Hl|]. apply pu_input with x; [exact Eb| |exact Hi]. cbn. rewrite <- Hq. exact Eq.
    + split; [eapply mstate_same; [exact H2|..]; reflexivity|]. split; [exact F1|reflexivity].
  - rewrite tick_step in H. cbn zeta in H. set (k1 := set_ctx k _) in H.
    assert (Hc1 : sim (now_after ops) s k1). { split; [eapply mstate_same; [exact Hs|..]; reflexivity|]. split; [exact Hq|exact Hd]. }
    inv_bind H. change (if 0 <? km_delay a then set_delay a (km_delay a - 1) else a) with (slowed a) in H. inv_bind H. inv_bind H. inv_bind H. injection H as <-.
    assert (Hn : now_after (ops ++ [OpTick]) = now_after ops + km_ms_per_tick k) by (rewrite Hnow, Hck; unfold now_after; rewrite Hck; reflexivity).
    assert (X : exists s1, picks_up n refs d ac (now_after ops) s s1 /\ sim (now_after ops) s1 a /\ km_ms_per_tick a = km_ms_per_tick k).
    { destruct (pl_busy s) eqn:Eb.
      - exists s. split; [now apply pu_busy|]. assert (a = k1) as ->; [|auto]. destruct (km_inq k); [now injection E as <-|]. rewrite Hd in E. now injection E as <-.
      - destruct (km_inq k) as [|x w] eqn:Eq.
        { exists s. split; [now apply pu_nothing|]. injection E as <-. auto. }
        rewrite Hd in E. change (0 =? 0) with true in E. cbn iota in E. inv_bind E. injection E as <-.
        assert (Hs1 : mstate d n ac L few (now_after ops) (pl_desk s) [] (set_inq k1 w)) by (eapply mstate_same; [exact Hs|..]; reflexivity).
        destruct (input_macro refs d pos dbg n ac Hpos L few Hfew Hrefs _ _ _ _ _ _ Hs1 (fun Hf dk Hi => proj1 (Hfl Hf) _ (pu_input _ _ _ _ _ _ x w dk Eb (eq_sym Hq) Hi)) E3) as (dk & Hi & H2 & (F1 & F2 & F3 & F4)).
        exists (mkPlaying dk w true). split; [apply pu_input with x; auto|]. split; [|exact F4].
        split; [eapply mstate_same; [exact H2|..]; reflexivity|]. split; [exact F1|reflexivity]. }
    destruct X as (s1 & Ht & (Hs2 & Hq2 & Hd2) & Hm).
    assert (Hsl : mstate d n ac L few (now_after ops) (pl_desk s1) [] (slowed a) /\ km_inq (slowed a) = pl_waiting s1 /\ km_delay (slowed a) = 0 /\ km_ms_per_tick (slowed a) = km_ms_per_tick k).
    { unfold slowed. rewrite Hd2. destruct (pl_busy s1); cbn [N.ltb N.compare]; (split; [eapply mstate_same; [exact Hs2|..]; reflexivity|]); auto. }
    destruct Hsl as (Hs3 & Hq3 & Hd3 & Hm3). rewrite Hm3 in *.
    assert (Hlen : few = true -> forall t al l1 l2, dk_alarms (pl_desk s1) = l1 ++ (t, al) :: l2 -> t <= now_after ops + km_ms_per_tick k -> (forall t' al', In (t', al') (l1 ++ l2) -> t <= t') -> in_order t l1 ->
      (length (dk_alarms (ring ac (now_after ops + km_ms_per_tick k) al (mkDesk (dk_board (pl_desk s1)) (dk_macros (pl_desk s1)) (dk_queue (pl_desk s1)) (l1 ++ l2) (dk_calls (pl_desk s1))))) <= 2)%nat).
    { intros Hf t al l1 l2 El Hle Hmin Hord. pose proof (ro_one (now_after ops + km_ms_per_tick k) (rests s1) t al l1 l2 El Hle Hmin Hord) as Hr. rewrite <- Hn in Hr |- * at 1.
      exact (proj2 (proj2 (Hfl Hf)) s1 _ Ht Hr eq_refl). }
    destruct (tick_alarm refs d pos dbg n ac Hpos L few Hfew _ _ _ _ _ _ _ Hs3 E0 Hlen E1) as ((F1 & F2 & F3 & F4) & X).
    rewrite Hn. destruct X as [(Hno & H4)|(t & al & l1 & l2 & El & Hle & Hmin & Hord & H4)].
    + exists (rests s1). split; [|split].
      * eapply pc_tick; [exact Ht|]. rewrite Hn. apply rings_not. exact Hno.
      * intros _ _. exists s1. split; [exact Ht|]. apply ro_not. exact Hno.
      * split; [eapply mstate_same; [exact H4|..]; reflexivity|]. split; [cbn; congruence|cbn; congruence].
    + eexists. split; [|split].
      * eapply pc_tick; [exact Ht|]. rewrite Hn. eapply rings_one; [exact El|exact Hle|exact Hmin].
      * intros Hf _. exists s1. split; [exact Ht|]. eapply (ro_one _ (rests s1)); [exact El|exact Hle|exact Hmin|exact (Hord Hf)].
      * split; [eapply mstate_same; [exact H4|..]; reflexivity|]. split; [cbn; congruence|cbn; congruence].
  - rewrite (Hnow OpReport). change (ck_now (clocks_step (clocks_run ops) OpReport)) with (now_after ops). unfold km_report_output in H. inv_bind H. inv_bind E. injection E as <-. injection H as <-.
    exists s. split; [constructor|]. split; [discriminate|]. split; [eapply mstate_same; [exact Hs|..]; reflexivity|]. auto.
  - rewrite (Hnow (OpSetMs ms)). change (ck_now (clocks_step (clocks_run ops) (OpSetMs ms))) with (now_after ops). injection H as <-.
    exists s. split; [constructor|]. split; [discriminate|]. split; [eapply mstate_same; [exact Hs|..]; reflexivity|]. auto.
Qed.
End MacroRun.

Section MacroRuns.
Variables (refs : list ref) (d : key_data) (pos : position_fn) (dbg : bool) (cf : config) (fuel : nat).
Local Notation n := (cf_layer_count cf).
Local Notation ac := (cf_automation cf).
Hypothesis Hpos : position_ok pos.
Hypothesis Hrefs : exists height, Forall (macro_board_key n d ac height) refs.
Variable L : list (callback * callback_fn).
Local Notation conf := (cconf refs d pos dbg).
Local Notation k0 := (set_callbacks (km_new (ctx_from_config cf)) L).
Local Notation sim := (psim d n ac L false).
Lemma run_play ops k : Forall (fun o => plain_op o = true) ops -> run_ops conf fuel ops k0 = Ok k -> exists s, play_run n refs d ac ops s /\ sim (now_after ops) s k.
Proof.
  revert k. induction ops as [|o ops IH] using rev_ind; intros k Ho H.
  - injection H as <-. exists playing_new. split; [constructor|apply psim_new].
  - rewrite CtxFacts.run_ops_app in H. inv_bind H. unfold run_ops in H. cbn [fold_res] in H. inv_bind H. injection H as <-.
    destruct (IH a) as (s & Hr & Hc); [now apply Forall_app in Ho|exact E|].
    destruct (op_play refs d pos dbg cf fuel Hpos Hrefs L false ltac:(discriminate) ops s a a0 o Ho E Hc ltac:(discriminate) E0) as (s' & Hcall & _ & Hc'). exists s'. split; [econstructor; eassumption|exact Hc'].
Qed.
End MacroRuns.
