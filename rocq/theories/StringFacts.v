(** String macros: their characters, and how they are played (C78). *)
From Verif Require Import BaseFacts Output Types Scheduler Reporter Keymap SimpleKeys Layered Automation Composite SpecKeymap
  SpecLayer LayerFacts SpecKinds SpecBoard BoardFacts SpecScheduler SpecTapBoard SpecMacro MacroFacts SpecDanceBoard SpecMacroBoard MacroBoardFacts MacroBoardLive ReporterFacts CtxFacts SpecPlain
  StringMacro SpecText.
From Coq Require Import Ascii Permutation.
Local Open Scope N_scope.

(** ** Characters *)
Definition char_ok (c : ascii) : bool :=
  match char_output c with
  | Some ko => (32 <=? N_of_ascii c) && (N_of_ascii c <=? 126)
      && match types no_keys (as_hid_boot_keyboard_report [ko]) with [c'] => Ascii.eqb c' c | _ => false end
  | None => (N_of_ascii c <? 32) || (126 <? N_of_ascii c)
  end.
Lemma char_ok_all c : char_ok c = true.
Proof. destruct c as [[] [] [] [] [] [] [] []]; vm_compute; reflexivity. Qed.
Lemma char_types c ko : char_output c = Some ko -> types no_keys (as_hid_boot_keyboard_report [ko]) = [c].
Proof.
  intros H. pose proof (char_ok_all c) as X. unfold char_ok in X. rewrite H in X. apply andb_true_iff in X as (_ & X).
  destruct (types no_keys (as_hid_boot_keyboard_report [ko])) as [|c' [|]]; try discriminate X. apply Ascii.eqb_eq in X. now subst.
Qed.
Lemma char_all c : (32 <= N_of_ascii c <= 126) <-> char_output c <> None.
Proof.
  pose proof (char_ok_all c) as X. unfold char_ok in X. destruct (char_output c) as [ko|]; split; try discriminate.
  - intros _. apply andb_true_iff in X as (X & _). apply andb_true_iff in X as (A & B). apply N.leb_le in A, B. auto.
  - intros (A & B). apply orb_true_iff in X as [X|X]; apply N.ltb_lt in X; lia.
  - intros Y. now elim Y.
Qed.
Lemma newly_same r : newly r r = [].
Proof.
  unfold newly. assert (G : forall l l' : list u8, incl l l' -> filter (fun u => negb (existsb (N.eqb u) l')) l = []).
  { induction l as [|u l IH]; intros l' Hi; [reflexivity|]. cbn [filter]. assert (E : existsb (N.eqb u) l' = true) by (apply existsb_exists; exists u; split; [apply Hi; now left|apply N.eqb_refl]).
    rewrite E. apply IH. intros x Hx. apply Hi. now right. }
  apply G. apply incl_refl.
Qed.
Lemma types_same r : types r r = [].
Proof. unfold types. rewrite newly_same. destruct (commands r); reflexivity. Qed.
Lemma types_nothing r : types r no_keys = [].
Proof. reflexivity. Qed.
Lemma typed_app before a b : typed before (a ++ b) = typed before a ++ typed (last a before) b.
Proof.
  revert before. induction a as [|r a IH]; intros before; [reflexivity|]. cbn [app typed]. rewrite IH, <- app_assoc. f_equal. f_equal. f_equal.
  destruct a; [reflexivity|]. cbn [last]. clear. revert l. induction a as [|x a IH]; intros l; [reflexivity|]. cbn [last] in *. apply IH.
Qed.
Lemma outputs_all s kos : string_outputs s = Some kos -> Forall2 (fun c ko => char_output c = Some ko) s kos.
Proof.
  revert kos. induction s as [|c s IH]; intros kos H; cbn in H; [injection H as <-; constructor|].
  destruct (char_output c) as [ko|] eqn:E; [|discriminate]. destruct (string_outputs s) as [l|]; [|discriminate]. injection H as <-. constructor; auto.
Qed.
Lemma outputs_some s : Forall (fun c => char_output c <> None) s <-> string_outputs s <> None.
Proof.
  induction s as [|c s IH]; cbn; [split; [discriminate|constructor]|]. split.
  - intros H. inversion_clear H as [|? ? Hc Hs]. apply IH in Hs. destruct (char_output c); [|congruence]. destruct (string_outputs s); congruence.
  - intros H. destruct (char_output c) eqn:E; [|congruence]. destruct (string_outputs s) eqn:E2; [|congruence]. constructor; [congruence|]. apply IH. discriminate.
Qed.

(** ** Which macro key it is *)
Lemma runs_fun d on on' def r a1 a2 : (forall l, on l = on' l) -> runs d on def r a1 -> runs d on' def r a2 -> a1 = a2.
Proof.
  intros He H. revert a2. induction H as [q a H|i k r a Hk Ha _ IH]; intros a2 H2; inversion H2; subst.
  - congruence.
  - apply IH. match goal with X : nth_error (kd_layered d) _ = Some ?k' |- _ => assert (k' = k) as -> by congruence end.
    match goal with X : acts_as k _ def ?r' |- _ => assert (r' = r) as <-; [|assumption] end.
    eapply acts_as_fun; [|exact Ha]. eapply acts_as_ext; [|eassumption]. intros l. cbn. rewrite He. reflexivity.
Qed.
Lemma runs_ext d on on' def r a : (forall l, on l = on' l) -> runs d on def r a -> runs d on' def r a.
Proof.
  intros He. induction 1 as [q a H|i k r a Hk Ha _ IH]; [now constructor|]. econstructor; [exact Hk| |exact IH].
  eapply acts_as_ext; [|exact Ha]. intros l. cbn. rewrite He. reflexivity.
Qed.
Lemma runs_means d on def r a m : runs d on def r a -> means d on def r m -> False.
Proof.
  induction 1 as [q a H|i k r a Hk Ha _ IH]; intros H2; inversion H2; subst.
  - match goal with X : plain_key _ _ _ |- _ => inversion X end.
  - match goal with X : plain_key _ _ _ |- _ => inversion X end.
  - apply IH. match goal with X : nth_error (kd_layered d) _ = Some ?k' |- _ => assert (k' = k) as -> by congruence end.
    match goal with X : acts_as k _ def ?r' |- _ => assert (r' = r) as <-; [|assumption] end. eapply acts_as_fun; eassumption.
Qed.

(** ** Keys without output *)
Definition silent (l : list (u16 * meaning + key_output)) : Prop := forall i ko, ~ In (inl (i, Sends ko)) l.
Lemma silent_output b : silent (bd_down b) -> board_output b = virtuals (bd_down b).
Proof.
  unfold board_output, virtuals, silent. induction (bd_down b) as [|[[j x]|ko] l IH]; intros H; [reflexivity| |].
  - assert (Hl : forall i ko, ~ In (inl (i, Sends ko)) l) by (intros i ko X; apply (H i ko); now right).
    cbn [filter_map]. destruct x as [ko|m|cb|]; try (exact (IH Hl)). exfalso. apply (H j ko). now left.
  - cbn [filter_map]. rewrite IH; [reflexivity|]. intros i ko' X. apply (H i ko'). now right.
Qed.
Lemma output_silent b : board_output b = [] -> silent (bd_down b) /\ virtuals (bd_down b) = [].
Proof.
  unfold board_output, virtuals, silent. induction (bd_down b) as [|[[j x]|ko] l IH]; intros H; [split; [intros ? ? []|reflexivity]| |discriminate].
  cbn [filter_map] in H. destruct x as [ko|m|cb|]; [discriminate| | |]; (destruct (IH H) as (A & B); split; [intros i ko [X|X]; [discriminate|now apply (A i ko)]|exact B]).
Qed.
Lemma silent_app l x : silent l -> (forall i ko, x <> inl (i, Sends ko)) -> silent (l ++ [x]).
Proof. intros H Hx i ko Hin. apply in_app_or in Hin as [Hin|[->|[]]]; [now apply (H i ko)|now elim (Hx i ko)]. Qed.
Lemma silent_remove P l : silent l -> silent (remove_first P l).
Proof.
  intros H i ko Hin. apply (H i ko). clear H. induction l as [|x l IH]; cbn in Hin; [destruct Hin|]. destruct (P x); [now right|]. destruct Hin as [->|Hin]; [now left|right; auto].
Qed.

Section Played.
Variables (n : nat) (refs : list ref) (d : key_data) (cf : automation_config) (i : u16).
Local Notation D := (auc_duration cf).
Definition only_presses (a : automation_key) : Prop := macro_of cf (ak_while_pressed a) = [] /\ macro_of cf (ak_on_release a) = [].
Hypothesis Honly : forall r on def a, In r refs -> runs d on def r a -> only_presses a.

Definition is_release (x : input_event) : Prop := match x with Release _ => True | _ => False end.
Definition then_what (kos : list key_output) : alarm := match kos with [] => AlDone i | _ => AlNext i end.
Definition rest (kos : list key_output) : waiting := match kos with [] => [] | _ => [map InTap kos] end.
Definition per : N := D + 2.
Definition len (kos : list key_output) : N := N.of_nat (length kos).

(** The desk while a text is played: what is down, what is to be tapped, and how many
    ticks are left at most. *)
Inductive phase (now : N) (k : desk) : list key_output -> list key_output -> N -> Prop :=
| ph_down t ko kos : dk_alarms k = [(t, AlRelease ko); (t, then_what kos)] -> dk_queue k = rest kos -> virtuals (bd_down (dk_board k)) = [ko] ->
    phase now k [ko] kos ((t - now) + 2 + len kos * per)
| ph_up t kos : dk_alarms k = [(t, then_what kos)] -> dk_queue k = rest kos -> virtuals (bd_down (dk_board k)) = [] ->
    phase now k [] kos ((t - now) + 1 + len kos * per)
| ph_over : dk_alarms k = [] -> dk_queue k = [] -> virtuals (bd_down (dk_board k)) = [] -> phase now k [] [] 0.
Definition calm_desk (k : desk) : Prop := silent (bd_down (dk_board k)) /\ Forall (fun p => only_presses (snd p)) (dk_macros k).
Lemma phase_few now k vs kos mu : phase now k vs kos mu -> (length (dk_alarms k) <= 2)%nat.
Proof. destruct 1 as [t ko kos E _ _|t kos E _ _|E _ _]; rewrite E; cbn; lia. Qed.
Lemma phase_virtuals now k vs kos mu : phase now k vs kos mu -> virtuals (bd_down (dk_board k)) = vs.
Proof. destruct 1; assumption. Qed.
Lemma phase_same now k k' vs kos mu : phase now k vs kos mu -> dk_alarms k' = dk_alarms k -> dk_queue k' = dk_queue k -> virtuals (bd_down (dk_board k')) = virtuals (bd_down (dk_board k)) ->
  phase now k' vs kos mu.
Proof.
  intros H A B C. destruct H as [t ko kos E1 E2 E3|t kos E1 E2 E3|E1 E2 E3].
  - apply ph_down; congruence.
  - apply ph_up; congruence.
  - apply ph_over; congruence.
Qed.

(** One change of what is down. *)
Inductive moves : list key_output -> list key_output -> list key_output -> list key_output -> Prop :=
| mv_same vs kos : moves vs kos vs kos
| mv_release ko kos : moves [ko] kos [] kos
| mv_press ko kos : moves [] (ko :: kos) [ko] kos.

(** A key goes up. *)
Lemma release_phase now k j k' vs kos mu : phase now k vs kos mu -> calm_desk k -> desk_input n refs d cf now k (Release j) k' ->
  phase now k' vs kos mu /\ calm_desk k'.
Proof.
  intros H (Hs & Hm) Hi. inversion Hi as [ie b' cs Hno Hb Hc| |i' a Hin]; subst.
  - inversion Hc; subst. inversion Hb; subst.
    + split.
      * eapply phase_same; [exact H|reflexivity|reflexivity|]. cbn [dk_board]. rewrite switch_down. cbn [set_down bd_down]. apply virtuals_key.
      * split; [|exact Hm]. cbn [dk_board]. rewrite switch_down. cbn [set_down bd_down]. now apply silent_remove.
    + split; [|split; assumption]. eapply phase_same; [exact H|reflexivity..].
  - assert (Ho : only_presses a) by (eapply Forall_forall in Hm; [|exact Hin]; exact Hm). destruct Ho as (_ & Ho).
    unfold macro_up, ask. rewrite Ho. cbn [player dk_queue]. split.
    + eapply phase_same; [exact H|reflexivity|reflexivity|]. cbn [dk_board set_down bd_down]. apply virtuals_key.
    + split; cbn [dk_board dk_macros set_down bd_down]; [now apply silent_remove|]. apply Forall_forall. intros p Hp. apply filter_In in Hp as (Hp & _). eapply Forall_forall in Hm; [exact Hm|exact Hp].
Qed.

(** The next key is tapped. *)
Lemma tapped now k ko kos : dk_alarms k = [] -> virtuals (bd_down (dk_board k)) = [] -> calm_desk k ->
  let k' := mkDesk (performs (InTap ko) (dk_board k)) (dk_macros k) (rest kos) (dk_alarms k ++ leads_to cf now i (InTap ko) (match kos with [] => true | _ => false end) false) (dk_calls k) in
  phase now k' [ko] kos (D + 2 + len kos * per) /\ calm_desk k'.
Proof.
  intros Ha Hv (Hs & Hm) k'. split.
  - replace (D + 2 + len kos * per) with ((now + D - now) + 2 + len kos * per) by (unfold u16 in *; lia). apply ph_down.
    + cbn [k' dk_alarms]. rewrite Ha. unfold leads_to, then_what. rewrite andb_false_r. destruct kos; reflexivity.
    + reflexivity.
    + cbn [k' dk_board performs set_down bd_down]. rewrite virtuals_app, Hv. reflexivity.
  - split; [|exact Hm]. cbn [k' dk_board performs set_down bd_down]. apply silent_app; [exact Hs|discriminate].
Qed.
Lemma ask_next now k ko kos : dk_queue k = rest (ko :: kos) -> dk_alarms k = [] -> virtuals (bd_down (dk_board k)) = [] -> calm_desk k ->
  phase now (ask cf now i RqNext k) [ko] kos (D + 2 + len kos * per) /\ calm_desk (ask cf now i RqNext k).
Proof.
  intros Hq Ha Hv Hc. unfold ask. rewrite Hq. destruct kos as [|ko2 kos]; [exact (tapped now k ko [] Ha Hv Hc)|exact (tapped now k ko (ko2 :: kos) Ha Hv Hc)].
Qed.
Lemma ask_start now k ko kos : dk_queue k = [] -> dk_alarms k = [] -> virtuals (bd_down (dk_board k)) = [] -> calm_desk k ->
  phase now (ask cf now i (RqStart (map InTap (ko :: kos))) k) [ko] kos (D + 2 + len kos * per) /\ calm_desk (ask cf now i (RqStart (map InTap (ko :: kos))) k).
Proof.
  intros Hq Ha Hv Hc. unfold ask. rewrite Hq. destruct kos as [|ko2 kos]; [exact (tapped now k ko [] Ha Hv Hc)|exact (tapped now k ko (ko2 :: kos) Ha Hv Hc)].
Qed.
Lemma done_calm now k : calm_desk k -> done cf now i k = k.
Proof.
  intros (_ & Hm). unfold done. destruct (find (fun p => fst p =? i) (dk_macros k)) as [[j a]|] eqn:E; [|reflexivity].
  apply find_some in E as (E & _). eapply Forall_forall in Hm; [|exact E]. destruct Hm as (Hw & _). cbn in Hw. rewrite Hw. unfold ask. cbn [player]. destruct k; reflexivity.
Qed.

(** Something happens. *)
Lemma ring_phase now now' k vs kos mu t al l1 l2 : now < now' -> phase now k vs kos mu -> calm_desk k ->
  dk_alarms k = l1 ++ (t, al) :: l2 -> in_order t l1 -> t <= now' ->
  let k' := ring cf now' al (mkDesk (dk_board k) (dk_macros k) (dk_queue k) (l1 ++ l2) (dk_calls k)) in
  exists vs' kos' mu', phase now' k' vs' kos' mu' /\ calm_desk k' /\ mu' <= mu - 1 /\ moves vs kos vs' kos'.
Proof.
  intros Hn H Hc El Hord Hle k'. destruct H as [t0 ko kos E1 E2 E3|t0 kos E1 E2 E3|E1 E2 E3]; rewrite E1 in El.
  - destruct Hord as [->|(x & -> & Hx)].
    + cbn [app] in El. injection El as <- <- <-. exists [], kos, ((t0 - now') + 1 + len kos * per). split; [|split; [|split; [unfold u16 in *; lia|constructor]]].
      * apply ph_up; [reflexivity|exact E2|]. cbn [k' ring dk_board performs set_down bd_down].
        pose proof (virtuals_remove ko (bd_down (dk_board k))) as P. rewrite E3 in P. specialize (P (or_introl eq_refl)).
        apply Permutation_cons_inv in P. now apply Permutation_nil in P.
      * destruct Hc as (Hs & Hm). split; [|exact Hm]. cbn [k' ring dk_board performs set_down bd_down]. now apply silent_remove.
    + cbn [app] in El. injection El as <- X <- _. cbn in Hx. lia.
  - assert (l1 = [] /\ (t, al) = (t0, then_what kos) /\ l2 = []) as (-> & X & ->).
    { destruct l1 as [|y l1]; cbn in El; injection El; intros; subst; auto. destruct l1; discriminate. }
    injection X as -> ->. cbn [app] in k'. destruct kos as [|ko kos]; cbn [then_what] in k'; cbn [ring] in k'.
    + exists [], [], 0. unfold k'. rewrite done_calm by exact Hc. split; [apply ph_over; [reflexivity|exact E2|exact E3]|]. split; [exact Hc|]. split; [lia|constructor].
    + exists [ko], kos, (D + 2 + len kos * per). destruct (ask_next now' (mkDesk (dk_board k) (dk_macros k) (dk_queue k) [] (dk_calls k)) ko kos E2 eq_refl E3 Hc) as (A & B).
      split; [exact A|]. split; [exact B|]. split; [|constructor]. unfold len. cbn [length]. rewrite Nat2N.inj_succ. unfold per in *. unfold u16 in *. nia.
  - destruct l1; discriminate.
Qed.
Lemma quiet_phase now now' k vs kos mu : now < now' -> phase now k vs kos mu -> (forall t al, In (t, al) (dk_alarms k) -> now' < t) ->
  exists mu', phase now' k vs kos mu' /\ mu' <= mu - 1.
Proof.
  intros Hn H Hno. destruct H as [t ko kos E1 E2 E3|t kos E1 E2 E3|E1 E2 E3].
  - exists ((t - now') + 2 + len kos * per). split; [now apply ph_down|]. assert (now' < t) by (eapply Hno; rewrite E1; now left). unfold u16 in *; lia.
  - exists ((t - now') + 1 + len kos * per). split; [now apply ph_up|]. assert (now' < t) by (eapply Hno; rewrite E1; now left). unfold u16 in *; lia.
  - exists 0. split; [now apply ph_over|lia].
Qed.

(** The key is still to be taken. *)
Definition awaits (k : desk) (kos : list key_output) : Prop :=
  dk_alarms k = [] /\ dk_queue k = [] /\ virtuals (bd_down (dk_board k)) = [] /\ existsb (this_key i) (bd_down (dk_board k)) = false
  /\ exists r a, nth_error refs (N.to_nat i) = Some r /\ runs d (bd_on (dk_board k)) (bd_default (dk_board k)) r a /\ macro_of cf (ak_on_press a) = map InTap kos.
Lemma press_phase now k k' kos : awaits k kos -> calm_desk k -> desk_input n refs d cf now k (Press i) k' ->
  calm_desk k' /\ match kos with
                 | [] => phase now k' [] [] 0
                 | ko :: kos' => phase now k' [ko] kos' (len kos * per) /\ Forall (fun p => fst p = now + D) (dk_alarms k')
                 end.
Proof.
  intros (Ha & Hq & Hv & Hi & r & a & Hr & Hruns & Hm) Hc H. inversion H as [ie b' cs Hno Hb _|i' r' a' _ Hr' Hruns'|]; subst.
  - inversion Hb; subst; [congruence|]. exfalso. eapply runs_means; [exact Hruns|]. replace r with r0 by congruence. eassumption.
  - assert (a' = a) as -> by (eapply runs_fun; [reflexivity|exact Hruns'|]; replace r' with r by congruence; exact Hruns).
    unfold macro_down. rewrite Hm. set (k1 := mkDesk _ _ _ _ _).
    assert (Hc1 : calm_desk k1).
    { destruct Hc as (Hs & Hms). split; cbn [k1 dk_board dk_macros set_down bd_down]; [apply silent_app; [exact Hs|discriminate]|].
      apply Forall_app. split; [exact Hms|]. constructor; [|constructor]. eapply Honly; [eapply nth_error_In; exact Hr|exact Hruns]. }
    assert (Hv1 : virtuals (bd_down (dk_board k1)) = []). { cbn [k1 dk_board set_down bd_down]. rewrite virtuals_app, Hv. reflexivity. }
    destruct kos as [|ko kos]; cbn [map].
    + rewrite done_calm by exact Hc1. split; [exact Hc1|]. apply ph_over; assumption.
    + destruct (ask_start now k1 ko kos Hq Ha Hv1 Hc1) as (A & B). split; [exact B|]. split.
      * replace (len (ko :: kos) * per) with (D + 2 + len kos * per); [exact A|]. unfold len. cbn [length]. rewrite Nat2N.inj_succ. unfold per. unfold u16 in *. nia.
      * unfold ask. replace (dk_queue k1) with (@nil macro) by (symmetry; exact Hq). cbn [map player]. destruct kos as [|ko2 kos]; cbn [map play_one dk_alarms];
          (replace (dk_alarms k1) with (@nil (N * alarm)) by (symmetry; exact Ha)); unfold leads_to; cbn [andb app]; repeat constructor.
Qed.
End Played.

Section StringRun.
Variables (refs : list ref) (d : key_data) (pos : position_fn) (dbg : bool) (cf : config) (fuel : nat).
Local Notation n := (cf_layer_count cf).
Local Notation ac := (cf_automation cf).
Local Notation D := (auc_duration ac).
Hypothesis Hpos : position_ok pos.
Hypothesis Hone : forall t, pos [t] t = 0%nat.
Hypothesis Hrefs : exists height, Forall (macro_board_key n d ac height) refs.
Variable L : list (callback * callback_fn).
Variable i : u16.
Hypothesis Honly : forall r on def a, In r refs -> runs d on def r a -> only_presses ac a.
Local Notation conf := (cconf refs d pos dbg).
Local Notation k0 := (set_callbacks (km_new (ctx_from_config cf)) L).
Local Notation sim := (psim d n ac L true).
Local Notation per := (per ac).

Definition stage (now : N) (s : playing) (vs kos : list key_output) (mu : N) : Prop :=
  calm_desk ac (pl_desk s)
  /\ ((exists w, pl_waiting s = Press i :: w /\ Forall is_release w /\ awaits refs d ac i (pl_desk s) kos /\ vs = [] /\ mu = len kos * per + 1 + (if pl_busy s then 1 else 0))
      \/ (Forall is_release (pl_waiting s) /\ phase ac i now (pl_desk s) vs kos mu)).
Lemma stage_virtuals now s vs kos mu : stage now s vs kos mu -> board_output (dk_board (pl_desk s)) = vs.
Proof.
  intros ((Hs & _) & H). rewrite silent_output by exact Hs. destruct H as [(w & _ & _ & Ha & -> & _)|(_ & H)]; [apply Ha|eapply phase_virtuals; exact H].
Qed.
Lemma stage_few now s vs kos mu : stage now s vs kos mu -> (length (dk_alarms (pl_desk s)) <= 2)%nat.
Proof. intros (_ & [(w & _ & _ & Ha & _)|(_ & H)]); [destruct Ha as (-> & _); cbn; lia|eapply phase_few; exact H]. Qed.
Lemma stage_over now s vs kos : stage now s vs kos 0 -> vs = [] /\ kos = [] /\ dk_alarms (pl_desk s) = [].
Proof.
  intros (_ & [(w & _ & _ & _ & _ & E)|(_ & H)]); [lia|]. inversion H as [t ko kos' E1 E2 E3 X1 X2 X3|t kos' E1 E2 E3 X1 X2 X3|E1 E2 E3 X1 X2 X3]; [lia|lia|auto].
Qed.
Lemma picks_stage now s vs kos mu s1 : stage now s vs kos mu -> picks_up n refs d ac now s s1 ->
  exists vs1 kos1 mu1, stage now s1 vs1 kos1 mu1 /\ mu1 <= mu /\ moves vs kos vs1 kos1
  /\ (vs1 = vs /\ kos1 = kos \/ Forall (fun p => fst p = now + D) (dk_alarms (pl_desk s1)))
  /\ (Forall is_release (pl_waiting s1) \/ pl_busy s = true /\ s1 = s)
  /\ (Forall is_release (pl_waiting s) \/ pl_busy s = true \/ mu1 <= mu - 1).
Proof.
  intros H Hp. destruct H as (Hc & [(w & Ew & Hw & Ha & -> & ->)|(Hw & H)]).
  - destruct Hp as [Hb|Ex|x w' k' Hb Ex Hi].
    + exists [], kos, (len kos * per + 1 + (if pl_busy s then 1 else 0)). split; [split; [exact Hc|left; exists w; auto]|]. split; [lia|]. split; [constructor|]. auto.
    + congruence.
    + rewrite Ew in Ex. injection Ex as <- <-. destruct (press_phase n refs d ac i Honly now _ _ kos Ha Hc Hi) as (Hc' & X). destruct kos as [|ko kos].
      * exists [], [], 0. split; [split; [exact Hc'|right; cbn [pl_waiting pl_desk]; auto]|]. split; [lia|]. split; [constructor|]. split; [now left|]. split; [now left|]. right. right. lia.
      * destruct X as (X & Y). exists [ko], kos, (len (ko :: kos) * per). split; [split; [exact Hc'|right; cbn [pl_waiting pl_desk]; auto]|]. split; [lia|]. split; [constructor|]. split; [now right|]. split; [now left|]. right. right. lia.
  - exists vs, kos, mu. destruct Hp as [Hb|Ex|x w' k' Hb Ex Hi].
    + split; [split; [exact Hc|now right]|]. split; [lia|]. split; [constructor|]. auto.
    + split; [split; [exact Hc|now right]|]. split; [lia|]. split; [constructor|]. auto.
    + rewrite Ex in Hw. inversion Hw as [|? ? Hx Hw']; subst. destruct x as [j|j|ko|ko]; try contradiction Hx.
      destruct (release_phase n refs d ac i now _ _ _ _ _ _ H Hc Hi) as (H' & Hc').
      split; [split; [exact Hc'|right; cbn [pl_waiting pl_desk]; auto]|]. split; [lia|]. split; [constructor|]. split; [now left|]. split; [now left|]. left. rewrite Ex. exact Hw.
Qed.
Lemma rests_stage now s vs kos mu : stage now s vs kos mu -> Forall is_release (pl_waiting s) -> stage now (rests s) vs kos mu.
Proof. intros (Hc & [(w & Ew & _)|(Hw & H)]) X; [rewrite Ew in X; inversion X; contradiction|]. split; [exact Hc|right]. auto. Qed.
Lemma rings_stage now now' s vs kos mu s2 : now < now' -> stage now s vs kos mu -> Forall is_release (pl_waiting s) -> rings_in_order cf now' s s2 ->
  exists vs' kos' mu', stage now' s2 vs' kos' mu' /\ mu' <= mu - 1 /\ moves vs kos vs' kos'
  /\ ((forall t al, In (t, al) (dk_alarms (pl_desk s)) -> now' < t) -> vs' = vs /\ kos' = kos).
Proof.
  intros Hn (Hc & [(w & Ew & _)|(Hw & H)]) X Hr; [rewrite Ew in X; inversion X; contradiction|]. destruct Hr as [Hno|t al l1 l2 El Hle Hmin Hord].
  - destruct (quiet_phase ac i now now' _ _ _ _ Hn H Hno) as (mu' & H' & Hl). exists vs, kos, mu'. split; [split; [exact Hc|right; auto]|]. split; [exact Hl|]. split; [constructor|auto].
  - destruct (ring_phase ac i now now' _ _ _ _ _ _ _ _ Hn H Hc El Hord Hle) as (vs' & kos' & mu' & H' & Hc' & Hl & Hm). exists vs', kos', mu'.
    split; [split; [exact Hc'|right; auto]|]. split; [exact Hl|]. split; [exact Hm|]. intros Hno. exfalso.
    assert (now' < t) by (eapply Hno; rewrite El; apply in_or_app; right; now left). lia.
Qed.
Lemma tick_stage now now' s vs kos mu s1 s2 : now < now' -> now' < now + D -> stage now s vs kos mu -> picks_up n refs d ac now s s1 -> rings_in_order cf now' (rests s1) s2 ->
  exists vs' kos' mu', stage now' s2 vs' kos' mu' /\ mu' <= mu - 1 /\ moves vs kos vs' kos'.
Proof.
  intros Hn HD H Hp Hr. destruct (picks_stage _ _ _ _ _ _ H Hp) as (vs1 & kos1 & mu1 & H1 & Hl1 & Hm1 & Hq & Hrel & Hless).
  destruct Hrel as [Hrel|(Hb & ->)].
  - pose proof (rests_stage _ _ _ _ _ H1 Hrel) as H1'. destruct (rings_stage now now' _ _ _ _ _ Hn H1' Hrel Hr) as (vs' & kos' & mu' & H2 & Hl2 & Hm2 & Hsame).
    exists vs', kos', mu'. split; [exact H2|]. split; [lia|]. destruct Hq as [(-> & ->)|Hq]; [exact Hm2|].
    destruct Hsame as (-> & ->); [|exact Hm1]. intros t al Hin. cbn [rests pl_desk] in Hin. eapply Forall_forall in Hq; [|exact Hin]. cbn in Hq. unfold u16 in *. lia.
  - destruct H as (Hc & [(w & Ew & Hw & Ha & -> & ->)|(Hw & H)]).
    + exists [], kos, (len kos * per + 1 + 0). rewrite Hb. split; [|split; [lia|constructor]].
      inversion Hr as [Hno|t al l1 l2 El _ _ _]; subst; [|cbn [rests pl_desk] in El; destruct Ha as (Ea & _); rewrite Ea in El; destruct l1; discriminate].
      split; [exact Hc|left]. exists w. cbn [rests pl_waiting pl_desk pl_busy]. auto.
    + assert (H0 : stage now (rests s) vs kos mu) by (split; [exact Hc|right; auto]).
      destruct (rings_stage now now' _ _ _ _ _ Hn H0 Hw Hr) as (vs' & kos' & mu' & H2 & Hl2 & Hm2 & _). exists vs', kos', mu'. auto.
Qed.
Lemma hears_stage now s vs kos mu j : stage now s vs kos mu -> stage now (hears s (Release j)) vs kos mu.
Proof.
  intros (Hc & [(w & Ew & Hw & X)|(Hw & H)]); (split; [exact Hc|]); [left|right]; cbn [hears pl_waiting pl_desk pl_busy].
  - exists (w ++ [Release j]). rewrite Ew. split; [reflexivity|]. split; [|exact X]. apply Forall_app. split; [exact Hw|repeat constructor].
  - split; [|exact H]. apply Forall_app. split; [exact Hw|repeat constructor].
Qed.

(** One call. *)
Lemma op_string before s (k k' : ckeymap) o vs kos mu : Forall (fun o => plain_op o = true) before -> presses_none o = true -> run_ops conf fuel before k0 = Ok k -> sim (now_after before) s k ->
  stage (now_after before) s vs kos mu -> 0 < ck_ms (clocks_run before) -> ck_ms (clocks_run before) < D -> run_op conf fuel k o = Ok k' ->
  exists s' vs' kos' mu', sim (now_after (before ++ [o])) s' k' /\ stage (now_after (before ++ [o])) s' vs' kos' mu'
  /\ mu' <= mu - N.of_nat (ticks [o]) /\ moves vs kos vs' kos' /\ ck_ms (clocks_run (before ++ [o])) = ck_ms (clocks_run before).
Proof.
  intros Ho Hq Hrun Hs H Hms HD E.
  assert (Hnow : forall o, clocks_run (before ++ [o]) = clocks_step (clocks_run before) o) by (intros o'; unfold clocks_run; now rewrite fold_left_app).
  assert (Ho' : Forall (fun o => plain_op o = true) (before ++ [o])). { apply Forall_app. split; [exact Ho|]. constructor; [|constructor]. destruct o as [[]| | | | | | |]; try discriminate Hq; reflexivity. }
  assert (Ht1 : now_after before < now_after (before ++ [OpTick])) by (unfold now_after; rewrite Hnow; cbn; lia).
  assert (Ht2 : now_after (before ++ [OpTick]) < now_after before + D) by (unfold now_after; rewrite Hnow; cbn; lia).
  destruct (op_play refs d pos dbg cf fuel Hpos Hrefs L true (fun _ => Hone) before s k k' o Ho' Hrun Hs) as (s' & Hcall & Hord & Hs'); [|exact E|].
  { intros _. split; [|split].
    - intros s1 Hp. destruct (picks_stage _ _ _ _ _ _ H Hp) as (v & ks & m & H1 & _). eapply stage_few; exact H1.
    - intros x s1 Hp ->. destruct x as [j|j|ko|ko]; try discriminate Hq. destruct (picks_stage _ _ _ _ _ _ (hears_stage _ _ _ _ _ j H) Hp) as (v & ks & m & H1 & _). eapply stage_few; exact H1.
    - intros s1 s2 Hp Hr ->. destruct (tick_stage _ _ _ _ _ _ _ _ Ht1 Ht2 H Hp Hr) as (v & ks & m & H1 & _). eapply stage_few; exact H1. }
  exists s'. destruct o as [x| | | | | |ms|]; try discriminate Hq.
  - destruct x as [j|j|ko|ko]; try discriminate Hq. assert (En : now_after (before ++ [OpInput (Release j)]) = now_after before) by (unfold now_after; now rewrite Hnow). rewrite En in *.
    inversion Hcall as [x Hl|x s2 Hl Hp| | |]; subst.
    + exists vs, kos, mu. split; [exact Hs'|]. split; [exact H|]. split; [cbn; lia|]. split; [constructor|now rewrite Hnow].
    + destruct (picks_stage _ _ _ _ _ _ (hears_stage _ _ _ _ _ j H) Hp) as (v & ks & m & H1 & Hl1 & Hm1 & _). exists v, ks, m.
      split; [exact Hs'|]. split; [exact H1|]. split; [cbn; lia|]. split; [exact Hm1|now rewrite Hnow].
  - destruct (Hord eq_refl eq_refl) as (s1 & Hp & Hr). destruct (tick_stage _ _ _ _ _ _ _ _ Ht1 Ht2 H Hp Hr) as (v & ks & m & H1 & Hl & Hm). exists v, ks, m.
    split; [exact Hs'|]. split; [exact H1|]. split; [exact Hl|]. split; [exact Hm|now rewrite Hnow].
  - assert (En : now_after (before ++ [OpReport]) = now_after before) by (unfold now_after; now rewrite Hnow). rewrite En in *.
    inversion Hcall; subst. exists vs, kos, mu. split; [exact Hs'|]. split; [exact H|]. split; [cbn; lia|]. split; [constructor|now rewrite Hnow].
Qed.

Lemma moves_types vs kos vs' kos' cs : moves vs kos vs' kos' -> Forall2 (fun c ko => char_output c = Some ko) cs kos ->
  exists cs', types (as_hid_boot_keyboard_report vs) (as_hid_boot_keyboard_report vs') ++ cs' = cs /\ Forall2 (fun c ko => char_output c = Some ko) cs' kos'.
Proof.
  intros H Hc. destruct H as [vs kos|ko kos|ko kos].
  - exists cs. rewrite types_same. auto.
  - exists cs. change (as_hid_boot_keyboard_report []) with no_keys. rewrite types_nothing. auto.
  - inversion Hc as [|c ? cs' ? Ec Hc']; subst. exists cs'. change (as_hid_boot_keyboard_report []) with no_keys. rewrite (char_types _ _ Ec). auto.
Qed.
Lemma sim_report now s vs kos mu k : sim now s k -> stage now s vs kos mu -> km_boot_keyboard_report conf k = Ok (as_hid_boot_keyboard_report vs).
Proof.
  intros (H & _) Hst. unfold km_boot_keyboard_report, km_pressed_keys. rewrite <- (stage_virtuals _ _ _ _ _ Hst).
  pose proof (mheld_outputs refs d pos dbg n _ _ _ (ms_held _ _ _ _ _ _ _ _ _ H)) as X. rewrite X. reflexivity.
Qed.
Lemma run_string after : forall before s (k k' : ckeymap) rs vs kos mu cs, Forall (fun o => plain_op o = true) before -> Forall (fun o => presses_none o = true) after ->
  run_ops conf fuel before k0 = Ok k -> sim (now_after before) s k -> stage (now_after before) s vs kos mu -> 0 < ck_ms (clocks_run before) -> ck_ms (clocks_run before) < D ->
  Forall2 (fun c ko => char_output c = Some ko) cs kos -> reports conf fuel after k = Ok (k', rs) ->
  exists s' vs' kos' mu' cs', sim (now_after (before ++ after)) s' k' /\ stage (now_after (before ++ after)) s' vs' kos' mu' /\ mu' <= mu - N.of_nat (ticks after)
    /\ Forall2 (fun c ko => char_output c = Some ko) cs' kos' /\ typed (as_hid_boot_keyboard_report vs) rs ++ cs' = cs.
Proof.
  induction after as [|o after IH]; intros before s k k' rs vs kos mu cs Hb Ha Hrun Hs H Hms HD Hc E; cbn [reports] in E.
  - injection E as <- <-. exists s, vs, kos, mu, cs. rewrite app_nil_r. split; [exact Hs|]. split; [exact H|]. split; [cbn; lia|]. auto.
  - inversion_clear Ha as [|? ? Ho Ha']. inv_bind E. inv_bind E. inv_bind E. destruct a1 as [k2 rs2]. injection E as <- <-.
    destruct (op_string _ _ _ _ _ _ _ _ Hb Ho Hrun Hs H Hms HD E0) as (s1 & vs1 & kos1 & mu1 & Hs1 & H1 & Hl1 & Hm1 & Hms1).
    destruct (moves_types _ _ _ _ _ Hm1 Hc) as (cs1 & Et & Hc1).
    assert (a0 = as_hid_boot_keyboard_report vs1) as ->. { rewrite (sim_report _ _ _ _ _ _ Hs1 H1) in E1. now injection E1. }
    destruct (IH (before ++ [o]) s1 a k2 rs2 vs1 kos1 mu1 cs1) as (s2 & vs2 & kos2 & mu2 & cs2 & A1 & A2 & A3 & A4 & A5); auto.
    + apply Forall_app. split; [exact Hb|]. constructor; [|constructor]. destruct o as [[]| | | | | | |]; try discriminate Ho; reflexivity.
    + rewrite CtxFacts.run_ops_app, Hrun. cbn [bind]. unfold run_ops. cbn [fold_res]. rewrite E0. reflexivity.
    + now rewrite Hms1.
    + now rewrite Hms1.
    + rewrite <- app_assoc in A1, A2. cbn [app] in A1, A2. exists s2, vs2, kos2, mu2, cs2. split; [exact A1|]. split; [exact A2|]. split.
      * assert (Et2 : ticks (o :: after) = (ticks [o] + ticks after)%nat) by (unfold ticks; cbn [filter]; destruct o; reflexivity). rewrite Et2. lia.
      * split; [exact A4|]. cbn [typed]. rewrite <- app_assoc, A5. exact Et.
Qed.
Lemma few_rest now s k : psim d n ac L false now s k -> dk_alarms (pl_desk s) = [] -> sim now s k.
Proof.
  intros (H & Hq & Hd) Ea. split; [|auto]. pose proof (ms_alarms _ _ _ _ _ _ _ _ _ H) as P. rewrite Ea in P. apply Permutation_sym, Permutation_nil in P.
  destruct H. constructor; try assumption. intros _. rewrite Ea, P. split; [cbn; lia|reflexivity].
Qed.
Lemma press_string after before s (k k' : ckeymap) rs kos cs : Forall (fun o => plain_op o = true) before -> Forall (fun o => presses_none o = true) after ->
  run_ops conf fuel before k0 = Ok k -> psim d n ac L false (now_after before) s k -> pl_waiting s = [] -> calm_desk ac (pl_desk s) -> awaits refs d ac i (pl_desk s) kos ->
  0 < ck_ms (clocks_run before) -> ck_ms (clocks_run before) < D ->
  Forall2 (fun c ko => char_output c = Some ko) cs kos -> reports conf fuel (OpInput (Press i) :: after) k = Ok (k', rs) ->
  exists s' vs' kos' mu' cs', psim d n ac L true (now_after (before ++ OpInput (Press i) :: after)) s' k' /\ stage (now_after (before ++ OpInput (Press i) :: after)) s' vs' kos' mu'
    /\ mu' <= len kos * per + 2 - N.of_nat (ticks after)
    /\ Forall2 (fun c ko => char_output c = Some ko) cs' kos' /\ typed no_keys rs ++ cs' = cs.
Proof.
  intros Hb Ha Hrun Hs Hw Hcalm Haw Hms HD Hc E. apply few_rest in Hs; [|apply Haw].
  assert (Hnow : clocks_run (before ++ [OpInput (Press i)]) = clocks_step (clocks_run before) (OpInput (Press i))) by (unfold clocks_run; now rewrite fold_left_app).
  assert (En : now_after (before ++ [OpInput (Press i)]) = now_after before) by (unfold now_after; now rewrite Hnow).
  assert (Hst : exists mu, mu <= len kos * per + 2 /\ stage (now_after before) (hears s (Press i)) [] kos mu).
  { eexists. split; [|split; [exact Hcalm|left; exists []; cbn [hears pl_waiting pl_desk pl_busy]; rewrite Hw; auto]]. destruct (pl_busy s); lia. }
  destruct Hst as (mu & Hmu & Hst). cbn [reports] in E. inv_bind E. inv_bind E. inv_bind E. destruct a1 as [k2 rs2]. injection E as <- <-.
  assert (Hb' : Forall (fun o => plain_op o = true) (before ++ [OpInput (Press i)])) by (apply Forall_app; split; [exact Hb|repeat constructor]).
  destruct (op_play refs d pos dbg cf fuel Hpos Hrefs L true (fun _ => Hone) before s k a (OpInput (Press i)) Hb' Hrun Hs) as (s1 & Hcall & _ & Hs1); [|exact E0|].
  { intros _. split; [|split].
    - intros s1 Hp. destruct Hp as [_|_|x w k1 _ Ex _]; [destruct Haw as (-> & _); cbn; lia..|congruence].
    - intros x s1 Hp Ex. injection Ex as <-. destruct (picks_stage _ _ _ _ _ _ Hst Hp) as (v & ks & m & H1 & _). eapply stage_few; exact H1.
    - discriminate. }
  rewrite En in *. inversion Hcall as [x Hl|x s2 Hl Hp| | |]; subst; [rewrite Hw in Hl; cbn in Hl; lia|].
  destruct (picks_stage _ _ _ _ _ _ Hst Hp) as (vs1 & kos1 & mu1 & H1 & Hl1 & Hm1 & _).
  destruct (moves_types _ _ _ _ _ Hm1 Hc) as (cs1 & Et & Hc1).
  assert (a0 = as_hid_boot_keyboard_report vs1) as ->. { rewrite (sim_report _ _ _ _ _ _ Hs1 H1) in E1. now injection E1. }
  rewrite <- En in Hs1, H1.
  destruct (run_string after (before ++ [OpInput (Press i)]) s1 a k2 rs2 vs1 kos1 mu1 cs1) as (s2 & vs2 & kos2 & mu2 & cs2 & A1 & A2 & A3 & A4 & A5); auto.
  - rewrite CtxFacts.run_ops_app, Hrun. cbn [bind]. unfold run_ops. cbn [fold_res]. rewrite E0. reflexivity.
  - now rewrite Hnow.
  - now rewrite Hnow.
  - rewrite <- app_assoc in A1, A2. cbn [app] in A1, A2. exists s2, vs2, kos2, mu2, cs2. split; [exact A1|]. split; [exact A2|]. split; [lia|]. split; [exact A4|].
    cbn [typed]. rewrite <- app_assoc, A5. exact Et.
Qed.
End StringRun.
