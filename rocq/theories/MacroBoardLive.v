(** What the keyboards with macro keys do in every run, and how they settle (C77). *)
From Verif Require Import BaseFacts Output Types Scheduler Reporter Keymap SimpleKeys Layered Automation Composite SpecKeymap
  SpecLayer SpecKinds SpecBoard BoardFacts SpecScheduler SpecTapBoard SpecMacro SpecDanceBoard SpecMacroBoard MacroBoardFacts ReporterFacts CtxFacts SpecPlain.
From Coq Require Import Permutation.
Local Open Scope N_scope.

Lemma sum_app a b : sum (a ++ b) = sum a + sum b.
Proof. induction a as [|x a IH]; cbn [sum app]; lia. Qed.

Section Live.
Variables (n : nat) (refs : list ref) (d : key_data) (cf : automation_config).
Local Notation D := (auc_duration cf).
Local Notation pause := (pause cf).
Local Notation cost := (cost cf).
Local Notation mcost := (mcost cf).
Local Notation C := (mcost (auc_instructions cf)).

Lemma mcost_app a b : mcost (a ++ b) = mcost a + mcost b.
Proof. unfold SpecMacroBoard.mcost. now rewrite map_app, sum_app. Qed.
Lemma mcost_cons i m : mcost (i :: m) = cost i + mcost m.
Proof. reflexivity. Qed.
Lemma mcost_of e : mcost (macro_of cf e) <= C.
Proof.
  unfold macro_of. set (l := skipn _ _). set (t := auc_instructions cf) in *.
  assert (mcost l <= mcost t) by (rewrite <- (firstn_skipn (N.to_nat (ex_start e)) t); rewrite mcost_app; unfold l; lia).
  assert (mcost (firstn (N.to_nat (ex_length e)) l) <= mcost l) by (rewrite <- (firstn_skipn (N.to_nat (ex_length e)) l) at 2; rewrite mcost_app; lia).
  lia.
Qed.

Lemma nexts_app a b : nexts (a ++ b) = (nexts a + nexts b)%nat.
Proof. unfold nexts. now rewrite filter_app, app_length. Qed.

(** The macros that wait have instructions left, and there is one next step if there
    are any; [x] is 1 while that step is taken. *)
Definition orderly (x : nat) (now : N) (k : desk) : Prop :=
  Forall (fun m => m <> [] /\ mcost m <= C) (dk_queue k) /\ (length (dk_queue k) <= 8)%nat
  /\ (nexts (dk_alarms k) + x = match dk_queue k with [] => 0 | _ => 1 end)%nat
  /\ Forall (fun p => fst p <= now + C) (dk_alarms k).
Definition dpot (now : N) (k : desk) : N := sum (map mcost (dk_queue k)) + sum (map (fun p => fst p - now + 1) (dk_alarms k)).

Lemma leads_late now ki i last more : Forall (fun p => fst p <= now + cost i) (leads_to cf now ki i last more).
Proof.
  unfold leads_to, SpecMacroBoard.cost, SpecMacroBoard.pause. destruct i; cbn [app]; destruct last, more; cbn [andb app]; repeat constructor; cbn [fst]; unfold u16 in *; lia.
Qed.
Lemma leads_pot now ki i last more : sum (map (fun p => fst p - now + 1) (leads_to cf now ki i last more)) <= cost i.
Proof.
  unfold leads_to, SpecMacroBoard.cost, SpecMacroBoard.pause. destruct i; cbn [app]; destruct last, more; cbn [andb app map sum fst]; unfold u16 in *; lia.
Qed.
Lemma leads_nexts now ki i last more : nexts (leads_to cf now ki i last more) = (if last then if more then 1 else 0 else 1)%nat.
Proof. unfold leads_to. destruct i; destruct last, more; reflexivity. Qed.

Lemma ask_next now ki k : orderly 1 now k -> orderly 0 now (ask cf now ki RqNext k) /\ dpot now (ask cf now ki RqNext k) <= dpot now k.
Proof.
  intros (Hq & Hl & Hn & Ha). unfold ask, orderly, dpot. cbn [player].
  destruct (dk_queue k) as [|m t] eqn:Eq; [lia|]. inversion Hq as [|? ? (Hm & Hc) Ht]; subst.
  destruct m as [|i rest]; [congruence|]. rewrite mcost_cons in Hc. cbn [length] in Hl.
  destruct rest as [|j rest]; cbn [play_one dk_queue dk_alarms]; rewrite nexts_app, leads_nexts, map_app, sum_app, Forall_app.
  - pose proof (leads_late now ki i true (match t with [] => false | _ => true end)) as X. pose proof (leads_pot now ki i true (match t with [] => false | _ => true end)) as Y.
    repeat split; try assumption; try lia.
    + destruct t; lia.
    + eapply Forall_impl; [|exact X]. cbn. intros. lia.
    + cbn [map sum]. rewrite mcost_cons. lia.
  - pose proof (leads_late now ki i false (match t with [] => false | _ => true end)) as X. pose proof (leads_pot now ki i false (match t with [] => false | _ => true end)) as Y.
    repeat split; try assumption; try (cbn [length]; lia).
    + constructor; [|exact Ht]. split; [discriminate|lia].
    + eapply Forall_impl; [|exact X]. cbn. intros. lia.
    + cbn [map sum]. rewrite (mcost_cons i). lia.
Qed.
Lemma ask_start now ki m k : mcost m <= C -> orderly 0 now k -> orderly 0 now (ask cf now ki (RqStart m) k) /\ dpot now (ask cf now ki (RqStart m) k) <= dpot now k + mcost m.
Proof.
  intros Hc H. destruct m as [|i m]; [unfold ask, player; split; [exact H|unfold dpot; cbn; lia]|].
  destruct (dk_queue k) as [|q0 q] eqn:Eq.
  - set (k1 := mkDesk (dk_board k) (dk_macros k) [i :: m] (dk_alarms k) (dk_calls k)).
    assert (H1 : orderly 1 now k1). { destruct H as (Hq & Hl & Hn & Ha). rewrite Eq in Hn. split; [repeat constructor; [discriminate|exact Hc]|]. split; [cbn; lia|]. split; [unfold k1; cbn [dk_alarms dk_queue]; lia|exact Ha]. }
    assert (E : ask cf now ki (RqStart (i :: m)) k = ask cf now ki RqNext k1) by (unfold ask; cbn [player]; rewrite Eq; reflexivity).
    rewrite E. destruct (ask_next now ki k1 H1) as (A & B). split; [exact A|].
    assert (Ek : dpot now k1 = dpot now k + mcost (i :: m)) by (unfold dpot; rewrite Eq; cbn [dk_queue dk_alarms k1 map sum]; lia). lia.
  - destruct H as (Hq & Hl & Hn & Ha). unfold ask. cbn [player]. rewrite Eq in *. destruct (Nat.ltb_spec (length (q0 :: q)) 8); unfold orderly, dpot; cbn [dk_queue dk_alarms]; rewrite ?Eq.
    + repeat split.
      * apply Forall_app. split; [exact Hq|]. repeat constructor; [discriminate|exact Hc].
      * rewrite app_length. cbn [length] in *. lia.
      * exact Hn.
      * exact Ha.
      * rewrite map_app, sum_app. cbn [map sum]. lia.
    + repeat split; try assumption. lia.
Qed.

Lemma done_ok now ki k : orderly 0 now k -> orderly 0 now (done cf now ki k).
Proof. intros H. unfold done. destruct (find _ _) as [[j a]|]; [|exact H]. apply ask_start; [apply mcost_of|exact H]. Qed.
Lemma nexts_mid l1 p l2 : nexts (l1 ++ p :: l2) = (nexts (l1 ++ l2) + if is_next (snd p) then 1 else 0)%nat.
Proof. rewrite !nexts_app. unfold nexts at 2. cbn [filter]. destruct (is_next (snd p)); cbn [length]; fold (nexts l2); lia. Qed.
Lemma ring_ok now al t l1 l2 k : orderly 0 now k -> dk_alarms k = l1 ++ (t, al) :: l2 ->
  orderly 0 now (ring cf now al (mkDesk (dk_board k) (dk_macros k) (dk_queue k) (l1 ++ l2) (dk_calls k))).
Proof.
  intros (Hq & Hl & Hn & Ha) E. rewrite E in Hn, Ha. rewrite nexts_mid in Hn. cbn [snd] in Hn. set (k1 := mkDesk _ _ _ _ _).
  assert (Ha1 : Forall (fun p => fst p <= now + C) (l1 ++ l2)) by (apply Forall_app in Ha as (A & B); inversion B; apply Forall_app; auto).
  destruct al as [ko|ki|ki]; cbn [is_next] in Hn; cbn [ring].
  - unfold k1. repeat split; cbn [dk_queue dk_alarms]; try assumption. lia.
  - apply ask_next. unfold k1. repeat split; cbn [dk_queue dk_alarms]; try assumption. lia.
  - apply done_ok. unfold k1. repeat split; cbn [dk_queue dk_alarms]; try assumption. lia.
Qed.
Lemma input_ok now k x k' : orderly 0 now k -> desk_input n refs d cf now k x k' -> orderly 0 now k'.
Proof.
  intros H Hi. destruct Hi as [ie b' cs _ _ _|i r a _ _ _|i a _].
  - exact H.
  - unfold macro_down. destruct (macro_of cf (ak_on_press a)) as [|y m] eqn:E; [apply done_ok; exact H|].
    apply ask_start; [rewrite <- E; apply mcost_of|exact H].
  - apply ask_start; [apply mcost_of|exact H].
Qed.
Lemma orderly_later now now' k : now <= now' -> orderly 0 now k -> orderly 0 now' k.
Proof. intros Hn (A & B & E & F). repeat split; try assumption. eapply Forall_impl; [|exact F]. cbn. lia. Qed.
Lemma picks_ok now s s' : orderly 0 now (pl_desk s) -> picks_up n refs d cf now s s' -> orderly 0 now (pl_desk s').
Proof. intros H Hp. destruct Hp; try exact H. cbn. eapply input_ok; eassumption. Qed.
Lemma now_snoc ops o : now_after (ops ++ [o]) = ck_now (clocks_step (clocks_run ops) o).
Proof. unfold now_after, clocks_run. now rewrite fold_left_app. Qed.
Lemma now_tick ops : now_after (ops ++ [OpTick]) = now_after ops + ck_ms (clocks_run ops).
Proof. now rewrite now_snoc. Qed.
Lemma call_ok ops s o s' : orderly 0 (now_after ops) (pl_desk s) -> play_call n refs d cf ops s o s' -> orderly 0 (now_after (ops ++ [o])) (pl_desk s').
Proof.
  intros H Hc. destruct Hc as [x Hl|x s' Hl Hp|s1 s2 Hp Hr| |ms]; try (rewrite now_snoc; exact H).
  - rewrite now_snoc. change (orderly 0 (now_after ops) (pl_desk s')). eapply picks_ok; [|exact Hp]. exact H.
  - rewrite now_tick in *. apply picks_ok with (s' := s1) in H; [|exact Hp]. apply (orderly_later _ (now_after ops + ck_ms (clocks_run ops))) in H; [|lia].
    destruct Hr as [Hr|t al l1 l2 El Hle Hmin]; [exact H|]. cbn [pl_desk]. eapply ring_ok; [exact H|exact El].
Qed.
Lemma orderly_new : orderly 0 0 desk_new.
Proof. repeat split; try constructor. cbn. lia. Qed.
Lemma run_ok ops s : play_run n refs d cf ops s -> orderly 0 (now_after ops) (pl_desk s).
Proof. induction 1 as [|ops s o s' Hr IH Hc]; [exact orderly_new|]. eapply call_ok; eassumption. Qed.

(** ** Settling *)
Definition pot (now : N) (s : playing) : N := dpot now (pl_desk s) + (C + 2) * N.of_nat (length (pl_waiting s)) + (if pl_busy s then 1 else 0).
Lemma runs_in on def r a : runs d on def r a -> In a (kd_automation d).
Proof. induction 1 as [q a H|]; [eapply nth_error_In; exact H|assumption]. Qed.
Lemma done_same now ki k : Forall (fun p => macro_of cf (ak_while_pressed (snd p)) = []) (dk_macros k) -> dpot now (done cf now ki k) = dpot now k /\ dk_macros (done cf now ki k) = dk_macros k.
Proof.
  intros H. unfold done. destruct (find _ _) as [[j a]|] eqn:E; [|auto]. apply find_some in E as (E & _). rewrite Forall_forall in H. apply H in E. cbn in E. rewrite E. auto.
Qed.
Lemma ask_macros now ki rq k : dk_macros (ask cf now ki rq k) = dk_macros k.
Proof. unfold ask. destruct (player _ _) as [q [[[i l] m]|]]; reflexivity. Qed.
Lemma input_pot now k x k' : orderly 0 now k -> Forall (fun p => macro_of cf (ak_while_pressed (snd p)) = []) (dk_macros k) ->
  (forall r on def a, In r refs -> runs d on def r a -> macro_of cf (ak_while_pressed a) = []) -> desk_input n refs d cf now k x k' ->
  dpot now k' <= dpot now k + C /\ Forall (fun p => macro_of cf (ak_while_pressed (snd p)) = []) (dk_macros k').
Proof.
  intros Ho Hm Hw Hi. destruct Hi as [ie b' cs _ _ _|i r a _ Hn Hr|i a _].
  - split; [unfold dpot; cbn; lia|exact Hm].
  - unfold macro_down. set (k1 := mkDesk _ _ _ _ _).
    assert (Hm1 : Forall (fun p => macro_of cf (ak_while_pressed (snd p)) = []) (dk_macros k1)). { apply Forall_app. split; [exact Hm|]. constructor; [|constructor]. eapply Hw; [eapply nth_error_In; exact Hn|exact Hr]. }
    destruct (macro_of cf (ak_on_press a)) as [|y m] eqn:E.
    + destruct (done_same now i k1 Hm1) as (A & B). rewrite A, B. split; [unfold dpot; cbn; lia|exact Hm1].
    + pose proof (mcost_of (ak_on_press a)) as X. rewrite E in X. destruct (ask_start now i (y :: m) k1 X Ho) as (_ & Y). rewrite ask_macros. split; [|exact Hm1]. change (dpot now k1) with (dpot now k) in Y. lia.
  - unfold macro_up. set (k1 := mkDesk _ _ _ _ _). pose proof (mcost_of (ak_on_release a)) as X.
    destruct (ask_start now i (macro_of cf (ak_on_release a)) k1 X Ho) as (_ & Y). rewrite ask_macros. change (dpot now k1) with (dpot now k) in Y. split; [lia|].
    cbn. rewrite Forall_forall in *. intros p Hp. apply filter_In in Hp as (Hp & _). now apply Hm.
Qed.
Lemma ring_pot now al k : (is_next al = true -> orderly 1 now k) -> Forall (fun p => macro_of cf (ak_while_pressed (snd p)) = []) (dk_macros k) ->
  dpot now (ring cf now al k) <= dpot now k /\ dk_macros (ring cf now al k) = dk_macros k.
Proof.
  intros Ho Hm. destruct al as [ko|ki|ki]; cbn [ring].
  - split; [unfold dpot; cbn; lia|reflexivity].
  - split; [apply ask_next, Ho; reflexivity|apply ask_macros].
  - destruct (done_same now ki k Hm) as (A & B). rewrite A, B. split; [lia|reflexivity].
Qed.
Lemma later_pot now now' l : now <= now' -> sum (map (fun p : N * alarm => fst p - now' + 1) l) <= sum (map (fun p => fst p - now + 1) l).
Proof. intros H. induction l as [|p l IH]; cbn [map sum]; [lia|]. unfold u16 in *. lia. Qed.
Lemma later_pot_lt now now' l : now < now' -> (forall t al, In (t, al) l -> now' < t) -> l <> [] -> sum (map (fun p : N * alarm => fst p - now' + 1) l) < sum (map (fun p => fst p - now + 1) l).
Proof.
  intros H Ha Hl. destruct l as [|[t al] l]; [congruence|]. cbn [map sum fst]. pose proof (later_pot now now' l ltac:(lia)). specialize (Ha t al (or_introl eq_refl)). lia.
Qed.
Lemma nothing_left now k : orderly 0 now k -> dk_alarms k = [] -> dk_queue k = [].
Proof. intros (_ & _ & Hn & _) E. rewrite E in Hn. cbn in Hn. destruct (dk_queue k); [reflexivity|lia]. Qed.
Lemma lt_pred (a b : N) : a < b -> a <= b - 1.
Proof. lia. Qed.
Lemma tick_pot ops s s' : orderly 0 (now_after ops) (pl_desk s) -> holds_nothing refs d cf s -> 0 < ck_ms (clocks_run ops) -> play_call n refs d cf ops s OpTick s' ->
  holds_nothing refs d cf s' /\ pot (now_after (ops ++ [OpTick])) s' <= pot (now_after ops) s - 1.
Proof.
  intros Ho Hh Hms Hc. inversion Hc as [| |s1 s2 Hp Hr| |]; subst. rewrite now_tick in *. set (now := now_after ops) in *. set (now' := now + ck_ms (clocks_run ops)) in *.
  assert (X : orderly 0 now (pl_desk s1) /\ holds_nothing refs d cf s1 /\ pot now (rests s1) <= pot now s /\ (pl_busy s = true \/ pl_waiting s <> [] -> pot now (rests s1) < pot now s)
     /\ (pl_busy s = false -> pl_waiting s = [] -> s1 = s)).
  { split; [eapply picks_ok; eassumption|]. destruct Hp as [Hb|Hw|x w k' Hb Hw Hi].
    - split; [exact Hh|]. unfold pot. cbn [rests pl_desk pl_waiting pl_busy]. rewrite Hb. split; [lia|]. split; [lia|reflexivity].
    - split; [exact Hh|]. unfold pot. cbn [rests pl_desk pl_waiting pl_busy]. split; [lia|]. split; [|reflexivity]. intros [Hb|Hw']; [rewrite Hb; lia|congruence].
    - destruct Hh as (Hm & [Hw'|Hw']); [congruence|]. destruct (input_pot _ _ _ _ Ho Hm Hw' Hi) as (A & B). split; [split; [exact B|now right]|].
      unfold pot. cbn [rests pl_desk pl_waiting pl_busy]. rewrite Hb, Hw. cbn [length]. rewrite Nat2N.inj_succ. split; [lia|]. split; [lia|congruence]. }
  destruct X as (Ho1 & (Hm1 & Hw1) & Hp1 & Hp2 & Hs1).
  destruct Hr as [Hno|t al l1 l2 El Hle Hmin]; cbn [rests pl_desk pl_waiting pl_busy] in *.
  - split; [split; assumption|]. pose proof (later_pot now now' (dk_alarms (pl_desk s1)) ltac:(lia)) as L1.
    destruct (dk_alarms (pl_desk s1)) as [|p l] eqn:Ea.
    + assert (Ep : pot now' (rests s1) = pot now (rests s1)) by (unfold pot, dpot; cbn [rests pl_desk]; rewrite Ea; reflexivity). rewrite Ep.
      destruct (pl_busy s) eqn:Eb; [apply lt_pred, Hp2; now left|]. destruct (pl_waiting s) eqn:Ew; [|apply lt_pred, Hp2; right; discriminate].
      pose proof (nothing_left _ _ Ho1 Ea) as Eq. rewrite (Hs1 eq_refl eq_refl) in *. unfold pot, dpot. cbn [rests pl_desk pl_waiting pl_busy]. rewrite Ea, Eq, Ew. cbn [map sum length]. lia.
    + apply lt_pred. eapply N.lt_le_trans; [|exact Hp1]. pose proof (later_pot_lt now now' (p :: l) ltac:(lia) Hno ltac:(discriminate)) as L2.
      unfold pot, dpot. cbn [rests pl_desk pl_waiting pl_busy]. rewrite Ea. apply N.add_lt_mono_r, N.add_lt_mono_r, N.add_lt_mono_l. exact L2.
  - set (k1 := mkDesk (dk_board (pl_desk s1)) (dk_macros (pl_desk s1)) (dk_queue (pl_desk s1)) (l1 ++ l2) (dk_calls (pl_desk s1))) in *.
    destruct (ring_pot now' al k1) as (A & B); [| exact Hm1|].
    { intros Hn. pose proof (orderly_later now now' (pl_desk s1) ltac:(lia) Ho1) as (Q1 & Q2 & Q3 & Q4). rewrite El in Q3, Q4. rewrite nexts_mid in Q3. cbn [snd] in Q3. rewrite Hn in Q3.
      unfold k1; repeat split; cbn [dk_queue dk_alarms]; try assumption. { rewrite <- Q3. lia. } apply Forall_app in Q4 as (Q4 & Q5). inversion Q5. apply Forall_app. auto. }
    split; [split; cbn [pl_desk pl_waiting]; [rewrite B; exact Hm1|exact Hw1]|].
    pose proof (later_pot now now' (l1 ++ l2) ltac:(lia)) as L1. apply lt_pred. eapply N.lt_le_trans; [|exact Hp1].
    unfold pot. cbn [rests pl_desk pl_waiting pl_busy]. apply N.add_lt_mono_r, N.add_lt_mono_r. eapply N.le_lt_trans; [exact A|].
    unfold dpot. rewrite El. cbn [dk_queue dk_alarms k1]. apply N.add_lt_mono_l. eapply N.le_lt_trans; [exact L1|]. rewrite !map_app, !sum_app. cbn [map sum]. lia.
Qed.
Lemma pot_zero now s : orderly 0 now (pl_desk s) -> pot now s = 0 -> dk_alarms (pl_desk s) = [] /\ pl_waiting s = [] /\ dk_queue (pl_desk s) = [].
Proof.
  intros Ho H. unfold pot, dpot in H.
  assert (Ea : dk_alarms (pl_desk s) = []) by (destruct (dk_alarms (pl_desk s)) as [|p l]; [reflexivity|exfalso; cbn [map sum] in H; lia]).
  split; [exact Ea|]. split; [|eapply nothing_left; eassumption].
  destruct (pl_waiting s) as [|x l]; [reflexivity|exfalso]. cbn [length] in H. rewrite Nat2N.inj_succ in H. nia.
Qed.
Lemma pot_bound now s : orderly 0 now (pl_desk s) -> (length (dk_alarms (pl_desk s)) <= 32)%nat -> (length (pl_waiting s) <= 31)%nat -> pot now s <= 100 * (C + 1).
Proof.
  intros (Hq & Hl & _ & Ha) Hn Hw. unfold pot, dpot.
  assert (A : sum (map mcost (dk_queue (pl_desk s))) <= C * N.of_nat (length (dk_queue (pl_desk s)))).
  { clear - Hq. induction Hq as [|m q (_ & Hm) _ IH]; cbn [map sum length]; [lia|]. rewrite Nat2N.inj_succ. nia. }
  assert (B : sum (map (fun p => fst p - now + 1) (dk_alarms (pl_desk s))) <= (C + 1) * N.of_nat (length (dk_alarms (pl_desk s)))).
  { clear - Ha. induction Ha as [|p l Hp _ IH]; cbn [map sum length]; [lia|]. rewrite Nat2N.inj_succ. nia. }
  destruct (pl_busy s); nia.
Qed.

(** ** Keys that macros press *)
Definition released (k : desk) : Prop := Permutation (virtuals (bd_down (dk_board k))) (releases (dk_alarms k)) /\ Forall (Forall leaves_no_key) (dk_queue k).
Lemma virtuals_app a b : virtuals (a ++ b) = virtuals a ++ virtuals b.
Proof. apply filter_map_app. Qed.
Lemma releases_app a b : releases (a ++ b) = releases a ++ releases b.
Proof. apply filter_map_app. Qed.
Lemma virtuals_key i l : virtuals (remove_first (this_key i) l) = virtuals l.
Proof. induction l as [|[[j m]|ko] l IH]; cbn; [reflexivity|destruct (i =? j); [reflexivity|exact IH]|]. f_equal. exact IH. Qed.
Lemma virtuals_remove ko l : In ko (virtuals l) -> Permutation (virtuals l) (ko :: virtuals (remove_first (this_virtual ko) l)).
Proof.
  induction l as [|[[j m]|ko'] l IH]; cbn; [contradiction|exact IH|]. intros [->|H].
  - rewrite (proj2 (ko_eqb_eq ko ko) eq_refl). reflexivity.
  - destruct (ko_eqb ko ko') eqn:E; [apply ko_eqb_eq in E as ->; reflexivity|]. cbn. rewrite perm_swap. constructor. apply IH. exact H.
Qed.
Hypothesis Htaps : Forall leaves_no_key (auc_instructions cf).
Lemma taps_of e : Forall leaves_no_key (macro_of cf e).
Proof.
  unfold macro_of. rewrite Forall_forall in *. intros x Hx. apply Htaps. set (l := skipn _ _) in Hx.
  rewrite <- (firstn_skipn (N.to_nat (ex_start e)) (auc_instructions cf)). apply in_or_app. right. fold l. rewrite <- (firstn_skipn (N.to_nat (ex_length e)) l). apply in_or_app. now left.
Qed.
Lemma leads_releases now ki i last more : leaves_no_key i -> releases (leads_to cf now ki i last more) = match i with InTap ko => [ko] | _ => [] end.
Proof. destruct i; try contradiction; intros _; unfold leads_to; destruct last, more; reflexivity. Qed.
Lemma played_released now ki q i last more k : leaves_no_key i -> Forall (Forall leaves_no_key) q -> Permutation (virtuals (bd_down (dk_board k))) (releases (dk_alarms k)) ->
  released (mkDesk (performs i (dk_board k)) (dk_macros k) q (dk_alarms k ++ leads_to cf now ki i last more) (dk_calls k)).
Proof.
  intros Hi Hq Hp. split; [|exact Hq]. cbn [dk_board dk_alarms]. rewrite releases_app, leads_releases by exact Hi.
  destruct i; try contradiction; cbn [performs set_down bd_down]; rewrite ?virtuals_app, ?app_nil_r; try exact Hp. now apply Permutation_app.
Qed.
Lemma play_one_released now ki q k : Permutation (virtuals (bd_down (dk_board k))) (releases (dk_alarms k)) -> Forall (Forall leaves_no_key) q ->
  released (match play_one q with
  | (q, None) => mkDesk (dk_board k) (dk_macros k) q (dk_alarms k) (dk_calls k)
  | (q, Some (i, last, more)) => mkDesk (performs i (dk_board k)) (dk_macros k) q (dk_alarms k ++ leads_to cf now ki i last more) (dk_calls k)
  end).
Proof.
  intros Hp Hq. destruct q as [|[|i [|j m]] t]; cbn [play_one]; try (split; [exact Hp|exact Hq]); inversion Hq as [|? ? Hm Ht]; subst; inversion Hm as [|? ? Hi Hr]; subst; apply played_released; auto.
Qed.
Lemma ask_released now ki rq k : match rq with RqStart m => Forall leaves_no_key m | _ => True end -> released k -> released (ask cf now ki rq k).
Proof.
  intros Hm (Hp & Hq). unfold ask. destruct rq as [[|i m]| |]; cbn [player]; try (split; [exact Hp|exact Hq]).
  - destruct (dk_queue k) as [|q0 q] eqn:Eq.
    + apply (play_one_released now ki [i :: m] k Hp). constructor; [exact Hm|constructor].
    + destruct (_ <? _)%nat; (split; [exact Hp|]); cbn [dk_queue]; [apply Forall_app; split; [exact Hq|constructor; [exact Hm|constructor]]|exact Hq].
  - apply play_one_released; assumption.
Qed.
Lemma done_released now ki k : released k -> released (done cf now ki k).
Proof. intros H. unfold done. destruct (find _ _) as [[j a]|]; [|exact H]. apply ask_released; [apply taps_of|exact H]. Qed.
Lemma ring_released now al t l1 l2 k : released k -> dk_alarms k = l1 ++ (t, al) :: l2 ->
  released (ring cf now al (mkDesk (dk_board k) (dk_macros k) (dk_queue k) (l1 ++ l2) (dk_calls k))).
Proof.
  intros (Hp & Hq) E. rewrite E, releases_app in Hp. destruct al as [ko|ki|ki]; cbn [ring].
  - split; [|exact Hq]. cbn [dk_board dk_alarms performs set_down bd_down]. change (releases ((t, AlRelease ko) :: l2)) with (ko :: releases l2) in Hp.
    rewrite releases_app. apply (Permutation_cons_inv (a := ko)). rewrite <- virtuals_remove; [rewrite Hp; symmetry; apply Permutation_middle|].
    eapply Permutation_in; [symmetry; exact Hp|]. apply in_or_app. right. now left.
  - apply ask_released; [exact Logic.I|]. split; [|exact Hq]. cbn [dk_board dk_alarms]. rewrite releases_app. exact Hp.
  - apply done_released. split; [|exact Hq]. cbn [dk_board dk_alarms]. rewrite releases_app. exact Hp.
Qed.
Lemma switch_down m e b : bd_down (switch m e b) = bd_down b.
Proof. destruct e; reflexivity. Qed.
Lemma input_released now k x k' : ~ is_virtual_input x -> released k -> desk_input n refs d cf now k x k' -> released k'.
Proof.
  intros Hv H Hi. pose proof H as (Hp & Hq). destruct Hi as [ie b' cs _ Hs _|i r a _ _ _|i a _].
  - split; [|exact Hq]. cbn [dk_board dk_alarms]. inversion Hs; subst; try (cbn in Hv; tauto); try exact Hp; rewrite switch_down; cbn [set_down bd_down].
    + rewrite virtuals_app. cbn. rewrite app_nil_r. exact Hp.
    + rewrite virtuals_key. exact Hp.
  - unfold macro_down. set (k1 := mkDesk _ _ _ _ _).
    assert (H1 : released k1). { split; [|exact Hq]. cbn [k1 dk_board dk_alarms set_down bd_down]. rewrite virtuals_app. cbn. rewrite app_nil_r. exact Hp. }
    destruct (macro_of cf (ak_on_press a)) as [|y m] eqn:E; [apply done_released; exact H1|].
    apply ask_released; [rewrite <- E; apply taps_of|exact H1].
  - apply ask_released; [apply taps_of|]. split; [|exact Hq]. cbn [dk_board dk_alarms set_down bd_down]. rewrite virtuals_key. exact Hp.
Qed.
Lemma picks_released now s s' : Forall (fun x => ~ is_virtual_input x) (pl_waiting s) -> released (pl_desk s) -> picks_up n refs d cf now s s' ->
  Forall (fun x => ~ is_virtual_input x) (pl_waiting s') /\ released (pl_desk s').
Proof.
  intros Hw H Hp. destruct Hp as [| |x w k' _ Ew Hi]; auto. rewrite Ew in Hw. inversion Hw; subst. split; [assumption|]. eapply input_released; eassumption.
Qed.
Lemma run_released ops s : Forall (fun o => match o with OpInput x => ~ is_virtual_input x | _ => True end) ops -> play_run n refs d cf ops s ->
  Forall (fun x => ~ is_virtual_input x) (pl_waiting s) /\ released (pl_desk s).
Proof.
  intros Ho Hr. induction Hr as [|ops s o s' Hr IH Hc].
  - split; [constructor|]. split; [constructor|constructor].
  - apply Forall_app in Ho as (Ho & Ho1). inversion Ho1 as [|? ? Hx _]; subst. destruct (IH Ho) as (Hw & H).
    destruct Hc as [x Hl|x s' Hl Hp|s1 s2 Hp Hg| |ms]; auto.
    + eapply picks_released; [| |exact Hp]; [|exact H]. cbn. apply Forall_app. split; [exact Hw|]. constructor; [exact Hx|constructor].
    + destruct (picks_released _ _ _ Hw H Hp) as (Hw1 & H1). destruct Hg as [Hg|t al l1 l2 El Hle Hmin]; [split; assumption|]. split; [exact Hw1|].
      cbn [pl_desk]. eapply ring_released; [exact H1|exact El].
Qed.
End Live.

(** ** One macro key that is held *)
Section Held.
Variables (n : nat) (refs : list ref) (d : key_data) (cf : automation_config) (i : u16).
Hypothesis Honly : forall j r on def a, nth_error refs (N.to_nat j) = Some r -> runs d on def r a -> j = i.
Definition own (al : alarm) : Prop := match al with AlRelease _ => True | AlNext j | AlDone j => j = i end.
Definition lively (k : desk) : Prop := dk_queue k <> [] \/ exists t, In (t, AlDone i) (dk_alarms k).
Definition keeps (k : desk) : Prop :=
  Forall (fun p => own (snd p)) (dk_alarms k)
  /\ (dk_macros k = [] \/ exists a, dk_macros k = [(i, a)] /\ existsb (this_key i) (bd_down (dk_board k)) = true /\ (macro_of cf (ak_while_pressed a) <> [] -> lively k)).
Lemma leads_own now x last more : Forall (fun p => own (snd p)) (leads_to cf now i x last more).
Proof. unfold leads_to. destruct x, last, more; repeat constructor. Qed.
Lemma leads_done now x more : exists t, In (t, AlDone i) (leads_to cf now i x true more).
Proof. unfold leads_to. eexists. apply in_or_app. right. left. reflexivity. Qed.
Lemma lively_more k b M q al cs : lively k -> (dk_queue k <> [] -> q <> []) -> lively (mkDesk b M q (dk_alarms k ++ al) cs).
Proof. intros [H|(t & H)] Hq; [left; now apply Hq|right]. exists t. apply in_or_app. now left. Qed.
Lemma ask_next_lively now k : dk_queue k <> [] -> Forall (fun m => m <> []) (dk_queue k) -> lively (ask cf now i RqNext k).
Proof.
  intros Hq Hm. unfold ask. cbn [player]. destruct (dk_queue k) as [|[|x [|y m]] t]; [congruence|inversion Hm; congruence| |]; cbn [play_one].
  - right. destruct (leads_done now x (match t with [] => false | _ => true end)) as (u & Hu). exists u. apply in_or_app. now right.
  - left. discriminate.
Qed.
Lemma ask_start_lively now m k : lively k \/ m <> [] -> lively (ask cf now i (RqStart m) k).
Proof.
  intros H. unfold ask. destruct m as [|x m]; cbn [player].
  - destruct H as [H|H]; [|congruence]. exact H.
  - destruct (dk_queue k) as [|q0 q] eqn:Eq.
    + destruct m as [|y m]; cbn [play_one].
      * right. destruct (leads_done now x false) as (u & Hu). exists u. apply in_or_app. now right.
      * left. discriminate.
    + destruct (_ <? _)%nat; left; discriminate.
Qed.
Lemma ask_own now rq k : Forall (fun p => own (snd p)) (dk_alarms k) -> Forall (fun p => own (snd p)) (dk_alarms (ask cf now i rq k)).
Proof.
  intros H. unfold ask. destruct (player _ _) as [q [[[x l] m]|]]; [|exact H]. apply Forall_app. split; [exact H|apply leads_own].
Qed.
Lemma performs_key x b : existsb (this_key i) (bd_down b) = true -> existsb (this_key i) (bd_down (performs x b)) = true.
Proof.
  intros H. destruct x as [|ko|ko|ko|t]; cbn [performs set_down bd_down]; try exact H; try (rewrite existsb_app, H; reflexivity).
  revert H. induction (bd_down b) as [|[[j m]|ko'] l IH]; cbn; [auto| |].
  - destruct (i =? j); [reflexivity|]. exact IH.
  - intros H. destruct (ko_eqb ko ko'); [exact H|]. cbn. now apply IH.
Qed.
Lemma ask_key now rq k : existsb (this_key i) (bd_down (dk_board k)) = true -> existsb (this_key i) (bd_down (dk_board (ask cf now i rq k))) = true.
Proof. intros H. unfold ask. destruct (player _ _) as [q [[[x l] m]|]]; [|exact H]. cbn [dk_board]. now apply performs_key. Qed.
Lemma ask_start_keeps now m k : keeps k -> keeps (ask cf now i (RqStart m) k).
Proof.
  intros (Ha & H). split; [now apply ask_own|]. rewrite ask_macros. destruct H as [H|(a & Hm & Hk & Hl)]; [now left|right]. exists a. split; [exact Hm|]. split; [now apply ask_key|].
  intros Hw. apply ask_start_lively. left. now apply Hl.
Qed.
Lemma done_starts now k a : dk_macros k = [(i, a)] -> done cf now i k = ask cf now i (RqStart (macro_of cf (ak_while_pressed a))) k.
Proof. intros H. unfold done. rewrite H. cbn [find fst]. now rewrite N.eqb_refl. Qed.
Lemma ring_keeps now al t l1 l2 k : Forall (fun m => m <> []) (dk_queue k) -> (is_next al = true -> dk_queue k <> []) -> keeps k -> dk_alarms k = l1 ++ (t, al) :: l2 ->
  keeps (ring cf now al (mkDesk (dk_board k) (dk_macros k) (dk_queue k) (l1 ++ l2) (dk_calls k))).
Proof.
  intros Hne Hnx (Ha & H) E. rewrite E in Ha. apply Forall_app in Ha as (A1 & A2). inversion A2 as [|? ? Hown A3]; subst. cbn [snd] in Hown.
  assert (A : Forall (fun p => own (snd p)) (l1 ++ l2)) by (apply Forall_app; auto).
  destruct al as [ko|ki|ki]; cbn [ring]; cbn [own] in Hown; subst.
  - split; [exact A|]. destruct H as [H|(a & Hm & Hk & Hl)]; [now left|right]. exists a. split; [exact Hm|]. split; [now apply performs_key|].
    intros Hw. destruct (Hl Hw) as [Hq|(u & Hu)]; [now left|right]. exists u. rewrite E in Hu. cbn [dk_alarms]. apply in_app_or in Hu as [Hu|[Hu|Hu]]; [|discriminate Hu|]; apply in_or_app; auto.
  - split; [now apply ask_own|]. rewrite ask_macros. destruct H as [H|(a & Hm & Hk & Hl)]; [now left|right]. exists a. split; [exact Hm|]. split; [now apply ask_key|].
    intros _. apply ask_next_lively; [now apply Hnx|exact Hne].
  - destruct H as [H|(a & Hm & Hk & Hl)].
    + unfold done. cbn [dk_macros]. rewrite H. cbn [find]. split; [exact A|now left].
    + rewrite (done_starts _ _ a) by exact Hm. split; [now apply ask_own|]. right. exists a. rewrite ask_macros. split; [exact Hm|]. split; [now apply ask_key|].
      intros Hw. apply ask_start_lively. now right.
Qed.
Lemma step_key_down k x b' : (forall j a, x = Release j -> ~ In (j, a) (dk_macros k)) -> board_step n refs d (dk_board k) x b' -> forall a, dk_macros k = [(i, a)] ->
  existsb (this_key i) (bd_down (dk_board k)) = true -> existsb (this_key i) (bd_down b') = true.
Proof.
  intros Hx Hs a Hm H. inversion Hs; subst; try exact H; rewrite ?switch_down; cbn [set_down bd_down]; try (rewrite existsb_app, H; reflexivity).
  - assert (Hne : i0 <> i) by (intros ->; apply (Hx i a eq_refl); rewrite Hm; now left). revert H. clear - Hne.
    induction (bd_down (dk_board k)) as [|[[j m']|ko'] l IH]; cbn [existsb remove_first this_key orb]; [auto| |].
    + destruct (N.eqb_spec i0 j) as [->|Hj]; [destruct (N.eqb_spec i j) as [->|]; [congruence|auto]|]. cbn [existsb this_key]. destruct (i =? j); [reflexivity|exact IH].
    + exact IH.
  - exact (performs_key (InRelease ko) (dk_board k) H).
Qed.
Lemma input_keeps now k x k' : keeps k -> desk_input n refs d cf now k x k' -> keeps k'.
Proof.
  intros H Hi. pose proof H as (Ha & Hh). destruct Hi as [ie b' cs Hx Hs _|j r a Hd Hr Hrun|j a Hin].
  - split; [exact Ha|]. destruct Hh as [Hm|(a & Hm & Hk & Hl)]; [now left|right]. exists a. split; [exact Hm|]. split; [|exact Hl]. cbn [dk_board]. eapply step_key_down; eassumption.
  - assert (j = i) as -> by (eapply Honly; eassumption). destruct Hh as [Hm|(a' & Hm & Hk & _)]; [|congruence].
    unfold macro_down. rewrite Hm. cbn [app]. set (k1 := mkDesk _ _ _ _ _).
    assert (Hk1 : existsb (this_key i) (bd_down (dk_board k1)) = true) by (cbn; rewrite existsb_app; cbn; rewrite N.eqb_refl, orb_true_r; reflexivity).
    assert (G : forall m, m <> [] \/ macro_of cf (ak_while_pressed a) = [] -> keeps (ask cf now i (RqStart m) k1)).
    { intros m Hmm. split; [now apply ask_own|]. right. exists a. rewrite ask_macros. split; [reflexivity|]. split; [now apply ask_key|]. intros Hw. apply ask_start_lively. right. destruct Hmm; congruence. }
    destruct (macro_of cf (ak_on_press a)) as [|y m] eqn:E; [|apply G; left; discriminate].
    rewrite (done_starts _ _ a) by reflexivity. apply G. destruct (macro_of cf (ak_while_pressed a)); [now right|left; discriminate].
  - destruct Hh as [Hm|(a' & Hm & Hk & Hl)]; rewrite Hm in Hin; [contradiction|]. destruct Hin as [Hin|[]]. injection Hin as Ei Ea. rewrite <- Ei in *.
    unfold macro_up. rewrite Hm. cbn [filter fst]. rewrite N.eqb_refl. cbn [negb]. apply ask_start_keeps. split; [exact Ha|now left].
Qed.
Lemma run_keeps ops s : play_run n refs d cf ops s -> keeps (pl_desk s).
Proof.
  induction 1 as [|ops s o s' Hr IH Hc]; [split; [constructor|now left]|]. pose proof (run_ok _ _ _ _ _ _ Hr) as Ho.
  destruct Hc as [x Hl|x s' Hl Hp|s1 s2 Hp Hg| |ms]; auto.
  - destruct Hp as [| |y w k' _ _ Hi]; try exact IH. eapply input_keeps; [|exact Hi]. exact IH.
  - assert (X : keeps (pl_desk s1) /\ orderly cf 0 (now_after ops) (pl_desk s1)). { split; [|eapply picks_ok; eassumption]. destruct Hp as [| |y w k' _ _ Hi]; try exact IH. eapply input_keeps; [|exact Hi]. exact IH. }
    destruct X as (H1 & (Q1 & _ & Q3 & _)). destruct Hg as [Hg|t al l1 l2 El Hle Hmin]; [exact H1|]. cbn [pl_desk rests] in *.
    eapply ring_keeps; [| |exact H1|exact El].
    + eapply Forall_impl; [|exact Q1]. cbn. tauto.
    + intros Hn Hq. rewrite Hq, El, nexts_mid in Q3. cbn [snd] in Q3. rewrite Hn in Q3. lia.
Qed.
End Held.

(** ** The macro keys that are down are those of the keymap *)
Lemma run_macros_of n refs d cf ops s : play_run n refs d cf ops s ->
  Forall (fun p => exists r on def, In r refs /\ runs d on def r (snd p)) (dk_macros (pl_desk s)).
Proof.
  set (P := fun k => Forall (fun p : u16 * automation_key => exists r on def, In r refs /\ runs d on def r (snd p)) (dk_macros k)).
  assert (Hdone : forall now ki k, dk_macros (done cf now ki k) = dk_macros k) by (intros; unfold done; destruct (find _ _) as [[j a]|]; [apply ask_macros|reflexivity]).
  assert (Hin : forall now k x k', P k -> desk_input n refs d cf now k x k' -> P k').
  { intros now k x k' Hk Hi. destruct Hi as [ie b' cs _ _ _|i r a _ Hin Hr|i a _]; [exact Hk| |]; unfold P.
    - assert (X : Forall (fun p : u16 * automation_key => exists r on def, In r refs /\ runs d on def r (snd p)) (dk_macros k ++ [(i, a)])) by (apply Forall_app; split; [exact Hk|]; constructor; [apply nth_error_In in Hin; eauto|constructor]).
      unfold macro_down. destruct (macro_of cf (ak_on_press a)); [rewrite Hdone; exact X|rewrite ask_macros; exact X].
    - unfold macro_up. rewrite ask_macros. cbn [dk_macros]. unfold P in Hk. rewrite Forall_forall in *. intros p Hp. apply filter_In in Hp as (Hp & _). now apply Hk. }
  assert (Hp : forall now s s', P (pl_desk s) -> picks_up n refs d cf now s s' -> P (pl_desk s')) by (intros now a b Ha Hb; destruct Hb; try exact Ha; eapply Hin; eassumption).
  induction 1 as [|ops s o s' Hr IH Hc]; [constructor|]. change (P (pl_desk s')). change (P (pl_desk s)) in IH.
  destruct Hc as [x Hl|x s' Hl Hq|s1 s2 Hq Hg| |ms]; auto.
  - eapply Hp; [|exact Hq]. exact IH.
  - apply (Hp _ _ _ IH) in Hq. destruct Hg as [Hg|t al l1 l2 El Hle Hmin]; [exact Hq|]. unfold P. cbn [pl_desk rests] in *.
    destruct al; cbn [ring]; [exact Hq|rewrite ask_macros; exact Hq|rewrite Hdone; exact Hq].
Qed.
Lemma run_macros n refs d cf ops s : play_run n refs d cf ops s -> Forall (fun p => In (snd p) (kd_automation d)) (dk_macros (pl_desk s)).
Proof. intros H. eapply Forall_impl; [|eapply run_macros_of; exact H]. intros p (r & on & def & _ & Hr). eapply runs_in; exact Hr. Qed.
Lemma none_held n refs d cf ops s : (forall r on def a, In r refs -> runs d on def r a -> macro_of cf (ak_while_pressed a) = []) -> play_run n refs d cf ops s -> holds_nothing refs d cf s.
Proof. intros H Hr. split; [|now right]. eapply Forall_impl; [|eapply run_macros_of; exact Hr]. cbn. intros p (r & on & def & Hi & Hu). eapply H; eassumption. Qed.

(** ** The keymap settles *)
Section Settle.
Variables (refs : list ref) (d : key_data) (pos : position_fn) (dbg : bool) (cf : config) (fuel : nat).
Local Notation n := (cf_layer_count cf).
Local Notation ac := (cf_automation cf).
Hypothesis Hpos : position_ok pos.
Hypothesis Hrefs : exists height, Forall (macro_board_key n d ac height) refs.
Variable L : list (callback * callback_fn).
Local Notation conf := (cconf refs d pos dbg).
Local Notation k0 := (set_callbacks (km_new (ctx_from_config cf)) L).
Lemma ticks_ms ops : ck_ms (clocks_run (ops ++ [OpTick])) = ck_ms (clocks_run ops).
Proof. unfold clocks_run. now rewrite fold_left_app. Qed.
Lemma settle ticks : forall ops s k k', Forall (fun o => plain_op o = true) ops -> run_ops conf fuel ops k0 = Ok k -> play_run n refs d ac ops s -> psim d n ac L false (now_after ops) s k ->
  holds_nothing refs d ac s -> 0 < ck_ms (clocks_run ops) -> pot ac (now_after ops) s <= N.of_nat ticks ->
  run_ops conf fuel (repeat OpTick ticks) k = Ok k' ->
  exists s', play_run n refs d ac (ops ++ repeat OpTick ticks) s' /\ psim d n ac L false (now_after (ops ++ repeat OpTick ticks)) s' k' /\ pot ac (now_after (ops ++ repeat OpTick ticks)) s' = 0.
Proof.
  induction ticks as [|t IH]; intros ops s k k' Ho Hk Hr Hs Hh Hms Hp H.
  - injection H as <-. exists s. cbn [repeat]. rewrite app_nil_r. split; [exact Hr|]. split; [exact Hs|lia].
  - cbn [repeat] in *. change (OpTick :: repeat OpTick t) with ([OpTick] ++ repeat OpTick t) in *. rewrite run_ops_app in H. inv_bind H. rename a into k1. rename E into E1.
    assert (Ho1 : Forall (fun o => plain_op o = true) (ops ++ [OpTick])) by (apply Forall_app; split; [exact Ho|repeat constructor]).
    assert (E2 : run_op conf fuel k OpTick = Ok k1). { unfold run_ops in E1. cbn [fold_res] in E1. inv_bind E1. injection E1 as <-. exact E. }
    destruct (op_play refs d pos dbg cf fuel Hpos Hrefs L false ltac:(discriminate) ops s k k1 OpTick Ho1 Hk Hs ltac:(discriminate) E2) as (s1 & Hc & _ & Hs1).
    destruct (tick_pot n refs d ac ops s s1 (run_ok _ _ _ _ _ _ Hr) Hh Hms Hc) as (Hh1 & Hp1).
    rewrite app_assoc. apply (IH (ops ++ [OpTick]) s1 k1 k'); auto.
    + rewrite run_ops_app, Hk. exact E1.
    + econstructor; eassumption.
    + now rewrite ticks_ms.
    + rewrite Nat2N.inj_succ in Hp. lia.
Qed.
End Settle.
