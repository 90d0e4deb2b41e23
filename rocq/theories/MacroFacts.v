(** The automation context implements the macro player. *)
From Verif Require Import BaseFacts Output Types Keymap Automation Composite SpecKinds SpecMacro.
Local Open Scope N_scope.

(** The executions in use come first; the rest of the eight slots is empty. *)
Definition queue_is (c : automation_ctx) (l : list execution) : Prop :=
  aux_queue c = l ++ repeat exec_empty (8 - length l) /\ (length l <= 8)%nat
  /\ Forall (fun e => exec_is_empty e = false /\ exec_in_range (aux_config c) e) l.
Definition todo (c : automation_config) (l : list execution) : waiting := map (macro_of c) l.

Lemma macro_cons c e : exec_is_empty e = false -> exec_in_range c e ->
  exists i, nth_error (auc_instructions c) (N.to_nat (ex_start e)) = Some i
    /\ macro_of c e = i :: macro_of c (exec_incr e)
    /\ (exec_is_empty (exec_incr e) = true <-> macro_of c (exec_incr e) = [])
    /\ exec_is_empty (exec_incr e) = negb (1 <? ex_length e)
    /\ exec_in_range c (exec_incr e).
Proof.
  unfold exec_is_empty, exec_in_range, exec_is_empty, macro_of, exec_incr. intros H [X|X]; [congruence|]. apply N.eqb_neq in H.
  rewrite (proj2 (N.ltb_lt 0 (ex_length e))) by (apply N.neq_0_lt_0; exact H). cbn [ex_start ex_length].
  destruct (nth_error (auc_instructions c) (N.to_nat (ex_start e))) as [i|] eqn:E.
  2:{ apply nth_error_None in E. lia. }
  exists i. split; [reflexivity|]. split; [|split; [|split]].
  - assert (E1 : N.to_nat (ex_length e) = S (N.to_nat (ex_length e - 1))) by lia. rewrite E1.
    assert (E2 : N.to_nat (ex_start e + 1) = S (N.to_nat (ex_start e))) by lia. rewrite E2.
    clear -E. revert E. generalize (N.to_nat (ex_start e)) as n. generalize (auc_instructions c) as l.
    induction l as [|x l IH]; intros [|n] E; try discriminate.
    + cbn in E. injection E as ->. reflexivity.
    + cbn [skipn]. rewrite (IH n E). reflexivity.
  - rewrite N.eqb_eq. split; intros Y.
    + rewrite Y. reflexivity.
    + apply (f_equal (@length _)) in Y. rewrite firstn_length, skipn_length in Y. cbn in Y. lia.
  - destruct (1 <? ex_length e) eqn:El; cbn.
    + apply N.ltb_lt in El. apply N.eqb_neq. lia.
    + apply N.ltb_ge in El. apply N.eqb_eq. lia.
  - right. lia.
Qed.

Lemma fill_slot_queue l e n : Forall (fun x => exec_is_empty x = false) l ->
  fill_slot (l ++ repeat exec_empty n) e = match n with O => l | S n' => l ++ e :: repeat exec_empty n' end.
Proof.
  induction 1 as [|x l Hx Hl IH]; cbn.
  - destruct n; reflexivity.
  - rewrite Hx, IH. destruct n; reflexivity.
Qed.
Lemma head_empty c l : queue_is c l -> auto_head_empty c = match l with [] => true | _ => false end.
Proof.
  intros (Hq & Hl & Hf). unfold auto_head_empty. rewrite Hq. destruct l as [|x l]; [reflexivity|].
  inversion_clear Hf as [|? ? [Hx _] ?]. cbn. exact Hx.
Qed.

Lemma execute_head_plays c l ki : queue_is c l -> l <> [] ->
  exists c' l' kes, execute_head c ki = Ok (c', kes) /\ queue_is c' l' /\ aux_config c' = aux_config c
    /\ play_one (todo (aux_config c) l) = (todo (aux_config c) l', snd (play_one (todo (aux_config c) l)))
    /\ ke_map CeAutomation kes = instruction_effect (auc_duration (aux_config c)) ki (snd (play_one (todo (aux_config c) l))).
Proof.
  intros (Hq & Hl & Hf) Hn. destruct l as [|h t]; [congruence|]. clear Hn. inversion_clear Hf as [|? ? [Hh1 Hh2] Hf'].
  destruct (macro_cons _ _ Hh1 Hh2) as (i & Hi & Hm & He & Hx & Hr).
  unfold execute_head. rewrite Hq. cbn [app]. unfold key_events_for, index. rewrite Hi. cbn [bind].
  cbn [todo map]. rewrite Hm. rewrite Hx.
  assert (Hw : forall r, match map (macro_of (aux_config c)) t with [] => false | _ => r end
                        = match t with [] => false | _ => r end) by (intros; destruct t; reflexivity).
  destruct (1 <? ex_length h) eqn:El; cbn [negb] in *.
  - (* more instructions *)
    assert (Hne : macro_of (aux_config c) (exec_incr h) <> []).
    { intros Y. apply He in Y. congruence. }
    destruct (macro_of (aux_config c) (exec_incr h)) as [|i2 m2] eqn:Em; [congruence|].
    eexists _, (exec_incr h :: t), _. split; [reflexivity|].
    split; [|split; [reflexivity|split]].
    + split; [reflexivity|]. split; [exact Hl|]. constructor; [split; assumption|exact Hf'].
    + cbn. now rewrite Em.
    + cbn [play_one snd fst]. unfold instruction_effect. rewrite andb_false_l. destruct i; reflexivity.
  - (* the last one *)
    rewrite (proj1 He Hx). 
    assert (Hq2 : t ++ repeat exec_empty (8 - length (h :: t)) ++ [exec_empty] = t ++ repeat exec_empty (8 - length t)).
    { f_equal. cbn [length] in Hl |- *. replace (8 - length t)%nat with (S (8 - S (length t)))%nat by lia.
      rewrite <- repeat_cons. reflexivity. }
    rewrite <- app_assoc. rewrite Hq2. destruct t as [|h2 t].
    + cbn [app length Nat.sub repeat]. cbn [exec_is_empty exec_empty ex_length N.eqb].
      eexists _, [], _. split; [reflexivity|]. split; [|split; [reflexivity|split; [reflexivity|]]].
      * split; [reflexivity|]. split; [cbn; lia|constructor].
      * cbn [play_one snd fst map]. unfold instruction_effect. destruct i; reflexivity.
    + inversion_clear Hf' as [|? ? [Hh3 Hh4] Hf2]. cbn [app]. rewrite Hh3.
      assert (Hq3 : queue_is (mkAutoCtx (aux_config c) (h2 :: t ++ repeat exec_empty (8 - length (h2 :: t)))) (h2 :: t)).
      { split; [reflexivity|]. split; [cbn in Hl |- *; lia|]. constructor; [split; assumption|exact Hf2]. }
      destruct i; (eexists _, (h2 :: t), _; split; [reflexivity|]; split; [exact Hq3|]; split; [reflexivity|]; split; reflexivity).
Qed.

Lemma macro_nonempty c e : exec_in_range c e -> exec_is_empty e = false -> macro_of c e <> [].
Proof. intros A B. destruct (macro_cons c e B A) as (i & _ & E & _). rewrite E. discriminate. Qed.
Lemma macro_empty c e : exec_is_empty e = true -> macro_of c e = [].
Proof. unfold exec_is_empty, macro_of. intros H. apply N.eqb_eq in H. rewrite H. reflexivity. Qed.

(** One event. *)
Lemma automation_plays c l ev : queue_is c l -> event_in_range (aux_config c) ev ->
  exists c' l' kes x, step_automation c ev = Ok (c', kes) /\ queue_is c' l' /\ aux_config c' = aux_config c
    /\ player (todo (aux_config c) l) (request_of (aux_config c) ev) = (todo (aux_config c) l', x)
    /\ kes = instruction_effect (auc_duration (aux_config c)) (event_key ev) x.
Proof.
  intros Hq Hev. assert (Hskip : step_automation c ev = Ok (c, []) -> request_of (aux_config c) ev = RqNothing ->
    exists c' l' kes x, step_automation c ev = Ok (c', kes) /\ queue_is c' l' /\ aux_config c' = aux_config c
    /\ player (todo (aux_config c) l) (request_of (aux_config c) ev) = (todo (aux_config c) l', x)
    /\ kes = instruction_effect (auc_duration (aux_config c)) (event_key ev) x).
  { intros E R. exists c, l, [], None. rewrite R. repeat split; auto; apply Hq. }
  destruct ev as [ie|j [[e| |]|e|e|e|e|e|e]|[cb|i ko]]; try (apply Hskip; reflexivity).
  - (* Enqueue *) unfold step_automation. cbn [try_event as_automation auto_handle_event request_of].
    destruct (exec_is_empty e) eqn:Ee.
    { exists c, l, [], None. rewrite (macro_empty _ _ Ee). repeat split; auto; apply Hq. }
    cbn in Hev. pose proof (macro_nonempty _ _ Hev Ee) as Hm. destruct (macro_of (aux_config c) e) as [|i m] eqn:Em; [congruence|].
    rewrite (head_empty _ _ Hq). unfold auto_enqueue. rewrite Ee. destruct Hq as (Q1 & Q2 & Q3). rewrite Q1.
    rewrite fill_slot_queue by (eapply Forall_impl; [|exact Q3]; now intros ? []).
    destruct l as [|h t].
    + cbn [length Nat.sub app todo map].
      destruct (execute_head_plays (mkAutoCtx (aux_config c) (e :: repeat exec_empty 7)) [e] j) as (c' & l' & kes & E & F & G & H & K);
        [|discriminate|].
      { split; [reflexivity|]. split; [cbn; lia|]. constructor; [split; assumption|constructor]. }
      cbn [aux_config] in *. rewrite E. cbn [bind]. eexists _, l', _, _. split; [reflexivity|]. split; [exact F|]. split; [exact G|].
      split; [|exact K]. cbn [todo map] in H. rewrite Em in H. cbn [player]. rewrite H at 1. cbn [todo map]. rewrite Em. reflexivity.
    + cbn [bind]. unfold todo. destruct (8 - length (h :: t))%nat as [|n] eqn:En.
      * eexists _, (h :: t), _, None. split; [reflexivity|]. split; [|split; [reflexivity|]].
        -- split; [cbn [aux_queue]; rewrite En, app_nil_r; reflexivity|]. split; assumption.
        -- split; [|reflexivity]. cbn [player map]. rewrite (proj2 (Nat.ltb_ge _ _)); [reflexivity|].
           cbn [length] in *. rewrite map_length. lia.
      * eexists _, ((h :: t) ++ [e]), _, None. split; [reflexivity|]. split; [|split; [reflexivity|]].
        -- split; [|split].
           ++ cbn [aux_queue]. rewrite app_length. cbn [length] in *. replace (8 - (S (length t) + 1))%nat with n by lia.
              rewrite <- app_assoc. reflexivity.
           ++ rewrite app_length. cbn [length] in *. lia.
           ++ apply Forall_app. split; [exact Q3|]. constructor; [split; assumption|constructor].
        -- split; [|reflexivity]. cbn [player map]. rewrite (proj2 (Nat.ltb_lt _ _)).
           ++ rewrite map_app. cbn [map]. rewrite Em. reflexivity.
           ++ cbn [length] in *. rewrite map_length. lia.
  - (* Next *) unfold step_automation. cbn [try_event as_automation auto_handle_event request_of].
    rewrite (head_empty _ _ Hq). destruct l as [|h t].
    { exists c, [], [], None. repeat split; auto; apply Hq. }
    destruct (execute_head_plays c (h :: t) j Hq) as (c' & l' & kes & E & F & G & H & K); [discriminate|].
    rewrite E. cbn [bind]. eexists _, l', _, _. split; [reflexivity|]. split; [exact F|]. split; [exact G|]. split; [|exact K].
    cbn [player]. exact H.
Qed.

Lemma macro_run_plays h : forall c l, queue_is c l -> Forall (event_in_range (aux_config c)) h ->
  exists c' l' outs xs, macro_run c h = Ok (c', outs) /\ queue_is c' l' /\ aux_config c' = aux_config c
    /\ plays (todo (aux_config c) l) (map (request_of (aux_config c)) h) = (todo (aux_config c) l', xs)
    /\ length xs = length h
    /\ outs = map (fun '(ev, x) => instruction_effect (auc_duration (aux_config c)) (event_key ev) x) (combine h xs).
Proof.
  induction h as [|ev h IH]; intros c l Hq Hh.
  { exists c, l, [], []. repeat split; auto; apply Hq. }
  inversion_clear Hh. destruct (automation_plays c l ev Hq) as (c1 & l1 & kes & x & E & Q1 & C1 & P1 & K1); [assumption|].
  destruct (IH c1 l1 Q1) as (c2 & l2 & outs & xs & E2 & Q2 & C2 & P2 & L2 & O2); [now rewrite C1|].
  rewrite C1 in *. exists c2, l2, (kes :: outs), (x :: xs). cbn. rewrite E. cbn. rewrite E2. cbn. rewrite P1, P2, L2, K1, O2.
  repeat split; auto; try apply Q2.
Qed.

(** *** The player executes in order, exactly once *)
Definition good (q : waiting) : Prop := Forall (fun m => m <> []) q.
Lemma play_one_order q q' x : good q -> play_one q = (q', x) ->
  good q' /\ concat q = instructions_of [x] ++ concat q' /\ (length q' <= length q)%nat.
Proof.
  intros Hg H. destruct q as [|[|i [|i2 m]] t]; cbn in H; injection H as <- <-.
  - split; [constructor|]. split; [reflexivity|lia].
  - inversion_clear Hg. congruence.
  - inversion_clear Hg. split; [assumption|]. split; [reflexivity|cbn; lia].
  - inversion_clear Hg. split; [constructor; [discriminate|assumption]|]. split; [reflexivity|cbn; lia].
Qed.
Lemma plays_order rs : forall q q' xs, good q -> plays q rs = (q', xs) ->
  good q' /\ instructions_of xs ++ concat q' = concat q ++ concat (accepted q rs).
Proof.
  induction rs as [|r rs IH]; intros q q' xs Hg H.
  { cbn in H. injection H as <- <-. split; [exact Hg|]. cbn. now rewrite app_nil_r. }
  cbn in H. destruct (player q r) as [q1 x] eqn:Ep. destruct (plays q1 rs) as [q2 xs2] eqn:E2. injection H as <- <-.
  assert (Hx : forall x xs, instructions_of (x :: xs) = instructions_of [x] ++ instructions_of xs).
  { intros [[[i b] b']|] ys; reflexivity. }
  rewrite Hx. cbn [accepted]. rewrite Ep. cbn [fst].
  assert (K : good q1 /\ concat q ++ concat (match r with RqStart (i :: m) => if (length q <? 8)%nat then [i :: m] else [] | _ => [] end)
    = instructions_of [x] ++ concat q1).
  { destruct r as [[|i m]| |]; cbn [player] in Ep.
    - injection Ep as <- <-. split; [exact Hg|]. cbn. now rewrite app_nil_r.
    - destruct q as [|a q].
      + cbn [length Nat.ltb Nat.leb]. apply play_one_order in Ep; [|repeat constructor; discriminate].
        destruct Ep as (A & B & _). split; [exact A|]. rewrite <- B. reflexivity.
      + destruct (length (a :: q) <? 8)%nat; injection Ep as <- <-.
        * split; [change (good ((a :: q) ++ [i :: m])); apply Forall_app; split; [exact Hg|repeat constructor; discriminate]|].
          change (concat (a :: q ++ [i :: m])) with (concat ((a :: q) ++ [i :: m])). rewrite concat_app. reflexivity.
        * split; [exact Hg|]. cbn [concat]. now rewrite app_nil_r.
    - apply play_one_order in Ep as (A & B & _); [|exact Hg]. split; [exact A|]. rewrite B. cbn. now rewrite app_nil_r.
    - injection Ep as <- <-. split; [exact Hg|]. cbn. now rewrite app_nil_r. }
  destruct K as [K1 K2]. destruct (IH _ _ _ K1 E2) as [G1 G2]. split; [exact G1|]. rewrite <- app_assoc, G2, app_assoc, <- K2.
  rewrite <- app_assoc. f_equal. destruct r as [[|i m]| |]; try reflexivity. destruct (length q <? 8)%nat; [|reflexivity].
  cbn. now rewrite app_nil_r.
Qed.
