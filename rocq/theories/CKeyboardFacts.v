(** Lemmas about the whole keyboard with the C firmware (C67). *)
From Verif Require Import BaseFacts Output Types Slice Split Scheduler Reporter Keymap Composite SpecOutput SpecKeymap SpecReporter KeymapInv KeymapQueue KeymapApi
  SpecPlain PlainFacts SpecLayer SpecBoard BoardFacts CApi CReport SpecCReport CReportFacts CReportLive CCalls SpecCCalls CCallsFacts PropertiesApi PropertiesCFirmware PropertiesCFirmware
  CFirmware SpecCFirmware CFirmwareFacts CKeyboard SpecCKeyboard.
Local Open Scope N_scope.

(** *** The parts of a run *)
Lemma kb_scans_app rows cols idx a : forall b k, kb_scans rows cols idx (a ++ b) k =
  (let! (k1, e1) := kb_scans rows cols idx a k in let! (k2, e2) := kb_scans rows cols idx b k1 in Ok (k2, e1 ++ e2)).
Proof.
  induction a as [|x a IH]; intros b k; cbn [kb_scans app].
  - cbn [bind]. destruct (kb_scans rows cols idx b k) as [[k2 e2]| |]; reflexivity.
  - destruct (kb_scan rows cols idx x k) as [[k1 e1]| |]; cbn [bind]; auto. rewrite IH.
    destruct (kb_scans rows cols idx a k1) as [[k2 e2]| |]; cbn [bind]; auto.
    destruct (kb_scans rows cols idx b k2) as [[k3 e3]| |]; reflexivity.
Qed.
Lemma switches_app a b : switches (a ++ b) = switches a ++ switches b.
Proof. apply flat_map_app. Qed.

Section Run.
Context {R Ctx Ev PKS KS : Type}.
Variable conf : kconf R Ctx Ev PKS KS.
Variable fuel : nat.
Variables rows cols : nat.
Variable idx : nat -> nat -> option nat.
Local Notation km := (keymap R Ctx Ev PKS KS).
Local Notation fw := (@fw R Ctx Ev PKS KS).
Local Notation rloop := (@rloop R Ctx Ev PKS KS).
Local Notation frun := (fw_run conf fuel rows cols idx).
Local Notation fcalm := (fw_all_calm conf fuel rows cols idx).

Lemma frun_app a b s : frun (a ++ b) s = (let! s1 := frun a s in frun b s1).
Proof. unfold fw_run. apply fold_res_app. Qed.
Lemma fcalm_app a : forall b s, fcalm (a ++ b) s <-> fcalm a s /\ match frun a s with Ok s1 => fcalm b s1 | _ => True end.
Proof.
  induction a as [|x a IH]; intros b s; cbn [app fw_all_calm]; [unfold fw_run; cbn; tauto|].
  unfold fw_run. cbn [fold_res]. destruct (fw_do conf fuel rows cols idx s x) as [s1| |]; cbn [bind]; [|tauto..].
  rewrite IH. unfold fw_run. tauto.
Qed.

(** What the matrix and the rest do. *)
Lemma fw_parts l : forall s s', frun l s = Ok s' ->
  exists evss rl, kb_scans rows cols idx (switches l) (fw_matrix s) = Ok (fw_matrix s', evss)
  /\ rl_run conf fuel rl (fw_loop s) = Ok (fw_loop s') /\ scanned rl = concat evss
  /\ (fcalm l s -> rl_all_calm conf fuel rl (fw_loop s)).
Proof.
  induction l as [|a l IH]; intros s s' H; unfold fw_run in H; cbn [fold_res] in H.
  - injection H as <-. exists [], []. cbn. auto.
  - destruct (fw_do conf fuel rows cols idx s a) as [s1| |] eqn:E; cbn [bind] in H; try discriminate.
    destruct (IH _ _ H) as (evss & rl & H1 & H2 & H3 & H4). cbn [fw_all_calm]. rewrite E. cbn [switches flat_map]. fold (switches l).
    destruct a as [closed| |c| |]; cbn [fw_do] in E; cbn [app].
    + inv_bind E. destruct a as [m evs]. inv_bind E. injection E as <-. cbn [fw_matrix fw_loop] in *.
      exists (evs :: evss), (RlTimer evs :: rl). cbn [kb_scans]. rewrite E0. cbn [bind]. rewrite H1. cbn [bind]. split; [reflexivity|].
      unfold rl_run. cbn [fold_res rl_do]. rewrite E1. cbn [bind]. split; [exact H2|]. split; [rewrite scanned_cons; unfold scanned at 1; cbn; rewrite app_nil_r; now rewrite H3|].
      intros [C1 C2]. cbn [rl_all_calm rl_do]. rewrite E1. split; [exact C1|now apply H4].
    + injection E as <-. exists evss, (RlMain :: rl). split; [exact H1|]. split; [exact H2|]. split; [exact H3|].
      intros [C1 C2]. cbn [rl_all_calm rl_do]. split; [exact C1|now apply H4].
    + injection E as <-. exists evss, (RlHost c :: rl). split; [exact H1|]. split; [exact H2|]. split; [exact H3|].
      intros [C1 C2]. cbn [rl_all_calm rl_do]. split; [exact C1|now apply H4].
    + injection E as <-. exists evss, (RlEnumerate :: rl). split; [exact H1|]. split; [exact H2|]. split; [exact H3|].
      intros [C1 C2]. cbn [rl_all_calm rl_do]. split; [exact C1|now apply H4].
    + injection E as <-. exists evss, (RlReset :: rl). split; [exact H1|]. split; [exact H2|]. split; [exact H3|].
      intros [C1 C2]. cbn [rl_all_calm rl_do]. split; [exact C1|now apply H4].
Qed.

(** *** The calls into the keymap *)
Lemma calls_grow l : forall s s', rl_run conf fuel l s = Ok s' -> exists more, rl_calls s' = rl_calls s ++ more.
Proof.
  induction l as [|a l IH]; intros s s' H; unfold rl_run in H; cbn [fold_res] in H.
  - injection H as <-. exists []. now rewrite app_nil_r.
  - inv_bind H. destruct (IH _ _ H) as (more & ->).
    assert (X : exists m, rl_calls a0 = rl_calls s ++ m).
    { destruct a as [evs| |c| |]; cbn [rl_do] in E.
      - unfold rl_timer in E. inv_bind E. destruct (_ && _); [inv_bind E; destruct a1 as [k2 r]|]; injection E as <-; cbn [rl_calls]; [rewrite <- app_assoc|]; eauto.
      - injection E as <-. exists []. rewrite app_nil_r. unfold rl_main. destruct (rl_at s) as [[c st]|]; [destruct (ch_step _ _ _)|destruct (rl_enum s)]; reflexivity.
      - injection E as <-. exists []. now rewrite app_nil_r.
      - injection E as <-. exists []. now rewrite app_nil_r.
      - injection E as <-. exists []. now rewrite app_nil_r. }
    destruct X as (m & ->). rewrite <- app_assoc. eauto.
Qed.
Lemma received_grow c l : forall s s', rl_run conf fuel l s = Ok s' -> exists more, received c s' = received c s ++ more.
Proof.
  induction l as [|a l IH]; intros s s' H; unfold rl_run in H; cbn [fold_res] in H.
  - injection H as <-. exists []. now rewrite app_nil_r.
  - inv_bind H. destruct (IH _ _ H) as (more & ->).
    assert (X : exists m, received c a0 = received c s ++ m).
    { unfold received. destruct a as [evs| |d| |]; cbn [rl_do] in E.
      - exists []. rewrite app_nil_r. unfold rl_timer in E. inv_bind E. destruct (_ && _); [inv_bind E; destruct a1 as [k2 r]|]; injection E as <-; reflexivity.
      - injection E as <-. exists []. rewrite app_nil_r. unfold rl_main. destruct (rl_at s) as [[d st]|]; [|destruct (rl_enum s); reflexivity].
        destruct (ch_step (resends d) st (rl_chan s d)) as [x nxt] eqn:Es. cbn [rl_chan]. unfold set_chan. destruct (chan_eqb c d) eqn:Ec; [|reflexivity].
        apply chan_eqb_spec in Ec. subst d. destruct st; cbn [ch_step] in Es; injection Es as <- _; reflexivity.
      - injection E as <-. cbn [rl_host rl_chan]. unfold set_chan. destruct (chan_eqb c d) eqn:Ec; [|exists []; now rewrite app_nil_r].
        apply chan_eqb_spec in Ec. subst d. unfold ch_take. destruct (ch_ack (rl_chan s c)); cbn [ch_host]; [eauto|exists []; now rewrite app_nil_r].
      - injection E as <-. exists []. now rewrite app_nil_r.
      - injection E as <-. exists []. now rewrite app_nil_r. }
    destruct X as (m & ->). rewrite <- app_assoc. eauto.
Qed.

Definition ops_of (calls : list c_call) : list op := flat_map call_ops calls.
Lemma ops_of_app a b : ops_of (a ++ b) = ops_of a ++ ops_of b.
Proof. apply flat_map_app. Qed.
Lemma ops_of_ticks m : ops_of (repeat CallTick m) = polls m.
Proof. unfold ops_of, polls. induction m as [|m IH]; cbn; [reflexivity|]. cbn in IH. now rewrite IH. Qed.
Lemma ops_of_plain calls : Forall (fun o => plain_op o = true) (ops_of calls).
Proof. induction calls as [|[e|] t IH]; cbn; repeat constructor; exact IH. Qed.
Lemma plain_calls_ops calls : forall (k k' : km) rs, plain_calls conf fuel calls k = Ok (k', rs) -> run_ops conf fuel (ops_of calls) k = Ok k'.
Proof.
  induction calls as [|[e|] t IH]; intros k k' rs H; cbn [plain_calls] in H.
  - injection H as <- <-. reflexivity.
  - inv_bind H. unfold keymap_register_input_event in E. rewrite event_meant in E. change (ops_of (CallEvent e :: t)) with (OpInput (meant e) :: ops_of t). unfold run_ops. cbn [fold_res run_op]. rewrite E. cbn [bind]. exact (IH _ _ _ H).
  - inv_bind H. destruct a as [k1 r]. inv_bind H. destruct a as [k2 rs']. injection H as <- <-. unfold keymap_tick in E. inv_bind E. inv_bind E. destruct a0 as [k3 kos]. inv_bind E. injection E as <- <-.
    change (ops_of (CallTick :: t)) with ([OpTick; OpReport] ++ ops_of t). unfold run_ops. cbn [app fold_res run_op]. rewrite E1. cbn [bind]. rewrite E2. cbn [bind]. exact (IH _ _ _ E0).
Qed.
(** The report of the last tick. *)
Lemma plain_calls_last ctx calls (k k' : km) rs : reached conf fuel ctx k -> plain_calls conf fuel (calls ++ [CallTick]) k = Ok (k', rs) ->
  exists rs' r, rs = rs' ++ [r] /\ shows (rep_reportable (km_rep k')) r.
Proof.
  intros Hk H. rewrite plain_calls_app in H. inv_bind H. destruct a as [k1 r1]. cbn [plain_calls] in H. inv_bind H. destruct a as [k2 r2]. injection H as <- <-.
  inv_bind E0. destruct a as [k3 r]. injection E0 as <- <-. exists r1, r. split; [reflexivity|].
  unfold keymap_tick in E1. inv_bind E1. inv_bind E1. destruct a0 as [k4 kos]. inv_bind E1. injection E1 as <- <-.
  pose proof E2 as Er. unfold km_report_output in Er. inv_bind Er. injection Er as <- <-. cbn [km_rep].
  assert (Hl : (length (rep_reportable (rep_sent (rep_update (km_rep a) a1))) <= MAX_PRESSED_KEYS)%nat).
  { eapply (report_small conf fuel ctx); [|exact E2]. eapply reached_ops with (ops := ops_of calls ++ [OpTick]); [exact Hk|].
    unfold run_ops. rewrite fold_res_app. apply plain_calls_ops in E. unfold run_ops in E. rewrite E. cbn [bind fold_res run_op]. now rewrite E0. }
  destruct (C36_report _ Hl) as (r' & Er & Hr). rewrite Er in E3. injection E3 as <-. exact Hr.
Qed.

(** The program of C calls that a firmware makes. *)
Definition as_c_call (c : c_call) : capi_call := match c with CallEvent e => CcEvent e | CallTick => CcTick end.
Lemma calls_stand calls : stand_for (map as_c_call calls) (ops_of calls).
Proof.
  induction calls as [|[e|] t IH]; cbn [map as_c_call]; [constructor| |].
  - apply (sfs_cons _ [OpInput (meant e)]); [constructor|exact IH].
  - apply (sfs_cons _ [OpTick; OpReport]); [constructor|exact IH].
Qed.
Lemma plain_calls_c calls : forall (k k' : km) l, c_run conf fuel (map as_c_call calls) k = Ok (k', l) -> exists rs, plain_calls conf fuel calls k = Ok (k', rs).
Proof.
  induction calls as [|[e|] t IH]; intros k k' l H; cbn [map as_c_call c_run c_do] in H; cbn [plain_calls].
  - injection H as <- _. eauto.
  - inv_bind H. destruct a as [k1 a]. inv_bind H. destruct a0 as [k2 l2]. injection H as <- _. inv_bind E. injection E as <- _.
    rewrite E1. cbn [bind]. eauto.
  - inv_bind H. destruct a as [k1 a]. inv_bind H. destruct a0 as [k2 l2]. injection H as <- _. inv_bind E. destruct a0 as [k3 r]. injection E as <- _.
    rewrite E1. cbn [bind]. destruct (IH _ _ _ E0) as (rs & ->). exists (r :: rs). reflexivity.
Qed.
Lemma plain_calls_total ctx calls (k k' : km) : reached conf fuel ctx k -> run_ops conf fuel (ops_of calls) k = Ok k' ->
  exists rs, plain_calls conf fuel calls k = Ok (k', rs).
Proof.
  intros Hk H. destruct (c_run_total conf fuel ctx _ _ _ k' (calls_stand calls) Hk) as (l & E); [|exact H|eapply plain_calls_c; exact E].
  right. apply Forall_forall. intros c Hc. apply in_map_iff in Hc as ([e|] & <- & _); reflexivity.
Qed.
End Run.

(** *** What the scans amount to *)
Lemma concat_nth {A} (ls : list (list A)) : concat ls = flat_map (fun n => nth n ls []) (seq 0 (length ls)).
Proof.
  induction ls as [|x ls IH]; cbn [concat length seq flat_map nth]; [reflexivity|]. f_equal. rewrite IH, <- seq_shift. symmetry. rewrite flat_map_concat_map, map_map, <- flat_map_concat_map. reflexivity.
Qed.
Lemma flat_map_ext_in {A B} (f g : A -> list B) l : (forall x, In x l -> f x = g x) -> flat_map f l = flat_map g l.
Proof. induction l as [|x l IH]; intros H; cbn; [reflexivity|]. rewrite (H x (or_introl eq_refl)), IH; [reflexivity|]. intros y Hy. apply H. now right. Qed.
Lemma map_flat_map {A B C} (f : B -> C) (g : A -> list B) l : map f (flat_map g l) = flat_map (fun x => map f (g x)) l.
Proof. induction l as [|x l IH]; cbn; [reflexivity|]. now rewrite map_app, IH. Qed.
Lemma scans_typed rows cols keys idx closed0 closeds k evs : wiring_ok rows cols keys idx -> N.of_nat keys <= 65536 ->
  kb_scans rows cols idx closeds (kb_start rows keys closed0) = Ok (k, evs) -> typed rows cols keys idx closeds (map meant (concat evs)).
Proof.
  intros W B H. destruct (C54_keyboard rows cols keys idx closed0 closeds W B) as (k' & evs' & ca & E & L & H1 & H2 & H3).
  rewrite H in E. injection E as <- <-. exists ca. split; [exact H2|]. split; [exact H3|].
  rewrite concat_nth, L, map_flat_map. apply flat_map_ext_in. intros n Hn. apply in_seq in Hn. rewrite H1 by lia. reflexivity.
Qed.
Lemma changes_ext keys f f' g g' : (forall i, (i < keys)%nat -> f i = f' i /\ g i = g' i) -> changes keys f g = changes keys f' g'.
Proof.
  intros H. unfold changes. apply flat_map_ext_in. intros i Hi. apply in_seq in Hi. destruct (H i ltac:(lia)) as [-> ->]. reflexivity.
Qed.
Lemma wired_dec rows cols (idx : nat -> nat -> option nat) i : {rc | (fst rc < rows)%nat /\ (snd rc < cols)%nat /\ idx (fst rc) (snd rc) = Some i}
  + {forall r c, (r < rows)%nat -> (c < cols)%nat -> idx r c <> Some i}.
Proof.
  destruct (find (fun rc => match idx (fst rc) (snd rc) with Some j => (j =? i)%nat | None => false end) (list_prod (seq 0 rows) (seq 0 cols))) as [rc|] eqn:E.
  - left. exists rc. apply find_some in E as [Hi E]. destruct rc as [r c]. apply in_prod_iff in Hi as [Hr Hc]. apply in_seq in Hr, Hc. cbn in *.
    destruct (idx r c) as [j|]; [|discriminate]. apply Nat.eqb_eq in E. subst j. repeat split; lia || reflexivity.
  - right. intros r c Hr Hc Hi. eapply find_none in E; [|apply (in_prod _ _ r c); apply in_seq; lia]. cbn in E. rewrite Hi, Nat.eqb_refl in E. discriminate.
Qed.
Lemma typed_unique rows cols keys idx closeds h1 h2 : typed rows cols keys idx closeds h1 -> typed rows cols keys idx closeds h2 -> h1 = h2.
Proof.
  intros (c1 & A1 & B1 & ->) (c2 & A2 & B2 & ->). apply flat_map_ext_in. intros n Hn. apply in_seq in Hn. f_equal.
  assert (X : forall i m, (i < keys)%nat -> (m <= length closeds)%nat -> c1 i m = c2 i m).
  { intros i m Hi Hm. destruct (wired_dec rows cols idx i) as [[[r c] (Hr & Hc & Hx)]|Hn'].
    - cbn in *. eapply settled_unique; [eapply A1|eapply A2]; eassumption.
    - rewrite (B1 i m Hi Hn' Hm), (B2 i m Hi Hn' Hm). reflexivity. }
  apply changes_ext. intros i Hi. split; apply X; lia.
Qed.

(** Which keys are down after it. *)
Definition levels (keys : nat) (v : nat -> bool) (l : down) : Prop :=
  (forall i, In (N.of_nat i) (keys_down l) <-> (i < keys)%nat /\ v i = true)
  /\ Forall (fun x => exists i, x = inl (N.of_nat i) /\ (i < keys)%nat) l /\ NoDup (keys_down l).
Lemma levels_new keys : levels keys (fun _ => false) [].
Proof. split; [|split; constructor]. intros i. cbn. split; [tauto|]. intros [_ H]. discriminate. Qed.
Lemma levels_step keys v l i w : (i < keys)%nat -> levels keys v l -> v i <> w ->
  levels keys (fun j => if (j =? i)%nat then w else v j) (down_step l (meant (mkCEvent (if w then CPress else CRelease) (N.of_nat i)))).
Proof.
  intros Hi (H1 & H2 & H3) Hw. destruct w; cbn [meant down_step].
  - assert (Hv : v i = false) by (destruct (v i); congruence).
    assert (E : existsb (is_key (N.of_nat i)) l = false).
    { destruct (existsb (is_key (N.of_nat i)) l) eqn:E; [|reflexivity]. apply is_key_In in E. apply H1 in E as [_ E]. congruence. }
    rewrite E. split; [|split].
    + intros j. rewrite keys_app, in_app_iff, H1. cbn. destruct (Nat.eqb_spec j i) as [->|Hn].
      * split; [intros _; split; [exact Hi|reflexivity]|]. intros _. right. now left.
      * split; [intros [X|[X|[]]]; [exact X|]|tauto]. apply Nat2N.inj in X. congruence.
    + apply Forall_app. split; [exact H2|]. constructor; [|constructor]. eauto.
    + rewrite keys_app. apply nodup_snoc; [exact H3|]. intros X. apply is_key_In in X. congruence.
  - assert (Hv : v i = true) by (destruct (v i); congruence).
    destruct (keys_remove (N.of_nat i) l H3) as (N1 & N2). split; [|split].
    + intros j. rewrite N2, H1. destruct (Nat.eqb_spec j i) as [->|Hn].
      * split; [tauto|]. intros [_ X]. discriminate.
      * split; [tauto|]. intros X. split; [exact X|]. intros Y. apply Nat2N.inj in Y. congruence.
    + clear -H2. induction l as [|x l IH]; cbn; [constructor|]. inversion H2 as [|? ? X Y]; subst. destruct (is_key (N.of_nat i) x); [exact Y|]. constructor; auto.
    + exact N1.
Qed.
Lemma levels_ext keys v w l : (forall i, (i < keys)%nat -> v i = w i) -> levels keys v l -> levels keys w l.
Proof.
  intros H (H1 & H2 & H3). split; [|split; assumption]. intros i. rewrite H1. split; intros [X Y]; split; auto; rewrite <- Y; [symmetry|]; now apply H.
Qed.
Lemma levels_changes keys before now l : levels keys before l -> levels keys now (fold_left down_step (map meant (changes keys before now)) l).
Proof.
  intros H. unfold changes.
  assert (X : forall n m l', (n + m)%nat = keys -> levels keys (fun j => if (j <? n)%nat then now j else before j) l' ->
    levels keys now (fold_left down_step (map meant (flat_map (fun i => if eqb (now i) (before i) then [] else [mkCEvent (if now i then CPress else CRelease) (N.of_nat i)]) (seq n m))) l')).
  { intros n m. revert n. induction m as [|m IH]; intros n l' Hnm Hl; cbn [seq flat_map map fold_left].
    - eapply levels_ext; [|exact Hl]. intros i Hi. cbn beta. destruct (Nat.ltb_spec i n); [reflexivity|lia].
    - rewrite map_app, fold_left_app. apply IH; [lia|]. destruct (eqb (now n) (before n)) eqn:E.
      + cbn [map fold_left]. eapply levels_ext; [|exact Hl]. intros i Hi. cbn beta. apply eqb_prop in E. destruct (Nat.ltb_spec i n), (Nat.ltb_spec i (S n)); try reflexivity; try lia.
        replace i with n by lia. now symmetry.
      + cbn [map fold_left]. eapply levels_ext; [|apply (levels_step keys _ l' n (now n) ltac:(lia) Hl)].
        * intros i Hi. cbn beta. destruct (Nat.eqb_spec i n) as [->|Hn]; [destruct (Nat.ltb_spec n (S n)); [reflexivity|lia]|].
          destruct (Nat.ltb_spec i n), (Nat.ltb_spec i (S n)); try reflexivity; lia.
        * rewrite Nat.ltb_irrefl. intros Y. rewrite <- Y, eqb_reflx in E. discriminate. }
  apply (X O keys l eq_refl). exact H.
Qed.
Lemma levels_scans keys (ca : nat -> nat -> bool) n : forall l m, levels keys (fun i => ca i m) l ->
  levels keys (fun i => ca i (m + n)%nat) (fold_left down_step (flat_map (fun k => map meant (changes keys (fun i => ca i k) (fun i => ca i (S k)))) (seq m n)) l).
Proof.
  induction n as [|n IH]; intros l m H; cbn [seq flat_map].
  - cbn. now rewrite Nat.add_0_r.
  - rewrite fold_left_app. replace (m + S n)%nat with (S m + n)%nat by lia. apply IH. now apply levels_changes.
Qed.
(** After six scans with the same switches these are the keys that are down. *)
Lemma typed_down rows cols keys idx scans closed h : wiring_ok rows cols keys idx -> typed rows cols keys idx scans h ->
  (6 <= length scans)%nat ->
  Forall (fun closed' => forall r c, (r < rows)%nat -> (c < cols)%nat -> closed' r c = closed r c) (skipn (length scans - 6) scans) ->
  (forall i, In (N.of_nat i) (keys_down (down_after h)) <-> key_closed rows cols idx closed i)
  /\ Forall (fun x => exists i, x = inl (N.of_nat i) /\ (i < keys)%nat) (down_after h).
Proof.
  intros W (ca & A & B & ->) L F.
  assert (C0 : forall i, (i < keys)%nat -> ca i O = false).
  { intros i Hi. destruct (wired_dec rows cols idx i) as [[[r c] (Hr & Hc & Hx)]|Hn].
    - cbn in *. eapply settled_unique; [apply (A r c i O Hr Hc Hx); lia|]. exact (settled_false 0).
    - apply B; auto; lia. }
  pose proof (levels_scans keys ca (length scans) [] O) as X. cbn [Nat.add] in X.
  destruct X as (X1 & X2 & _); [eapply levels_ext; [|apply levels_new]; intros i Hi; symmetry; now apply C0|].
  split; [|exact X2]. intros i. unfold down_after. rewrite X1. clear X1 X2.
  assert (Hs : forall r c, (r < rows)%nat -> (c < cols)%nat -> idx r c = Some i -> ca i (length scans) = closed r c).
  { intros r c Hr Hc Hx. eapply settled_unique; [apply (A r c i (length scans) Hr Hc Hx); lia|]. rewrite firstn_all.
    unfold switch_readings. apply settled_turn; rewrite map_length; [exact L|]. intros j Hj. rewrite nth_error_map.
    destruct (nth_error scans (length scans - 6 + j)) as [cl|] eqn:E; [|apply nth_error_None in E; lia]. cbn. f_equal.
    rewrite Forall_forall in F. apply F; auto. rewrite <- (firstn_skipn (length scans - 6) scans) in E at 1. rewrite nth_error_app2 in E by (rewrite firstn_length; lia).
    eapply nth_error_In. exact E. }
  unfold key_closed. split.
  - intros [Hi Hv]. destruct (wired_dec rows cols idx i) as [[[r c] (Hr & Hc & Hx)]|Hn].
    + cbn in *. exists r, c. rewrite <- (Hs r c Hr Hc Hx). auto.
    + rewrite (B i _ Hi Hn) in Hv by lia. discriminate.
  - intros (r & c & Hr & Hc & Hx & Hv). split; [exact (proj1 W r c i Hr Hc Hx)|]. now rewrite (Hs r c Hr Hc Hx).
Qed.

(** *** A reached state *)
Section Reach.
Context {R Ctx Ev PKS KS : Type}.
Variable conf : kconf R Ctx Ev PKS KS.
Variable fuel : nat.
Variables rows cols keys : nat.
Variable idx : nat -> nat -> option nat.
Variable bl : callback_fn.
Local Notation km := (keymap R Ctx Ev PKS KS).
Local Notation fw := (@fw R Ctx Ev PKS KS).
Local Notation rloop := (@rloop R Ctx Ev PKS KS).
Local Notation frun := (fw_run conf fuel rows cols idx).
Local Notation fcalm := (fw_all_calm conf fuel rows cols idx).

Definition start_ops : list op := [OpSetCallback CbResetToBootloader bl; OpInit].
Lemma start_two : registers_two start_ops.
Proof. exists CbResetToBootloader, CbReset. constructor; [right; exists bl; now left|]. constructor; [now left|constructor]. Qed.
Lemma fw_started closed0 (k : km) s0 : fw_start rows keys bl closed0 k = Ok (Some s0) ->
  exists k0, run_ops conf fuel start_ops k = Ok k0 /\ fw_matrix s0 = kb_start rows keys closed0 /\ fw_loop s0 = rl_new k0.
Proof.
  unfold fw_start, run_ops. intros H. destruct (snd (keyboard_init rows closed0)); [discriminate|]. inv_bind H. injection H as <-.
  exists (km_init a). cbn [start_ops fold_res run_op fw_matrix fw_loop]. unfold keymap_register_callback in E. cbn in E. rewrite E. auto.
Qed.

(** What is known of a state. *)
Definition reach (closed0 : nat -> nat -> bool) (k0 : km) (l : list fw_step) (s : fw) : Prop :=
  exists evss, kb_scans rows cols idx (switches l) (kb_start rows keys closed0) = Ok (fw_matrix s, evss)
  /\ call_events (rl_calls (fw_loop s)) = concat evss
  /\ plain_calls conf fuel (rl_calls (fw_loop s)) k0 = Ok (rl_keymap (fw_loop s), rl_made (fw_loop s)).
Lemma fw_reach closed0 k0 s0 l s : fw_matrix s0 = kb_start rows keys closed0 -> fw_loop s0 = rl_new k0 -> frun l s0 = Ok s ->
  reach closed0 k0 l s /\ (fcalm l s0 -> rl_ok (fw_loop s) /\ rl_live (fw_loop s)).
Proof.
  intros Hm Hl H. destruct (fw_parts conf fuel rows cols idx l s0 s H) as (evss & rl & H1 & H2 & H3 & H4). rewrite Hm in H1. rewrite Hl in *.
  assert (I : rl_plain conf fuel k0 (rl_new k0)) by reflexivity. destruct (rl_run_plain conf fuel k0 rl _ _ I H2) as [P1 P2]. split.
  - exists evss. split; [exact H1|]. split; [|exact P1]. rewrite P2, H3. reflexivity.
  - intros C. split; [eapply rl_run_ok; [apply rl_new_ok|apply H4; exact C|exact H2]|eapply rl_run_live; [apply rl_new_live|apply H4; exact C|exact H2]].
Qed.
Lemma meant_events calls : inputs (ops_of calls) = map meant (call_events calls).
Proof. unfold inputs, ops_of, call_events. induction calls as [|[e|] t IH]; cbn; [reflexivity|now rewrite IH|exact IH]. Qed.
Lemma reach_typed closed0 k0 l s : wiring_ok rows cols keys idx -> N.of_nat keys <= 65536 -> reach closed0 k0 l s ->
  typed rows cols keys idx (switches l) (fw_inputs s).
Proof.
  intros W B (evss & H1 & H2 & _). unfold fw_inputs, fw_ops. fold (ops_of (rl_calls (fw_loop s))). rewrite (meant_events (rl_calls (fw_loop s))), H2. eapply scans_typed; eassumption.
Qed.

(** Once the switches are steady no more events come. *)
Lemma no_events closed0 k0 l1 l2 l3 s0 s2 s closed : wiring_ok rows cols keys idx -> N.of_nat keys <= 65536 ->
  fw_matrix s0 = kb_start rows keys closed0 -> fw_loop s0 = rl_new k0 ->
  frun (l1 ++ l2) s0 = Ok s2 -> frun l3 s2 = Ok s ->
  steady rows cols closed l2 -> steady rows cols closed l3 -> (6 <= length (switches l2))%nat ->
  exists m, rl_calls (fw_loop s) = rl_calls (fw_loop s2) ++ repeat CallTick m.
Proof.
  intros W B Hm Hl H2 H3 S2 S3 L.
  destruct (fw_reach closed0 k0 s0 (l1 ++ l2) s2 Hm Hl H2) as ((evs2 & A1 & A2 & _) & _).
  destruct (fw_reach closed0 k0 s0 ((l1 ++ l2) ++ l3) s Hm Hl) as ((evs & B1 & B2 & _) & _); [rewrite frun_app, H2; exact H3|].
  rewrite switches_app, kb_scans_app, A1 in B1. cbn [bind] in B1. inv_bind B1. destruct a as [m3 evs3]. injection B1 as -> <-.
  destruct (fw_parts conf fuel rows cols idx l3 s2 s H3) as (_ & rl & _ & P2 & _ & _).
  destruct (calls_grow conf fuel _ _ _ P2) as (more & Em). rewrite Em.
  assert (Ez : concat evs3 = []).
  { destruct (C54_keyboard rows cols keys idx closed0 (switches (l1 ++ l2) ++ switches l3) W B) as (k' & evs & ca & E' & Le & G1 & G2 & G3).
    rewrite kb_scans_app, A1 in E'. cbn [bind] in E'. rewrite E in E'. cbn [bind] in E'. injection E' as _ <-.
    destruct (C54_keyboard rows cols keys idx closed0 (switches (l1 ++ l2)) W B) as (k'' & evs2' & _ & E2 & Le2 & _). rewrite A1 in E2. injection E2 as _ <-.
    assert (Le3 : length evs3 = length (switches l3)) by (rewrite !app_length in Le; lia).
    rewrite concat_nth. rewrite (flat_map_ext_in _ (fun _ => [])); [induction (seq 0 (length evs3)) as [|x t IH]; [reflexivity|exact IH]|].
    intros n Hn. apply in_seq in Hn. specialize (G1 (length evs2 + n)%nat). rewrite app_nth2, (Nat.add_comm (length evs2) n), Nat.add_sub in G1 by lia.
    rewrite G1 by (rewrite app_length; lia). clear G1.
    assert (X : forall i m, (i < keys)%nat -> (length evs2 <= m <= length evs2 + length evs3)%nat -> ca i m = match wired_dec rows cols idx i with inleft (exist _ rc _) => closed (fst rc) (snd rc) | inright _ => false end).
    { intros i m Hi Hm'. destruct (wired_dec rows cols idx i) as [[[r c] (Hr & Hc & Hx)]|Hn'].
      - cbn in *. eapply settled_unique; [apply (G2 r c i m Hr Hc Hx); rewrite app_length; lia|].
        assert (Lf : length (firstn m (switches (l1 ++ l2) ++ switches l3)) = m) by (rewrite firstn_length, app_length; lia).
        assert (Le4 := Le2). rewrite switches_app, app_length in Le4.
        unfold switch_readings. apply settled_turn; rewrite map_length, Lf; [lia|].
        intros j Hj. rewrite nth_error_map.
        destruct (nth_error (firstn m (switches (l1 ++ l2) ++ switches l3)) (m - 6 + j)) as [cl|] eqn:Ec; [|apply nth_error_None in Ec; lia]. cbn. f_equal.
        assert (Hin : In cl (switches l2 ++ switches l3)).
        { assert (Y : nth_error (switches l1 ++ switches l2 ++ switches l3) (m - 6 + j) = Some cl).
          { rewrite app_assoc, <- switches_app. rewrite <- (firstn_skipn m (switches (l1 ++ l2) ++ switches l3)). rewrite nth_error_app1 by lia. exact Ec. }
          rewrite nth_error_app2 in Y; [eapply nth_error_In; exact Y|]. lia. }
        apply in_app_iff in Hin. unfold steady in S2, S3. rewrite Forall_forall in S2, S3. destruct Hin as [Hin|Hin]; [now apply S2|now apply S3].
      - apply G3; auto. rewrite app_length. lia. }
    rewrite (changes_ext keys _ (fun i => match wired_dec rows cols idx i with inleft (exist _ rc _) => closed (fst rc) (snd rc) | inright _ => false end)
               _ (fun i => match wired_dec rows cols idx i with inleft (exist _ rc _) => closed (fst rc) (snd rc) | inright _ => false end))
      by (intros i Hi; split; apply X; lia).
    unfold changes. rewrite (flat_map_ext_in _ (fun _ => [])); [induction (seq 0 keys) as [|x t IH]; [reflexivity|exact IH]|].
    intros i _. now rewrite eqb_reflx. }
  rewrite Em, call_events_app, A2, concat_app, Ez, app_nil_r in B2.
  assert (Hc : call_events more = []) by (apply (app_inv_head (concat evs2)); now rewrite app_nil_r).
  clear -Hc. exists (length more). f_equal. induction more as [|[e|] t IH]; [reflexivity|discriminate|]. cbn [repeat length]. f_equal. apply IH. exact Hc.
Qed.

End Reach.

Section Last.
Context {R Ctx Ev PKS KS : Type}.
Variable conf : kconf R Ctx Ev PKS KS.
Variable fuel : nat.
Local Notation rloop := (@rloop R Ctx Ev PKS KS).
(** The last tick of a run, where the host had everything. *)
Lemma last_tick l : forall (s s' : rloop) more, rl_run conf fuel l s = Ok s' -> rl_calls s' = rl_calls s ++ more ++ [CallTick] ->
  exists la evs lb sm sm', l = la ++ RlTimer evs :: lb /\ rl_run conf fuel la s = Ok sm /\ rl_do conf fuel sm (RlTimer evs) = Ok sm' /\ rl_run conf fuel lb sm' = Ok s'
  /\ rl_calls sm' = rl_calls s' /\ rl_made sm' = rl_made s' /\ rl_made sm <> rl_made sm' /\ rl_calls sm' = (rl_calls sm ++ map CallEvent evs) ++ [CallTick].
Proof.
  induction l as [|a l IH] using rev_ind; intros s s' more H E.
  - injection H as <-. exfalso. apply (f_equal (@length _)) in E. rewrite !app_length in E. cbn in E. lia.
  - unfold rl_run in H. rewrite fold_res_app in H. inv_bind H. cbn [fold_res] in H. inv_bind H. injection H as <-.
    assert (Same : rl_calls a1 = rl_calls a0 -> rl_made a1 = rl_made a0 -> exists la evs lb sm sm', l ++ [a] = la ++ RlTimer evs :: lb /\ rl_run conf fuel la s = Ok sm /\ rl_do conf fuel sm (RlTimer evs) = Ok sm' /\ rl_run conf fuel lb sm' = Ok a1
        /\ rl_calls sm' = rl_calls a1 /\ rl_made sm' = rl_made a1 /\ rl_made sm <> rl_made sm' /\ rl_calls sm' = (rl_calls sm ++ map CallEvent evs) ++ [CallTick]).
    { intros Hc Hmd. rewrite Hc in E. destruct (IH _ _ _ E0 E) as (la & evs & lb & sm & sm' & -> & G1 & G2 & G3 & G4 & G5 & G6).
      exists la, evs, (lb ++ [a]), sm, sm'. split; [now rewrite <- app_assoc|]. split; [exact G1|]. split; [exact G2|].
      split; [unfold rl_run in *; rewrite fold_res_app, G3; cbn [bind fold_res]; now rewrite E1|]. rewrite Hc, Hmd. auto. }
    destruct a as [evs| |c| |]; cbn [rl_do] in E1.
    + pose proof E1 as Et. unfold rl_timer in E1. inv_bind E1. destruct (_ && _) eqn:G.
      * inv_bind E1. destruct a2 as [k2 r]. injection E1 as <-. exists l, evs, [], a0. eexists. split; [reflexivity|]. split; [exact E0|]. cbn [rl_do]. split; [exact Et|]. split; [reflexivity|].
        cbn [rl_calls rl_made]. split; [reflexivity|]. split; [reflexivity|]. split; [|reflexivity]. intros X. apply (f_equal (@length _)) in X. rewrite app_length in X. cbn in X. lia.
      * injection E1 as <-. apply Same; cbn [rl_calls rl_made]; [|reflexivity]. destruct evs as [|e evs _] using rev_ind; [cbn; now rewrite app_nil_r|].
        cbn [rl_calls] in E. rewrite map_app, app_assoc, app_assoc in E. cbn in E. apply app_inj_tail in E as [_ E]. discriminate.
    + injection E1 as <-. apply Same; unfold rl_main; destruct (rl_at a0) as [[c st]|]; [destruct (ch_step _ _ _)|destruct (rl_enum a0)|destruct (ch_step _ _ _)|destruct (rl_enum a0)]; reflexivity.
    + injection E1 as <-. now apply Same.
    + injection E1 as <-. now apply Same.
    + injection E1 as <-. now apply Same.
Qed.
Lemma last_news l : forall z, last (news z l) z = last l z.
Proof.
  induction l as [|x l IH]; intros z; [reflexivity|]. cbn [news]. rewrite last_cons. destruct (list_eq_dec N.eq_dec x z) as [->|Hn]; [apply IH|]. rewrite last_cons. apply IH.
Qed.
End Last.

(** *** Progress *)
Section Progress.
Context {R Ctx Ev PKS KS : Type}.
Variable conf : kconf R Ctx Ev PKS KS.
Variable fuel : nat.
Variables rows cols : nat.
Variable idx : nat -> nat -> option nat.
Local Notation km := (keymap R Ctx Ev PKS KS).
Local Notation fw := (@fw R Ctx Ev PKS KS).
Local Notation frun := (fw_run conf fuel rows cols idx).
Local Notation fcalm := (fw_all_calm conf fuel rows cols idx).

(** Steps of the main loop and the host, without a scan. *)
Lemma lift_steps rl : forall (s : fw) s', Forall (fun a => a = RlMain \/ exists c, a = RlHost c) rl -> rl_run conf fuel rl (fw_loop s) = Ok s' ->
  rl_all_calm conf fuel rl (fw_loop s) ->
  exists l, length l = length rl /\ switches l = [] /\ Forall (fun a => a = FwMain \/ exists c, a = FwHost c) l
  /\ frun l s = Ok (mkFw (fw_matrix s) s') /\ fcalm l s.
Proof.
  induction rl as [|a rl IH]; intros s s' F H C.
  - injection H as <-. exists []. cbn. destruct s. auto.
  - inversion F as [|? ? Fa Ft]; subst. unfold rl_run in H. cbn [fold_res] in H. inv_bind H. cbn [rl_all_calm] in C. destruct C as [C1 C2]. rewrite E in C2.
    destruct (IH (mkFw (fw_matrix s) a0) s' Ft H C2) as (l & L1 & L2 & L3 & L4 & L5). destruct Fa as [->|(c & ->)]; cbn [rl_do] in E; injection E as <-.
    + exists (FwMain :: l). cbn [length switches flat_map app]. split; [lia|]. split; [exact L2|]. split; [constructor; [now left|exact L3]|]. split; [exact L4|]. split; [exact C1|exact L5].
    + exists (FwHost c :: l). cbn [length switches flat_map app]. split; [lia|]. split; [exact L2|]. split; [constructor; [right; eauto|exact L3]|]. split; [exact L4|]. split; [exact C1|exact L5].
Qed.
Lemma rl_calm_app a : forall b (s s1 : @rloop R Ctx Ev PKS KS), rl_all_calm conf fuel a s -> rl_run conf fuel a s = Ok s1 -> rl_all_calm conf fuel b s1 -> rl_all_calm conf fuel (a ++ b) s.
Proof.
  induction a as [|x a IH]; intros b s s1 H1 E H2; [now injection E as <-|]. cbn [app rl_all_calm] in *. destruct H1 as [H0 H1]. split; [exact H0|].
  unfold rl_run in E. cbn [fold_res] in E. destruct (rl_do conf fuel s x) as [s'| |]; auto. cbn [bind] in E. eapply IH; eassumption.
Qed.
(** A schedule of steps of the main loop, polls and scans that find [closed]. *)
Definition keeps (closed : nat -> nat -> bool) (l : list fw_step) : Prop :=
  Forall (fun a => a = FwMain \/ (exists c, a = FwHost c) \/ a = FwTimer closed) l.
Lemma keeps_steady closed l : keeps closed l -> steady rows cols closed l.
Proof.
  unfold steady. induction 1 as [|a l Ha _ IH]; [constructor|]. cbn. destruct Ha as [->|[(c & ->)| ->]]; cbn; [exact IH|exact IH|]. constructor; [auto|exact IH].
Qed.
Lemma one_round closed (s : fw) : rl_ok (fw_loop s) -> rl_live (fw_loop s) -> enumerated s ->
  exists l, keeps closed l /\ (length l <= 117)%nat /\ fcalm l s /\
    forall s', frun l s = Ok s' -> length (switches l) = 1%nat /\ reports s' = S (reports s) /\ rl_ok (fw_loop s') /\ rl_live (fw_loop s') /\ enumerated s'.
Proof.
  intros O I He. destruct (progress conf fuel _ O I He) as (n1 & s1 & Hn1 & H1 & C1 & M1 & _ & _ & n2 & s2 & Hn2 & H2 & M2 & A2 & E2 & T).
  set (rl := (repeat RlMain n1 ++ [RlHost ChKb; RlHost ChMouse; RlHost ChCon]) ++ repeat RlMain n2).
  assert (Hrl : rl_run conf fuel rl (fw_loop s) = Ok s2) by (unfold rl, rl_run in *; rewrite fold_res_app, H1; exact H2).
  assert (Crl : rl_all_calm conf fuel rl (fw_loop s)).
  { eapply rl_calm_app; [exact C1|exact H1|apply mains_calm]. }
  assert (Frl : Forall (fun a => a = RlMain \/ exists c, a = RlHost c) rl).
  { assert (X : forall n, Forall (fun a => a = RlMain \/ exists c, a = RlHost c) (repeat RlMain n)) by (intros n; apply Forall_forall; intros a Ha; apply repeat_spec in Ha; now left).
    unfold rl. apply Forall_app; split; [apply Forall_app; split|]; [apply X| |apply X]. constructor; [right; eauto|]. constructor; [right; eauto|]. constructor; [right; eauto|constructor]. }
  destruct (lift_steps rl s s2 Frl Hrl Crl) as (l & L1 & L2 & L3 & L4 & L5).
  exists (l ++ [FwTimer closed]). split; [|split; [|split]].
  - apply Forall_app. split; [|constructor; [auto|constructor]]. eapply Forall_impl; [|exact L3]. intros a [->|Ha]; auto.
  - rewrite app_length, L1. unfold rl. rewrite !app_length, !repeat_length. cbn. lia.
  - apply fcalm_app. split; [exact L5|]. rewrite L4. cbn [fw_all_calm fw_calm fw_loop rl_calm]. rewrite A2. split; [exact Logic.I|]. now destruct (fw_do _ _ _ _ _ _ _).
  - intros s' H. rewrite frun_app, L4 in H. cbn [bind] in H. unfold fw_run in H. cbn [fold_res fw_do fw_matrix fw_loop] in H. inv_bind H. injection H as <-. inv_bind E. destruct a0 as [mx evs]. inv_bind E. injection E as <-.
    rewrite switches_app, L2. cbn. split; [reflexivity|]. unfold reports, enumerated. cbn [fw_loop].
    destruct (T evs a0 E1) as (r & Er). rewrite Er, app_length. cbn. split; [lia|].
    assert (O2 : rl_ok s2) by (eapply rl_run_ok; [exact O|exact Crl|exact Hrl]). assert (I2 : rl_live s2) by (eapply rl_run_live; [exact I|exact Crl|exact Hrl]).
    assert (Cc : rl_calm s2 (RlTimer evs)) by (cbn; rewrite A2; exact Logic.I).
    split; [eapply rl_do_ok; [exact O2|exact Cc|exact E1]|]. split; [eapply rl_do_live; [exact I2|exact Cc|exact E1]|].
    unfold rl_timer in E1. inv_bind E1. destruct (_ && _); [inv_bind E1; destruct a1 as [kx rx]|]; injection E1 as <-; exact E2.
Qed.
Lemma rounds closed n : forall s : fw, rl_ok (fw_loop s) -> rl_live (fw_loop s) -> enumerated s ->
  exists l, keeps closed l /\ (length l <= 117 * n)%nat /\ fcalm l s /\
    forall s', frun l s = Ok s' -> length (switches l) = n /\ reports s' = (n + reports s)%nat /\ rl_ok (fw_loop s') /\ rl_live (fw_loop s') /\ enumerated s'.
Proof.
  induction n as [|n IH]; intros s O I He.
  - exists []. split; [constructor|]. split; [cbn; lia|]. split; [exact Logic.I|]. intros s' H. injection H as <-. auto.
  - destruct (one_round closed s O I He) as (l & K & L & C & T). destruct (frun l s) as [s1| |] eqn:E.
    + destruct (T s1 eq_refl) as (T1 & T2 & T3 & T4 & T5). destruct (IH s1 T3 T4 T5) as (l' & K' & L' & C' & T').
      exists (l ++ l'). split; [apply Forall_app; split; assumption|]. split; [rewrite app_length; lia|]. split; [apply fcalm_app; rewrite E; auto|].
      intros s' H. rewrite frun_app, E in H. cbn [bind] in H. destruct (T' s' H) as (U1 & U2 & U3). rewrite switches_app, app_length. split; [lia|]. split; [lia|exact U3].
    + exists l. split; [exact K|]. split; [lia|]. split; [exact C|]. intros s' H. rewrite E in H. discriminate.
    + exists l. split; [exact K|]. split; [lia|]. split; [exact C|]. intros s' H. rewrite E in H. discriminate.
Qed.

(** *** Where a run stops *)
Lemma reports_scans l : forall s s' : fw, frun l s = Ok s' -> (reports s' <= reports s + length (switches l))%nat.
Proof.
  induction l as [|a l IH]; intros s s' H; unfold fw_run in H; cbn [fold_res] in H; [injection H as <-; lia|].
  inv_bind H. apply IH in H. replace (switches (a :: l)) with (switches [a] ++ switches l) by (unfold switches; cbn [flat_map]; now rewrite app_nil_r). rewrite app_length.
  assert (X : (reports a0 <= reports s + length (switches [a]))%nat).
  { unfold reports. destruct a as [closed| |c| |]; cbn [fw_do switches flat_map app length] in *.
    - inv_bind E. destruct a as [mx evs]. inv_bind E. injection E as <-. cbn [fw_loop]. unfold rl_timer in E1. inv_bind E1.
      destruct (_ && _); [inv_bind E1; destruct a1 as [kx rx]|]; injection E1 as <-; cbn [rl_made]; rewrite ?app_length; cbn; lia.
    - injection E as <-. cbn [fw_loop]. unfold rl_main. destruct (rl_at (fw_loop s)) as [[c st]|]; [destruct (ch_step _ _ _)|destruct (rl_enum (fw_loop s))]; cbn [rl_made]; lia.
    - injection E as <-. cbn. lia.
    - injection E as <-. cbn. lia.
    - injection E as <-. cbn. lia. }
  lia.
Qed.
Definition tick_count (calls : list c_call) : nat := length (filter (fun c => match c with CallTick => true | _ => false end) calls).
Lemma tick_count_app a b : tick_count (a ++ b) = (tick_count a + tick_count b)%nat.
Proof. unfold tick_count. now rewrite filter_app, app_length. Qed.
Lemma plain_calls_ticks calls : forall (k k' : km) rs, plain_calls conf fuel calls k = Ok (k', rs) -> length rs = tick_count calls.
Proof.
  induction calls as [|[e|] t IH]; intros k k' rs H; cbn [plain_calls] in H.
  - injection H as _ <-. reflexivity.
  - inv_bind H. exact (IH _ _ _ H).
  - inv_bind H. destruct a as [k1 r]. inv_bind H. destruct a as [k2 rs']. injection H as _ <-. cbn. f_equal. exact (IH _ _ _ E0).
Qed.
Lemma clocks_ticks_of calls : ck_now (clocks_run (ops_of calls)) = N.of_nat (tick_count calls).
Proof.
  clear. unfold clocks_run. assert (X : forall c, ck_ms c = 1 -> ck_now (fold_left clocks_step (ops_of calls) c) = ck_now c + N.of_nat (tick_count calls)).
  { induction calls as [|[e|] t IH]; intros c Hc; [cbn; lia|change (ops_of (CallEvent e :: t)) with (OpInput (meant e) :: ops_of t)|change (ops_of (CallTick :: t)) with (OpTick :: OpReport :: ops_of t)]; cbn [fold_left].
    - rewrite IH by exact Hc. reflexivity.
    - rewrite IH by exact Hc. cbn. rewrite Hc. unfold tick_count. cbn. lia. }
  rewrite X by reflexivity. reflexivity.
Qed.
Lemma events_stop evs : forall k : km, (forall k', fold_res (fun k e => keymap_register_input_event conf fuel e k) evs k <> Ok k') ->
  forall k' rs, plain_calls conf fuel (map CallEvent evs) k <> Ok (k', rs).
Proof. intros k H k' rs E. rewrite plain_events in E. inv_bind E. exact (H _ E0). Qed.
Lemma timer_stops k0 (s : @rloop R Ctx Ev PKS KS) evs : rl_plain conf fuel k0 s -> (forall s', rl_timer conf fuel evs s <> Ok s') ->
  exists calls, call_events calls = call_events (rl_calls s) ++ evs /\ (tick_count calls <= S (length (rl_made s)))%nat
  /\ forall k rs, plain_calls conf fuel calls k0 <> Ok (k, rs).
Proof.
  unfold rl_plain. intros P H. pose proof (plain_calls_ticks _ _ _ _ P) as Ht.
  assert (Te : forall l, tick_count (map CallEvent l) = 0%nat) by (induction l; auto).
  assert (Ce : call_events (map CallEvent evs) = evs) by apply call_events_map.
  unfold rl_timer in H.
  destruct (fold_res (fun k e => keymap_register_input_event conf fuel e k) evs (rl_keymap s)) as [k1| |] eqn:E; cbn [bind] in H.
  - destruct (_ && _); [|exfalso; eapply H; reflexivity]. exists ((rl_calls s ++ map CallEvent evs) ++ [CallTick]). split; [|split].
    + rewrite !call_events_app, Ce. cbn. now rewrite app_nil_r.
    + rewrite !tick_count_app, Te. cbn. lia.
    + intros k rs X. rewrite !plain_calls_app, P in X. cbn [bind] in X. rewrite plain_events, E in X. cbn [bind plain_calls] in X.
      destruct (keymap_tick conf fuel k1) as [[k2 r]| |]; cbn [bind] in *; try discriminate. eapply H. reflexivity.
  - exists (rl_calls s ++ map CallEvent evs). split; [now rewrite call_events_app, Ce|]. split; [rewrite tick_count_app, Te; lia|].
    intros k rs X. rewrite plain_calls_app, P in X. cbn [bind] in X. rewrite plain_events, E in X. discriminate.
  - exists (rl_calls s ++ map CallEvent evs). split; [now rewrite call_events_app, Ce|]. split; [rewrite tick_count_app, Te; lia|].
    intros k rs X. rewrite plain_calls_app, P in X. cbn [bind] in X. rewrite plain_events, E in X. discriminate.
Qed.
Lemma frun_stops l : forall s : fw, (forall s', frun l s <> Ok s') -> exists la a lb s1, l = la ++ a :: lb /\ frun la s = Ok s1 /\ forall s', fw_do conf fuel rows cols idx s1 a <> Ok s'.
Proof.
  induction l as [|a l IH]; intros s H; [exfalso; eapply H; reflexivity|]. destruct (fw_do conf fuel rows cols idx s a) as [s1| |] eqn:E.
  - destruct (IH s1) as (la & b & lb & s2 & -> & H1 & H2); [intros s' X; apply (H s'); unfold fw_run in *; cbn [fold_res]; rewrite E; exact X|].
    exists (a :: la), b, lb, s2. split; [reflexivity|]. split; [unfold fw_run in *; cbn [fold_res]; rewrite E; exact H1|exact H2].
  - exists [], a, l, s. split; [reflexivity|]. split; [reflexivity|]. intros s' X. rewrite E in X. discriminate.
  - exists [], a, l, s. split; [reflexivity|]. split; [reflexivity|]. intros s' X. rewrite E in X. discriminate.
Qed.
Lemma fw_stops keys closed0 k0 l (s0 : fw) : wiring_ok rows cols keys idx -> N.of_nat keys <= 65536 ->
  fw_matrix s0 = kb_start rows keys closed0 -> fw_loop s0 = rl_new k0 -> (forall s, frun l s0 <> Ok s) ->
  exists calls h rest, typed rows cols keys idx (switches l) h /\ h = map meant (call_events calls) ++ rest
  /\ (tick_count calls <= length (switches l))%nat /\ forall k rs, plain_calls conf fuel calls k0 <> Ok (k, rs).
Proof.
  intros W B Hm Hl H. destruct (frun_stops l s0 H) as (la & a & lb & s1 & -> & H1 & H2).
  destruct (fw_reach conf fuel rows cols keys idx closed0 k0 s0 la s1 Hm Hl H1) as ((evss & R1 & R2 & R3) & _).
  destruct a as [closed| |c| |]; cbn [fw_do] in H2; try (exfalso; eapply H2; reflexivity).
  destruct (C54_keyboard rows cols keys idx closed0 (switches (la ++ FwTimer closed :: lb)) W B) as (kf & evsf & _ & Ef & _).
  pose proof (scans_typed _ _ _ _ _ _ _ _ W B Ef) as Ty. rewrite switches_app in Ef. cbn [switches flat_map app] in Ef. fold (switches lb) in Ef. fold (switches la) in Ef.
  rewrite kb_scans_app, R1 in Ef. cbn [bind kb_scans] in Ef. inv_bind Ef. destruct a as [kx er]. injection Ef as -> <-.
  inv_bind E. destruct a as [m1 evs]. inv_bind E. destruct a as [m2 er']. injection E as -> <-. rewrite E0 in H2. cbn [bind] in H2.
  destruct (timer_stops k0 (fw_loop s1) evs R3) as (calls & G1 & G2 & G3).
  { intros s' X. rewrite X in H2. cbn [bind] in H2. eapply H2. reflexivity. }
  exists calls, (map meant (concat (evss ++ evs :: er'))), (map meant (concat er')). split; [exact Ty|]. split; [|split; [|exact G3]].
  - rewrite G1, R2, concat_app. cbn [concat]. rewrite !map_app, <- app_assoc. reflexivity.
  - pose proof (reports_scans la s0 s1 H1) as X. rewrite Hl in X || idtac. unfold reports in X. rewrite Hl in X. cbn in X. rewrite switches_app, app_length. cbn. lia.
Qed.
End Progress.

(** *** A keyboard of few keys *)
Lemma accepted_inputs ops : incl (accepted ops) (inputs ops).
Proof.
  unfold accepted, inputs. generalize queue_new. induction ops as [|o ops IH]; intros q x Hx; cbn [accepted_from] in Hx; [destruct Hx|].
  apply in_app_iff in Hx. cbn [filter_map]. destruct Hx as [Hx|Hx].
  - destruct o; try destruct Hx. destruct (_ <? _)%nat; [|destruct Hx]. destruct Hx as [<-|[]]. now left.
  - apply IH in Hx. destruct o; auto. now right.
Qed.
Lemma typed_events rows cols keys idx scans h e : typed rows cols keys idx scans h -> In e h -> exists i, (i < keys)%nat /\ (e = Press (N.of_nat i) \/ e = Release (N.of_nat i)).
Proof.
  intros (ca & _ & _ & ->) H. apply in_flat_map in H as (n & _ & H). apply in_map_iff in H as (x & <- & H). unfold changes in H. apply in_flat_map in H as (i & Hi & H).
  apply in_seq in Hi. destruct (eqb _ _); [destruct H|]. destruct H as [<-|[]]. exists i. split; [lia|]. destruct (ca i (S n)); cbn; auto.
Qed.
Lemma few_fit keys m h : (keys <= 16)%nat -> (m = O \/ keys <= m)%nat ->
  (forall e, In e h -> exists i, (i < keys)%nat /\ (e = Press (N.of_nat i) \/ e = Release (N.of_nat i))) -> fits keys m h.
Proof.
  intros K M H. split.
  - intros i Hi. apply H in Hi as (j & Hj & [E|E]); [|discriminate]. injection E as ->. now rewrite Nat2N.id.
  - intros n. cbv zeta.
    assert (F : Forall (fun x => exists i, x = inl (N.of_nat i) /\ (i < keys)%nat) (down_after (firstn n h))).
    { assert (Hf : forall e, In e (firstn n h) -> exists i, (i < keys)%nat /\ (e = Press (N.of_nat i) \/ e = Release (N.of_nat i))).
      { intros e He. apply H. rewrite <- (firstn_skipn n h). apply in_or_app. now left. }
      revert Hf. generalize (firstn n h). induction l as [|x l IH] using rev_ind; intros Hf; [constructor|]. rewrite down_snoc.
      assert (X := IH (fun e He => Hf e (in_or_app _ _ _ (or_introl He)))). destruct (Hf x) as (i & Hi & [->| ->]); [apply in_or_app; right; now left| |]; cbn [down_step].
      - destruct (existsb _ _); [exact X|]. apply Forall_app. split; [exact X|]. constructor; [eauto|constructor].
      - clear -X. induction (down_after l) as [|y t IH]; cbn; [constructor|]. inversion X as [|? ? Y Z]; subst. destruct (is_key _ _); [exact Z|]. constructor; auto. }
    assert (El : length (down_after (firstn n h)) = length (keys_down (down_after (firstn n h)))).
    { clear -F. induction F as [|x t (i & -> & _) _ IH]; [reflexivity|]. cbn. now rewrite IH. }
    assert (Lk : (length (keys_down (down_after (firstn n h))) <= keys)%nat).
    { rewrite <- (seq_length keys 0), <- (map_length N.of_nat). apply NoDup_incl_length; [apply down_nodup|].
      intros x Hx. clear -F Hx. apply in_map_iff. induction F as [|y t (i & -> & Hi) _ IH]; [destruct Hx|]. destruct Hx as [<-|Hx]; [|auto]. exists i. split; [reflexivity|]. apply in_seq. lia. }
    rewrite El. split; [lia|]. destruct M as [->|M]; [now left|right; lia].
Qed.
