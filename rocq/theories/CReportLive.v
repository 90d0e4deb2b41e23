(** The main loop of the C firmware does not get stuck. *)
From Verif Require Import Base Output Types Slice Split Scheduler Keymap CApi CReport SpecCReport BaseFacts OutputFacts SplitFacts CFirmwareFacts CReportFacts.
Local Open Scope nat_scope.

Ltac split_pair H := let H2 := fresh "H" in pose proof (f_equal snd H) as H2; apply (f_equal fst) in H; cbn [fst snd] in H, H2; match type of H with _ = ?b => subst b end; rename H2 into H.

(** *** One channel *)
Definition live_state (at_ : option stage) (c : channel) : Prop :=
  match at_ with
  | None | Some StTest | Some StSelect => (ch_sending c = false /\ quiet_ch c) \/ (ch_sending c = true /\ ch_ack c = ch_busy c)
  | Some StUp | Some (StLoad _) | Some StArm => ch_sending c = false /\ quiet_ch c
  | Some StBusy => ch_sending c = false /\ ch_ack c = true /\ ch_busy c = false
  | Some StSending => ch_sending c = false /\ ch_ack c = ch_busy c
  | Some (StCopy _) | Some StClear => ch_sending c = true /\ quiet_ch c
  end.
Record ch_live (n : nat) (at_ : option stage) (c : channel) : Prop := {
  cl_pack : length (ch_pack c) = n;
  cl_prev : length (ch_prev c) = n;
  cl_buf : length (ch_buf c) = n;
  cl_pos : 0 < n;
  cl_state : live_state at_ c
}.

Lemma ch_step_live n r st c c' nxt : ch_live n (Some st) c -> ch_step r st c = (c', nxt) -> ch_live n nxt c'.
Proof.
  intros [L1 L2 L3 L4 S] H. destruct st; cbn [ch_step live_state] in *; injection H as <- <-; constructor; ccbn; rewrite ?set_nth_len; auto.
  - destruct (_ || _); exact S.
  - destruct (ch_sending c) eqn:E; cbn [negb]; [destruct (ch_busy c) eqn:F; cbn [negb]|]; cbn [live_state]; unfold quiet_ch in *; intuition congruence.
  - unfold quiet_ch in S. destruct S as (S1 & S2 & S3). rewrite S3. cbn [negb live_state]. unfold quiet_ch. auto.
  - destruct (_ <? _); exact S.
  - cbn [live_state]. unfold quiet_ch in S. ccbn. tauto.
  - cbn [live_state]. ccbn. intuition congruence.
  - cbn [live_state]. ccbn. tauto.
  - destruct (_ <? _); exact S.
  - cbn [live_state]. unfold quiet_ch in *. ccbn. tauto.
Qed.
Lemma ch_take_live n at_ c : ch_live n at_ c -> at_ <> Some StBusy -> ch_live n at_ (ch_take c).
Proof.
  intros [L1 L2 L3 L4 S] H. unfold ch_take. destruct (ch_ack c) eqn:E; [|constructor; auto].
  constructor; ccbn; auto. destruct at_ as [[| | |i| | | |i|]|]; cbn [live_state] in *; unfold quiet_ch in *; ccbn; intuition (try congruence).
Qed.
Lemma ch_live_test n c : ch_live n None c -> ch_live n (Some StTest) c.
Proof. intros [A B C' E F]. constructor; auto. Qed.

(** Steps until the main loop leaves a channel. *)
Definition dist (L : nat) (st : stage) : nat :=
  match st with
  | StTest => L + 7 | StSelect => L + 6 | StUp => L + 5 | StLoad i => L - i + 4 | StArm => 3 | StBusy => 2 | StSending => 1
  | StCopy i => L - i + 2 | StClear => 1
  end.
Lemma ch_step_dist r st c c' st' : ch_step r st c = (c', Some st') -> dist (length (ch_pack c')) st' < dist (length (ch_pack c)) st.
Proof.
  destruct st; cbn [ch_step]; intros H; injection H as <- H; ccbn; try discriminate H.
  - destruct (_ || _); [injection H as <-; cbn; lia|discriminate].
  - destruct (negb _); [injection H as <-; cbn; lia|]. destruct (negb _); [injection H as <-; cbn; lia|discriminate].
  - destruct (negb _); injection H as <-; cbn; lia.
  - destruct (Nat.ltb_spec (S i) (length (ch_pack c))); injection H as <-; cbn; lia.
  - subst. cbn. lia.
  - subst. cbn. lia.
  - destruct (Nat.ltb_spec (S i) (length (ch_pack c))); injection H as <-; cbn; lia.
Qed.
Lemma ch_step_pack r st c c' nxt : ch_step r st c = (c', nxt) -> ch_pack c' = ch_pack c.
Proof. destruct st; cbn [ch_step]; intros H; injection H as <- _; reflexivity. Qed.

(** Three things known of a channel when the main loop leaves it. *)
Definition settled (n : nat) (c : channel) (D : list (list u8)) : Prop :=
  clean c D \/ armed c D \/ taken c D.
Definition settling (n : nat) (D : list (list u8)) (st : stage) (c : channel) : Prop :=
  ch_ok n (Some st) c D /\ (st = StClear -> ch_pack c = ch_prev c).
Lemma settling_step n D st c c' st' : settling n D st c -> ch_step false st c = (c', Some st') -> settling n D st' c'.
Proof.
  intros [I J] H. assert (K := ch_step_ok _ _ _ _ _ _ I H). split; [exact K|]. intros ->.
  destruct K as [_ _ _ _ S]. cbn [ch_state] in S. destruct S as (_ & _ & [[S _]|[S S']]); [exact S|].
  destruct st; cbn [ch_step] in H; injection H as <- H; try discriminate H.
  - destruct (_ || _); discriminate.
  - destruct (negb _); [discriminate|]. destruct (negb _); discriminate.
  - destruct (negb _); discriminate.
  - destruct (_ <? _); discriminate.
  - ccbn. destruct I as [L1 L2 L3 L4 I]. cbn [ch_state] in I. destruct I as (I1 & I2 & I3 & I4 & I5).
    destruct (Nat.ltb_spec (Datatypes.S i) (length (ch_pack c))); [discriminate|].
    assert (F : firstn (Datatypes.S i) (set_nth (ch_prev c) i (nth i (ch_pack c) 0%N)) = firstn (Datatypes.S i) (ch_pack c)) by (apply firstn_set_nth_S; congruence || lia).
    rewrite !firstn_all2 in F by (rewrite ?set_nth_len; lia). now symmetry.
Qed.
Lemma settling_end n D st c c' : settling n D st c -> ch_step false st c = (c', None) -> settled n c' D.
Proof.
  intros [I J] H. destruct I as [L1 L2 L3 L4 S]. unfold settled. destruct st; cbn [ch_step ch_state] in *; split_pair H; try discriminate H.
  - cbn [andb] in H. rewrite orb_false_r in H. destruct (bytes_eqb (ch_pack c) (ch_prev c)) eqn:E; [|discriminate]. apply bytes_eqb_spec in E.
    cunfold. tauto.
  - destruct (ch_sending c) eqn:E; cbn [negb] in H; [|discriminate]. destruct (ch_busy c) eqn:F; cbn [negb] in H; [|discriminate].
    cunfold. intuition congruence.
  - destruct (negb _); discriminate.
  - destruct (_ <? _); discriminate.
  - cunfold. tauto.
  - destruct (_ <? _); discriminate.
  - cunfold. specialize (J eq_refl). destruct S as (S1 & S2 & [[S3 S4]|[S3 S4]]); [|congruence]. auto.
Qed.

Definition loaded (c : channel) : Prop := ch_pack c = ch_prev c \/ (ch_sending c = true /\ ch_ack c = ch_busy c).
Definition loading (n : nat) (st : stage) (c : channel) : Prop :=
  ch_live n (Some st) c /\ (match st with StCopy i => i < n /\ firstn i (ch_prev c) = firstn i (ch_pack c) | StClear => ch_pack c = ch_prev c | _ => True end).
Lemma loading_step n r st c c' st' : loading n st c -> ch_step r st c = (c', Some st') -> loading n st' c'.
Proof.
  intros [I J] H. split; [eapply ch_step_live; eauto|]. destruct I as [L1 L2 L3 L4 I].
  destruct st; cbn [ch_step] in H; injection H as <- H; try discriminate H.
  - destruct (_ || _); [injection H as <-; exact Logic.I|discriminate].
  - destruct (negb _); [injection H as <-; exact Logic.I|]. destruct (negb _); [injection H as <-; split; [lia|reflexivity]|discriminate].
  - destruct (negb _); injection H as <-; exact Logic.I.
  - destruct (_ <? _); injection H as <-; exact Logic.I.
  - subst. exact Logic.I.
  - subst. exact Logic.I.
  - destruct J as [J1 J2].
    assert (F : firstn (S i) (set_nth (ch_prev c) i (nth i (ch_pack c) 0%N)) = firstn (S i) (ch_pack c)) by (apply firstn_set_nth_S; congruence || lia).
    destruct (Nat.ltb_spec (S i) (length (ch_pack c))); injection H as <-; ccbn; [split; [lia|exact F]|].
    rewrite !firstn_all2 in F by (rewrite ?set_nth_len; lia). now symmetry.
Qed.
Lemma loading_end n r st c c' : loading n st c -> ch_step r st c = (c', None) -> loaded c'.
Proof.
  intros [I J] H. destruct I as [L1 L2 L3 L4 I]. unfold loaded. destruct st; cbn [ch_step live_state] in *; split_pair H; try discriminate H.
  - destruct (bytes_eqb (ch_pack c) (ch_prev c)) eqn:E; [|discriminate]. apply bytes_eqb_spec in E. now left.
  - destruct (ch_sending c) eqn:E; cbn [negb] in H; [|discriminate]. right. intuition congruence.
  - destruct (negb _); discriminate.
  - destruct (_ <? _); discriminate.
  - right. ccbn. tauto.
  - destruct (_ <? _); discriminate.
  - now left.
Qed.

(** A channel whose packet the host took. *)
Definition relaxed (c : channel) : Prop := ch_pack c = ch_prev c \/ (ch_sending c = true /\ ch_busy c = false).
Definition relaxing (n : nat) (st : stage) (c : channel) : Prop :=
  length (ch_pack c) = n /\ length (ch_prev c) = n /\ 0 < n /\
  (ch_pack c = ch_prev c \/
   match st with
   | StTest | StSelect => ch_sending c = true /\ ch_busy c = false
   | StCopy i => i < n /\ firstn i (ch_prev c) = firstn i (ch_pack c)
   | _ => False
   end).
Lemma relaxing_copy n i c : length (ch_pack c) = n -> length (ch_prev c) = n -> 0 < n ->
  (ch_pack c = ch_prev c \/ (i < n /\ firstn i (ch_prev c) = firstn i (ch_pack c))) ->
  set_nth (ch_prev c) i (nth i (ch_pack c) 0%N) = ch_pack c \/
  (S i < n /\ firstn (S i) (set_nth (ch_prev c) i (nth i (ch_pack c) 0%N)) = firstn (S i) (ch_pack c)).
Proof.
  intros L1 L2 L4 [J|[J1 J2]].
  - left. rewrite <- J. clear. generalize (ch_pack c). intros l. revert i. induction l as [|x l IH]; intros [|i]; cbn; try reflexivity. now rewrite IH.
  - assert (F : firstn (S i) (set_nth (ch_prev c) i (nth i (ch_pack c) 0%N)) = firstn (S i) (ch_pack c)) by (apply firstn_set_nth_S; congruence || lia).
    destruct (Nat.lt_ge_cases (S i) n); [right; split; assumption|]. left. rewrite !firstn_all2 in F by (rewrite ?set_nth_len; lia). exact F.
Qed.
Lemma relaxing_step n r st c c' st' : relaxing n st c -> ch_step r st c = (c', Some st') -> relaxing n st' c'.
Proof.
  intros (L1 & L2 & L4 & J) H. destruct st; cbn [ch_step] in H; injection H as <- H; try discriminate H; unfold relaxing; ccbn; rewrite ?set_nth_len; repeat (split; [assumption|]).
  - destruct (_ || _); [|discriminate]. injection H as <-. exact J.
  - destruct J as [J|[J1 J2]]; [now left|]. rewrite J1, J2 in H. injection H as <-. right. split; [lia|reflexivity].
  - now destruct J as [J|[]]; left.
  - now destruct J as [J|[]]; left.
  - now destruct J as [J|[]]; left.
  - now destruct J as [J|[]]; left.
  - destruct (relaxing_copy _ _ _ L1 L2 L4 J) as [K|[K1 K2]]; [left; now symmetry|].
    destruct (Nat.ltb_spec (S i) (length (ch_pack c))); [injection H as <-; now right|lia].
Qed.
Lemma relaxing_end n r st c c' : relaxing n st c -> ch_step r st c = (c', None) -> ch_pack c' = ch_prev c'.
Proof.
  intros (L1 & L2 & L4 & J) H. destruct st; cbn [ch_step] in H; split_pair H; ccbn; try discriminate H.
  - destruct (bytes_eqb (ch_pack c) (ch_prev c)) eqn:E; [now apply bytes_eqb_spec|discriminate].
  - destruct J as [J|[J1 J2]]; [exact J|]. rewrite J1, J2 in H. discriminate.
  - destruct (negb _); discriminate.
  - destruct (_ <? _); discriminate.
  - now destruct J as [J|[]].
  - destruct (_ <? _); discriminate.
  - now destruct J as [J|[]].
Qed.

(** *** The firmware *)
Section Live.
Context {R Ctx Ev PKS KS : Type}.
Variable conf : kconf R Ctx Ev PKS KS.
Variable fuel : nat.
Local Notation km := (keymap R Ctx Ev PKS KS).
Local Notation rloop := (@rloop R Ctx Ev PKS KS).

Definition rl_live (s : rloop) : Prop := forall c, ch_live (part_len c) (at_in s c) (rl_chan s c).
Lemma rl_new_live (k : km) : rl_live (rl_new k).
Proof. intros c. destruct c; constructor; cbn; try reflexivity; try lia; left; unfold quiet_ch; cbn; auto. Qed.

Lemma rl_do_live s a s' : rl_live s -> rl_calm s a -> rl_do conf fuel s a = Ok s' -> rl_live s'.
Proof.
  intros I C H c. assert (Ic := I c). destruct a as [evs| |d| |]; cbn [rl_do] in H.
  - unfold rl_timer in H. inv_bind H. destruct (_ && _) eqn:G.
    + inv_bind H. destruct a0 as [k2 r]. inv_ok H. cbn [rl_chan]. destruct Ic as [L1 L2 L3 L4 S].
      assert (Hp := part_length conf fuel _ _ _ c E0).
      constructor; unfold ch_set_pack; ccbn; auto.
    + inv_ok H. exact Ic.
  - inv_ok H. unfold rl_main. destruct (rl_at s) as [[d st]|] eqn:Ea.
    + destruct (ch_step (resends d) st (rl_chan s d)) as [x nxt] eqn:Es. cbn [rl_chan]. unfold set_chan, at_in in *. rewrite Ea in Ic. cbn [rl_at].
      destruct (chan_eqb c d) eqn:Ecd.
      * apply chan_eqb_spec in Ecd. subst d. rewrite chan_eqb_refl in Ic. assert (K := ch_step_live _ _ _ _ _ _ Ic Es).
        destruct nxt as [st'|]; [rewrite chan_eqb_refl; exact K|]. destruct c; cbn [after chan_eqb]; exact K.
      * assert (Hdc : chan_eqb d c = false) by (destruct d, c; cbn in *; congruence). rewrite Hdc in Ic.
        destruct nxt as [st'|]; [rewrite Hdc; exact Ic|].
        destruct d; cbn [after]; destruct c; cbn [chan_eqb] in *; try discriminate; first [exact Ic|now apply ch_live_test].
    + destruct (rl_enum s); [|auto]. cbn [rl_chan]. unfold at_in in *. cbn [rl_at]. rewrite Ea in Ic.
      destruct c; cbn [chan_eqb]; first [exact Ic|now apply ch_live_test].
  - inv_ok H. unfold rl_host. cbn [rl_chan]. unfold set_chan. destruct (chan_eqb c d) eqn:Ecd; [|exact Ic].
    apply chan_eqb_spec in Ecd. subst d. apply ch_take_live; [exact Ic|].
    intros Hb. cbn [rl_calm] in C. apply C. unfold at_in in Hb. cbn [rl_at] in Hb. destruct (rl_at s) as [[d st]|]; [|discriminate].
    destruct (chan_eqb d c) eqn:E; [|discriminate]. apply chan_eqb_spec in E. congruence.
  - inv_ok H. exact Ic.
  - inv_ok H. cbn [rl_calm] in C. destruct C as [C1 C2]. unfold at_in in *. cbn [rl_reset rl_at rl_chan]. rewrite C2 in *.
    destruct Ic as [L1 L2 L3 L4 S]. constructor; auto. unfold ch_reset. cbn [live_state] in *. unfold quiet_ch in *. ccbn. specialize (C1 c). intuition (try congruence).
Qed.
Lemma rl_run_live l : forall s s', rl_live s -> rl_all_calm conf fuel l s -> rl_run conf fuel l s = Ok s' -> rl_live s'.
Proof.
  induction l as [|a l IH]; intros s s' I C H; cbn [rl_all_calm] in C; unfold rl_run in H; cbn [fold_res] in H; [inv_ok H; auto|].
  destruct C as [C1 C2]. inv_bind H. rewrite E in C2. eapply IH; [|exact C2|exact H]. eapply rl_do_live; eauto.
Qed.

(** Only the main loop runs. *)
Fixpoint mains (n : nat) (s : rloop) : rloop := match n with O => s | S n' => mains n' (rl_main s) end.
Lemma mains_run n : forall s, rl_run conf fuel (repeat RlMain n) s = Ok (mains n s).
Proof. induction n as [|n IH]; intros s; cbn [repeat mains]; [reflexivity|]. unfold rl_run in *. cbn [fold_res rl_do bind]. apply IH. Qed.
Lemma mains_calm n : forall s, rl_all_calm conf fuel (repeat RlMain n) s.
Proof. induction n as [|n IH]; intros s; cbn [repeat rl_all_calm rl_calm rl_do]; auto. Qed.
Lemma mains_add a : forall b s, mains (a + b) s = mains b (mains a s).
Proof. induction a as [|a IH]; intros b s; cbn; auto. Qed.
Lemma mains_ok n s : rl_ok s -> rl_ok (mains n s).
Proof. intros I. exact (rl_run_ok conf fuel _ _ _ I (mains_calm n s) (mains_run n s)). Qed.
Lemma mains_live n s : rl_live s -> rl_live (mains n s).
Proof. intros I. exact (rl_run_live _ _ _ I (mains_calm n s) (mains_run n s)). Qed.
Definition same_rest (s s' : rloop) : Prop :=
  rl_enum s' = rl_enum s /\ rl_keymap s' = rl_keymap s /\ rl_made s' = rl_made s /\ rl_calls s' = rl_calls s
  /\ forall c, ch_pack (rl_chan s' c) = ch_pack (rl_chan s c).
Lemma same_rest_refl s : same_rest s s.
Proof. repeat split. Qed.
Lemma same_rest_trans a b c : same_rest a b -> same_rest b c -> same_rest a c.
Proof. unfold same_rest. intros (A1 & A2 & A3 & A4 & A5) (B1 & B2 & B3 & B4 & B5). repeat split; try congruence. Qed.

Lemma leave (P : stage -> channel -> Prop) (Q : channel -> Prop) c :
  (forall st x x' st', P st x -> ch_step (resends c) st x = (x', Some st') -> P st' x') ->
  (forall st x x', P st x -> ch_step (resends c) st x = (x', None) -> Q x') ->
  forall m st s, dist (length (ch_pack (rl_chan s c))) st <= m -> rl_at s = Some (c, st) -> P st (rl_chan s c) ->
  exists n, n <= m /\ rl_at (mains n s) = after c /\ Q (rl_chan (mains n s) c) /\ same_rest s (mains n s)
            /\ forall d, d <> c -> rl_chan (mains n s) d = rl_chan s d.
Proof.
  intros HP HQ m. induction m as [|m IH]; intros st s Hm Ha HPs.
  - exfalso. destruct st; cbn in Hm; lia.
  - destruct (ch_step (resends c) st (rl_chan s c)) as [x nxt] eqn:Es.
    assert (Hs : rl_main s = mkRl (set_chan c x (rl_chan s)) (rl_enum s) (match nxt with Some st' => Some (c, st') | None => after c end) (rl_keymap s) (rl_made s) (rl_calls s)).
    { unfold rl_main. now rewrite Ha, Es. }
    assert (Hpk := ch_step_pack _ _ _ _ _ Es).
    assert (Hr : same_rest s (rl_main s)).
    { rewrite Hs. repeat split. intros d. cbn [rl_chan]. unfold set_chan. destruct (chan_eqb d c) eqn:E; [|reflexivity]. apply chan_eqb_spec in E. now subst. }
    assert (Hd : forall d, d <> c -> rl_chan (rl_main s) d = rl_chan s d).
    { rewrite Hs. intros d Hd. cbn [rl_chan]. unfold set_chan. destruct (chan_eqb d c) eqn:E; [|reflexivity]. apply chan_eqb_spec in E. congruence. }
    assert (Hc : rl_chan (rl_main s) c = x) by (rewrite Hs; cbn [rl_chan]; unfold set_chan; now rewrite chan_eqb_refl).
    destruct nxt as [st'|].
    + assert (Hds := ch_step_dist _ _ _ _ _ Es).
      destruct (IH st' (rl_main s)) as (n & Hn & A & B & C & D).
      * rewrite Hc. lia.
      * now rewrite Hs.
      * rewrite Hc. eapply HP; eauto.
      * exists (S n). cbn [mains]. repeat (split; [first [lia|assumption|eapply same_rest_trans; eassumption]|]). intros d Hdc. rewrite D by assumption. auto.
    + exists 1. cbn [mains]. split; [lia|]. split; [now rewrite Hs|]. split; [|auto]. rewrite Hc. eapply HQ; eauto.
Qed.
Lemma leave_any c st s : rl_live s -> rl_at s = Some (c, st) ->
  exists n, n <= part_len c + 7 /\ rl_at (mains n s) = after c /\ same_rest s (mains n s).
Proof.
  intros I Ha. destruct (leave (fun _ _ => True) (fun _ => True) c ltac:(auto) ltac:(auto) (part_len c + 7) st s) as (n & Hn & A & _ & B & _).
  - assert (L := cl_pack _ _ _ (I c)). rewrite L. destruct st; cbn [dist]; lia.
  - exact Ha.
  - exact Logic.I.
  - now exists n.
Qed.
Lemma to_head s : rl_live s -> exists n, n <= 37 /\ rl_at (mains n s) = None /\ same_rest s (mains n s).
Proof.
  intros I.
  assert (K3 : forall st s, rl_live s -> rl_at s = Some (ChCon, st) -> exists n, n <= 11 /\ rl_at (mains n s) = None /\ same_rest s (mains n s)).
  { intros st t It Ht. destruct (leave_any _ _ _ It Ht) as (n & Hn & A & B). exists n. cbn in Hn. auto. }
  assert (K2 : forall st s, rl_live s -> rl_at s = Some (ChMouse, st) -> exists n, n <= 22 /\ rl_at (mains n s) = None /\ same_rest s (mains n s)).
  { intros st t It Ht. destruct (leave_any _ _ _ It Ht) as (n & Hn & A & B). cbn in Hn.
    destruct (K3 _ _ (mains_live n _ It) A) as (n2 & Hn2 & A2 & B2). exists (n + n2). rewrite mains_add. split; [lia|]. split; [exact A2|]. eapply same_rest_trans; eauto. }
  destruct (rl_at s) as [[[| |] st]|] eqn:Ea.
  - destruct (leave_any _ _ _ I Ea) as (n & Hn & A & B). cbn in Hn.
    destruct (K2 _ _ (mains_live n _ I) A) as (n2 & Hn2 & A2 & B2). exists (n + n2). rewrite mains_add. split; [lia|]. split; [exact A2|]. eapply same_rest_trans; eauto.
  - destruct (K2 _ _ I Ea) as (n & Hn & A & B). exists n. split; [lia|auto].
  - destruct (K3 _ _ I Ea) as (n & Hn & A & B). exists n. split; [lia|auto].
  - exists 0. split; [lia|]. split; [exact Ea|apply same_rest_refl].
Qed.

(** One pass of the main loop over the three channels. *)
Lemma pass (P : chan -> stage -> channel -> Prop) (Q : chan -> channel -> Prop) s :
  (forall c st x x' st', P c st x -> ch_step (resends c) st x = (x', Some st') -> P c st' x') ->
  (forall c st x x', P c st x -> ch_step (resends c) st x = (x', None) -> Q c x') ->
  rl_at s = None -> rl_enum s = true -> rl_live s -> (forall c, P c StTest (rl_chan s c)) ->
  exists n, n <= 38 /\ rl_at (mains n s) = None /\ (forall c, Q c (rl_chan (mains n s) c)) /\ same_rest s (mains n s).
Proof.
  intros HP HQ Ha He I H0.
  assert (L : forall t c, rl_live t -> dist (length (ch_pack (rl_chan t c))) StTest <= part_len c + 7) by (intros t c It; rewrite (cl_pack _ _ _ (It c)); cbn [dist]; lia).
  pose (s0 := rl_main s). assert (E0 : s0 = mkRl (rl_chan s) (rl_enum s) (Some (ChKb, StTest)) (rl_keymap s) (rl_made s) (rl_calls s)) by (unfold s0, rl_main; now rewrite Ha, He).
  assert (I0 : rl_live s0) by (apply (mains_live 1 s I)).
  assert (R0 : same_rest s s0) by (rewrite E0; repeat split).
  assert (C0 : forall c, rl_chan s0 c = rl_chan s c) by (rewrite E0; reflexivity).
  destruct (leave (P ChKb) (Q ChKb) ChKb (HP _) (HQ _) _ StTest s0 (L _ _ I0)) as (n1 & Hn1 & A1 & B1 & R1 & D1); [now rewrite E0|rewrite C0; apply H0|].
  pose (s1 := mains n1 s0). fold s1 in A1, B1, R1, D1. assert (I1 : rl_live s1) by (now apply mains_live).
  destruct (leave (P ChMouse) (Q ChMouse) ChMouse (HP _) (HQ _) _ StTest s1 (L _ _ I1) A1) as (n2 & Hn2 & A2 & B2 & R2 & D2); [rewrite D1, C0 by discriminate; apply H0|].
  pose (s2 := mains n2 s1). fold s2 in A2, B2, R2, D2. assert (I2 : rl_live s2) by (now apply mains_live).
  destruct (leave (P ChCon) (Q ChCon) ChCon (HP _) (HQ _) _ StTest s2 (L _ _ I2) A2) as (n3 & Hn3 & A3 & B3 & R3 & D3); [rewrite D2, D1, C0 by discriminate; apply H0|].
  exists (1 + (n1 + (n2 + n3))). cbn [part_len] in *. split; [lia|]. rewrite !mains_add. change (mains 1 s) with s0. fold s1. fold s2. split; [exact A3|]. split.
  - intros [| |]; [rewrite D3, D2 by discriminate; exact B1|rewrite D3 by discriminate; exact B2|exact B3].
  - eauto using same_rest_trans.
Qed.

Lemma progress s : rl_ok s -> rl_live s -> rl_enum s = true ->
  exists n1 s1, n1 <= 75 /\ rl_run conf fuel (repeat RlMain n1 ++ [RlHost ChKb; RlHost ChMouse; RlHost ChCon]) s = Ok s1
    /\ rl_all_calm conf fuel (repeat RlMain n1 ++ [RlHost ChKb; RlHost ChMouse; RlHost ChCon]) s
    /\ rl_made s1 = rl_made s /\ rl_calls s1 = rl_calls s
    /\ (forall c, resends c = false -> due c s1 = received c s1)
    /\ exists n2 s2, n2 <= 38 /\ rl_run conf fuel (repeat RlMain n2) s1 = Ok s2 /\ rl_made s2 = rl_made s
       /\ rl_at s2 = None /\ rl_enum s2 = true
       /\ forall evs s3, rl_do conf fuel s2 (RlTimer evs) = Ok s3 -> exists r, rl_made s3 = rl_made s ++ [r].
Proof.
  intros O I He. destruct (to_head s I) as (n0 & Hn0 & A0 & R0). pose (t := mains n0 s). fold t in A0, R0.
  assert (Ot : rl_ok t) by (now apply mains_ok). assert (It : rl_live t) by (now apply mains_live).
  assert (Et : rl_enum t = true) by (destruct R0 as (R0 & _); congruence).
  destruct (pass (fun c st x => (resends c = false -> settling (part_len c) (due c t) st x) /\ loading (part_len c) st x)
                 (fun c x => (resends c = false -> settled (part_len c) x (due c t)) /\ loaded x) t) as (n1 & Hn1 & A1 & B1 & R1).
  - intros c st x x' st' [X Y] H. split; [intros Hc; rewrite Hc in H; eapply settling_step; eauto|eapply loading_step; eauto].
  - intros c st x x' [X Y] H. split; [intros Hc; rewrite Hc in H; eapply settling_end; eauto|eapply loading_end; eauto].
  - exact A0.
  - exact Et.
  - exact It.
  - intros c. specialize (It c). unfold at_in in It. rewrite A0 in It. split.
    + intros Hc. destruct (Ot c Hc) as [K _]. unfold at_in in K. rewrite A0 in K. split; [now apply ch_ok_test|discriminate].
    + split; [now apply ch_live_test|exact Logic.I].
  - pose (u := mains n1 t). fold u in A1, B1, R1.
    assert (Iu : rl_live u) by (now apply mains_live).
    pose (s1 := rl_host ChCon (rl_host ChMouse (rl_host ChKb u))).
    assert (C1 : forall c, rl_chan s1 c = ch_take (rl_chan u c)) by (intros [| |]; reflexivity).
    assert (M1 : rl_made s1 = rl_made s) by (cbn; destruct R0 as (_ & _ & R0 & _), R1 as (_ & _ & R1 & _); congruence).
    assert (Hrun : rl_run conf fuel (repeat RlMain (n0 + n1) ++ [RlHost ChKb; RlHost ChMouse; RlHost ChCon]) s = Ok s1).
    { unfold rl_run. rewrite fold_res_app. fold (rl_run conf fuel (repeat RlMain (n0 + n1)) s). rewrite mains_run, mains_add. reflexivity. }
    assert (Hcalm : rl_all_calm conf fuel (repeat RlMain (n0 + n1) ++ [RlHost ChKb; RlHost ChMouse; RlHost ChCon]) s).
    { assert (G : forall n w l, rl_all_calm conf fuel l (mains n w) -> rl_all_calm conf fuel (repeat RlMain n ++ l) w).
      { induction n as [|n IH]; intros w l H; [exact H|]. cbn [repeat app rl_all_calm rl_calm rl_do]. split; [exact Logic.I|]. apply IH. exact H. }
      apply G. rewrite mains_add. fold t. fold u. cbn [rl_all_calm rl_calm rl_do rl_host rl_at]. rewrite A1. repeat split; discriminate. }
    exists (n0 + n1), s1. split; [lia|]. split; [exact Hrun|]. split; [exact Hcalm|]. split; [exact M1|].
    split; [cbn; destruct R0 as (_ & _ & _ & R0 & _), R1 as (_ & _ & _ & R1 & _); congruence|]. split.
    + intros c Hc. destruct (B1 c) as [B _]. specialize (B Hc). unfold received. rewrite C1.
      replace (due c s1) with (due c t) by (unfold due; rewrite M1; destruct R0 as (_ & _ & R0 & _); now rewrite R0).
      unfold settled in B. unfold ch_take. destruct (ch_ack (rl_chan u c)) eqn:Ek; cunfold; intuition congruence.
    + assert (I1 : rl_live s1) by (exact (rl_run_live _ _ _ I Hcalm Hrun)).
      destruct (pass (fun c st x => relaxing (part_len c) st x) (fun c x => ch_pack x = ch_prev x) s1) as (n2 & Hn2 & A2 & B2 & R2).
      * intros c st x x' st' X H. eapply relaxing_step; eauto.
      * intros c st x x' X H. eapply relaxing_end; eauto.
      * exact A1.
      * cbn. destruct R1 as (R1 & _). congruence.
      * exact I1.
      * intros c. destruct (I1 c) as [L1 L2 L3 L4 _]. destruct (B1 c) as [_ B]. repeat (split; [assumption|]).
        rewrite C1. unfold ch_take, loaded in *. destruct (ch_ack (rl_chan u c)) eqn:Ek; ccbn; [destruct B as [B|[B _]]; auto|].
        destruct B as [B|[B B']]; [auto|]. right. split; congruence.
      * exists n2, (mains n2 s1). split; [exact Hn2|]. split; [apply mains_run|]. assert (M2 : rl_made (mains n2 s1) = rl_made s) by (destruct R2 as (_ & _ & R2 & _); congruence).
        split; [exact M2|]. split; [exact A2|]. split; [destruct R1 as (R1 & _), R2 as (R2 & _); rewrite R2; unfold s1; cbn [rl_host rl_enum]; congruence|]. intros evs s3 H. cbn [rl_do] in H. unfold rl_timer in H. inv_bind H. rewrite !B2, !bytes_eqb_refl in H. cbn [andb] in H.
        inv_bind H. destruct a0 as [k2 r]. inv_ok H. exists r. cbn [rl_made]. now rewrite M2.
Qed.
End Live.

(** *** A packet taken too early *)
Section Dead.
Context {R Ctx Ev PKS KS : Type}.
Variable conf : kconf R Ctx Ev PKS KS.
Variable fuel : nat.
Local Notation rloop := (@rloop R Ctx Ev PKS KS).

Definition dead_state (at_ : option stage) (x : channel) : Prop :=
  ch_pack x <> ch_prev x /\ ch_ack x = false /\
  match at_ with
  | Some StBusy => True
  | Some StSending => ch_busy x = true
  | None | Some StTest | Some StSelect => ch_busy x = true /\ ch_sending x = true
  | _ => False
  end.
Lemma dead_step st x x' nxt r : dead_state (Some st) x -> ch_step r st x = (x', nxt) -> dead_state nxt x' /\ ch_host x' = ch_host x.
Proof.
  intros (A & B & C) H. unfold dead_state. destruct st; cbn [ch_step] in H; try contradiction.
  - rewrite (proj2 (bytes_eqb_false _ _) A) in H. injection H as <- <-. auto.
  - destruct C as [C1 C2]. rewrite C1, C2 in H. injection H as <- <-. auto.
  - injection H as <- <-. ccbn. auto.
  - injection H as <- <-. ccbn. auto.
Qed.
Definition dead (c : chan) (s : rloop) : Prop := dead_state (at_in s c) (rl_chan s c).
Lemma rl_do_dead c s a s' : dead c s -> a <> RlReset -> rl_do conf fuel s a = Ok s' ->
  dead c s' /\ received c s' = received c s /\ rl_made s' = rl_made s.
Proof.
  unfold dead, received. intros I Ha H. destruct a as [evs| |d| |]; cbn [rl_do] in H; try congruence.
  - unfold rl_timer in H. inv_bind H. destruct (_ && _) eqn:G; [|inv_ok H; auto]. exfalso.
    apply andb_prop in G as [G G3]. apply andb_prop in G as [G1 G2]. rewrite bytes_eqb_spec in G1, G2, G3. destruct I as (I & _). destruct c; auto.
  - inv_ok H. unfold rl_main. destruct (rl_at s) as [[d st]|] eqn:Ea.
    + destruct (ch_step (resends d) st (rl_chan s d)) as [x nxt] eqn:Es. cbn [rl_chan rl_made]. unfold set_chan, at_in in *. rewrite Ea in I. cbn [rl_at].
      destruct (chan_eqb c d) eqn:Ecd.
      * apply chan_eqb_spec in Ecd. subst d. rewrite chan_eqb_refl in I. destruct (dead_step _ _ _ _ _ I Es) as [K1 K2]. split; [|auto].
        destruct nxt as [st'|]; [rewrite chan_eqb_refl; exact K1|]. destruct c; exact K1.
      * assert (Hdc : chan_eqb d c = false) by (destruct d, c; cbn in *; congruence). rewrite Hdc in I. split; [|auto].
        destruct nxt as [st'|]; [rewrite Hdc; exact I|]. destruct d; cbn [after]; destruct c; cbn [chan_eqb] in *; try discriminate; exact I.
    + destruct (rl_enum s); [|auto]. cbn [rl_chan rl_made]. unfold at_in in *. cbn [rl_at]. rewrite Ea in I. split; [|auto]. destruct c; exact I.
  - inv_ok H. unfold rl_host. cbn [rl_chan rl_made]. unfold set_chan, at_in in *. cbn [rl_at]. destruct (chan_eqb c d) eqn:Ecd; [|auto].
    apply chan_eqb_spec in Ecd. subst d. unfold ch_take. destruct I as (I1 & I2 & I3). rewrite I2. unfold dead_state. auto.
  - inv_ok H. auto.
Qed.
Lemma rl_run_dead c l : forall s s', dead c s -> ~ In RlReset l -> rl_run conf fuel l s = Ok s' ->
  received c s' = received c s /\ rl_made s' = rl_made s.
Proof.
  induction l as [|a l IH]; intros s s' I Hr H; unfold rl_run in H; cbn [fold_res] in H; [inv_ok H; auto|].
  inv_bind H. cbn [In] in Hr. destruct (rl_do_dead _ _ _ _ I (fun X => Hr (or_introl X)) E) as (I1 & A1 & A2).
  destruct (IH _ _ I1 (fun X => Hr (or_intror X)) H) as [B1 B2]. split; congruence.
Qed.
Lemma early_dead c s : rl_ok s -> resends c = false -> rl_at s = Some (c, StBusy) -> dead c (rl_host c s).
Proof.
  intros I Hc Ha. destruct (I c Hc) as [[_ _ _ _ S] _]. unfold at_in in S. rewrite Ha, chan_eqb_refl in S. cbn [ch_state] in S. destruct S as (S1 & S2 & S3 & S4 & _).
  unfold dead, rl_host, at_in, set_chan. cbn [rl_at rl_chan]. rewrite Ha, !chan_eqb_refl. unfold ch_take. rewrite S3. unfold dead_state. ccbn. auto.
Qed.
End Dead.
