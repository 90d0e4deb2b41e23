(** Facts about the reports of the C firmware. *)
From Verif Require Import Base Output Types Slice Split Scheduler Keymap CApi CReport SpecCReport BaseFacts OutputFacts SplitFacts CFirmwareFacts.
Local Open Scope nat_scope.

Lemma bytes_eqb_spec a b : bytes_eqb a b = true <-> a = b.
Proof. unfold bytes_eqb. apply list_eqb_spec. intros. apply N.eqb_eq. Qed.
Lemma bytes_eqb_false a b : bytes_eqb a b = false <-> a <> b.
Proof. rewrite <- bytes_eqb_spec. destruct (bytes_eqb a b); intuition congruence. Qed.
Lemma bytes_eqb_refl a : bytes_eqb a a = true.
Proof. now apply bytes_eqb_spec. Qed.

Lemma last_cons {A} (l : list A) : forall y z, last (y :: l) z = last l y.
Proof. induction l as [|x l IH]; intros y z; [reflexivity|]. change (last (x :: l) z = last (x :: l) y). now rewrite !IH. Qed.
Lemma news_snoc l : forall z x, news z (l ++ [x]) = news z l ++ (if bytes_eqb x (last l z) then [] else [x]).
Proof.
  induction l as [|y l IH]; intros z x.
  - cbn. destruct (list_eq_dec N.eq_dec x z) as [->|H]; [now rewrite bytes_eqb_refl|]. now rewrite (proj2 (bytes_eqb_false _ _) H).
  - cbn [app news]. rewrite last_cons. destruct (list_eq_dec N.eq_dec y z) as [->|H]; rewrite IH; reflexivity.
Qed.
Lemma firstn_set_nth_S (l m : list u8) i : length l = length m -> i < length l -> firstn i l = firstn i m ->
  firstn (S i) (set_nth l i (nth i m 0%N)) = firstn (S i) m.
Proof.
  revert m i. induction l as [|x l IH]; intros [|y m] [|i] Hl Hi H; cbn in *; try lia; try reflexivity.
  injection H as -> H. f_equal. apply IH; auto; lia.
Qed.

(** *** One channel *)

(** [D]: what is due; [at_]: where the main loop is in this channel. *)
Definition quiet_ch (c : channel) : Prop := ch_ack c = false /\ ch_busy c = false.
Definition fresh (c : channel) (D : list (list u8)) : Prop :=
  ch_pack c <> ch_prev c /\ ch_sending c = false /\ quiet_ch c /\ ch_host c ++ [ch_pack c] = D.
Definition armed (c : channel) (D : list (list u8)) : Prop :=
  ch_pack c <> ch_prev c /\ ch_ack c = true /\ ch_busy c = true /\ ch_buf c = ch_pack c /\ ch_host c ++ [ch_pack c] = D.
Definition taken (c : channel) (D : list (list u8)) : Prop :=
  ch_pack c <> ch_prev c /\ quiet_ch c /\ ch_host c = D.
Definition clean (c : channel) (D : list (list u8)) : Prop := ch_pack c = ch_prev c /\ quiet_ch c /\ ch_host c = D.
Definition ch_state (n : nat) (at_ : option stage) (c : channel) (D : list (list u8)) : Prop :=
  match at_ with
  | None | Some StTest => (clean c D /\ ch_sending c = false) \/ fresh c D \/ (ch_sending c = true /\ (armed c D \/ taken c D))
  | Some StSelect => fresh c D \/ (ch_sending c = true /\ (armed c D \/ taken c D))
  | Some StUp => fresh c D
  | Some (StLoad i) => fresh c D /\ i < n /\ firstn i (ch_buf c) = firstn i (ch_pack c)
  | Some StArm => fresh c D /\ ch_buf c = ch_pack c
  | Some StBusy => ch_pack c <> ch_prev c /\ ch_sending c = false /\ ch_ack c = true /\ ch_busy c = false
                   /\ ch_buf c = ch_pack c /\ ch_host c ++ [ch_pack c] = D
  | Some StSending => ch_sending c = false /\ (armed c D \/ taken c D)
  | Some (StCopy i) => ch_sending c = true /\ quiet_ch c /\ ch_host c = D /\ i < n /\ firstn i (ch_prev c) = firstn i (ch_pack c)
  | Some StClear => ch_sending c = true /\ quiet_ch c
                    /\ ((ch_pack c = ch_prev c /\ ch_host c = D) \/ (ch_pack c <> ch_prev c /\ ch_host c ++ [ch_pack c] = D))
  end.
Record ch_ok (n : nat) (at_ : option stage) (c : channel) (D : list (list u8)) : Prop := {
  co_pack : length (ch_pack c) = n;
  co_prev : length (ch_prev c) = n;
  co_buf : length (ch_buf c) = n;
  co_pos : 0 < n;
  co_state : ch_state n at_ c D
}.

Lemma ch_ok_test n c D : ch_ok n None c D -> ch_ok n (Some StTest) c D.
Proof. intros [A B C' E F]. constructor; auto. Qed.

Ltac ccbn := cbn [ch_pack ch_prev ch_sending ch_buf ch_ack ch_busy ch_host] in *.
Ltac cunfold := unfold clean, fresh, armed, taken, quiet_ch in *; ccbn.

Lemma ch_step_ok n st c D c' nxt : ch_ok n (Some st) c D -> ch_step false st c = (c', nxt) -> ch_ok n nxt c' D.
Proof.
  intros [L1 L2 L3 L4 S] H. destruct st; cbn [ch_step ch_state] in *; injection H as <- <-.
  - (* StTest *) constructor; auto. cbn [andb]. rewrite orb_false_r. destruct (bytes_eqb (ch_pack c) (ch_prev c)) eqn:E; cbn [negb].
    + exact S.
    + apply bytes_eqb_false in E. cbn [ch_state]. destruct S as [[S _]|S]; [cunfold; tauto|exact S].
  - (* StSelect *) constructor; auto. destruct (ch_sending c) eqn:E; cbn [negb].
    + destruct S as [S|[_ S]]; [cunfold; intuition congruence|]. destruct (ch_busy c) eqn:F; cbn [negb ch_state].
      * right. right. split; [exact E|exact S].
      * destruct S as [S|S]; [cunfold; intuition congruence|]. cunfold. cbn [firstn]. intuition.
    + cbn [ch_state]. destruct S as [S|[S _]]; [exact S|congruence].
  - (* StUp *) constructor; auto. assert (F : ch_busy c = false) by (cunfold; tauto). rewrite F. cbn [negb ch_state firstn]. auto.
  - (* StLoad *) destruct S as (S1 & S2 & S3).
    assert (F : firstn (S i) (set_nth (ch_buf c) i (nth i (ch_pack c) 0%N)) = firstn (S i) (ch_pack c)) by (apply firstn_set_nth_S; congruence || lia).
    constructor; ccbn; auto; [now rewrite set_nth_len|]. destruct (Nat.ltb_spec (S i) (length (ch_pack c))) as [G|G]; cbn [ch_state]; ccbn.
    + split; [exact S1|]. split; [lia|exact F].
    + split; [exact S1|]. ccbn. rewrite !firstn_all2 in F by (rewrite ?set_nth_len; lia). exact F.
  - (* StArm *) constructor; auto. cbn [ch_state]. cunfold. tauto.
  - (* StBusy *) constructor; auto. cbn [ch_state]. cunfold. tauto.
  - (* StSending *) constructor; auto. cbn [ch_state]. right. right. cunfold. tauto.
  - (* StCopy *) destruct S as (S1 & S2 & S3 & S4 & S5).
    assert (F : firstn (S i) (set_nth (ch_prev c) i (nth i (ch_pack c) 0%N)) = firstn (S i) (ch_pack c)) by (apply firstn_set_nth_S; congruence || lia).
    constructor; ccbn; auto; [now rewrite set_nth_len|]. destruct (Nat.ltb_spec (S i) (length (ch_pack c))) as [G|G]; cbn [ch_state]; ccbn.
    + repeat split; auto; try (now destruct S2). lia.
    + rewrite !firstn_all2 in F by (rewrite ?set_nth_len; lia). split; [exact S1|]. split; [exact S2|]. left. split; [symmetry; exact F|exact S3].
  - (* StClear *) constructor; auto. cbn [ch_state]. cunfold. destruct S as (S1 & S2 & [[S3 S4]|[S3 S4]]); [left|right; left]; auto.
Qed.

Lemma ch_take_ok n at_ c D : ch_ok n at_ c D -> at_ <> Some StBusy -> ch_ok n at_ (ch_take c) D.
Proof.
  intros [L1 L2 L3 L4 S] H. unfold ch_take. destruct (ch_ack c) eqn:E; [|constructor; auto].
  constructor; ccbn; auto. destruct at_ as [[| | |i| | | |i|]|]; cbn [ch_state] in *; cunfold; ccbn; try (exfalso; intuition congruence); try tauto;
    intuition (try congruence).
Qed.
Lemma ch_reset_ok n c D : ch_ok n None c D -> ch_ack c = false -> ch_ok n None (ch_reset c) D.
Proof.
  intros [L1 L2 L3 L4 S] H. constructor; ccbn; auto. unfold ch_reset. cbn [ch_state] in *. cunfold. intuition (try congruence).
Qed.
Lemma ch_tick_ok n at_ c D p : ch_ok n at_ c D -> ch_pack c = ch_prev c -> (forall i, at_ <> Some (StCopy i)) -> length p = n ->
  ch_ok n at_ (ch_set_pack p c) (D ++ (if bytes_eqb p (ch_pack c) then [] else [p])).
Proof.
  intros [L1 L2 L3 L4 S] H Hc Hp. unfold ch_set_pack. constructor; ccbn; auto.
  destruct (bytes_eqb p (ch_pack c)) eqn:E.
  - apply bytes_eqb_spec in E. subst p. rewrite app_nil_r. destruct at_ as [[| | |i| | | |i|]|]; cbn [ch_state] in *; cunfold; exact S.
  - apply bytes_eqb_false in E. destruct at_ as [[| | |i| | | |i|]|]; cbn [ch_state] in *; cunfold; try (exfalso; intuition congruence);
      try (exfalso; now apply (Hc i)).
    + right. left. intuition congruence.
    + intuition congruence.
    + right. left. intuition congruence.
Qed.

(** *** The firmware *)
Lemma chan_eqb_spec a b : chan_eqb a b = true <-> a = b.
Proof. destruct a, b; cbn; split; congruence. Qed.
Lemma chan_eqb_refl a : chan_eqb a a = true.
Proof. now destruct a. Qed.

Section Loop.
Context {R Ctx Ev PKS KS : Type}.
Variable conf : kconf R Ctx Ev PKS KS.
Variable fuel : nat.
Local Notation km := (keymap R Ctx Ev PKS KS).
Local Notation rloop := (@rloop R Ctx Ev PKS KS).

Definition at_in (s : rloop) (c : chan) : option stage :=
  match rl_at s with Some (d, st) => if chan_eqb d c then Some st else None | None => None end.
Definition rl_ok (s : rloop) : Prop := forall c, resends c = false ->
  ch_ok (part_len c) (at_in s c) (rl_chan s c) (due c s)
  /\ last (map (part c) (rl_made s)) (repeat 0%N (part_len c)) = ch_pack (rl_chan s c).

Lemma rl_new_ok (k : km) : rl_ok (rl_new k).
Proof.
  intros c Hc. destruct c; try discriminate; (split; [|reflexivity]; constructor; cbn; try reflexivity; try lia; left; unfold clean, quiet_ch; cbn; auto).
Qed.

Lemma part_length (k k' : km) r c : keymap_tick conf fuel k = Ok (k', r) -> length (part c r) = part_len c.
Proof.
  unfold keymap_tick, c_update. intros H. inv_bind H. inv_bind H. destruct a0 as [k2 kos]. inv_bind H. inv_ok H. inv_bind E1. inv_bind E1. inv_ok E1.
  destruct c; cbn [part part_len cr_keyboard cr_consumer cr_mouse].
  - apply (boot_report_layout kos).
  - reflexivity.
  - apply fill_prefix_length.
Qed.

Lemma rl_do_ok s a s' : rl_ok s -> rl_calm s a -> rl_do conf fuel s a = Ok s' -> rl_ok s'.
Proof.
  intros I C H c Hc. destruct (I c Hc) as [I1 I2]. destruct a as [evs| |d| |]; cbn [rl_do] in H.
  - unfold rl_timer in H. inv_bind H.
    destruct (bytes_eqb (ch_pack (rl_chan s ChKb)) (ch_prev (rl_chan s ChKb)) && bytes_eqb (ch_pack (rl_chan s ChCon)) (ch_prev (rl_chan s ChCon))
              && bytes_eqb (ch_pack (rl_chan s ChMouse)) (ch_prev (rl_chan s ChMouse))) eqn:G.
    + inv_bind H. destruct a0 as [k2 r]. inv_ok H. cbn [rl_chan rl_made].
      apply andb_prop in G as [G G3]. apply andb_prop in G as [G1 G2]. rewrite bytes_eqb_spec in G1, G2, G3.
      assert (Hp : ch_pack (rl_chan s c) = ch_prev (rl_chan s c)) by (destruct c; assumption).
      assert (Ha : at_in (mkRl (fun c => ch_set_pack (part c r) (rl_chan s c)) (rl_enum s) (rl_at s) k2 (rl_made s ++ [r]) ((rl_calls s ++ map CallEvent evs) ++ [CallTick])) c = at_in s c) by reflexivity.
      assert (Hn : forall i, at_in s c <> Some (StCopy i)).
      { intros i Hi. unfold at_in in Hi. cbn [rl_calm] in C. destruct (rl_at s) as [[d st]|]; [|discriminate]. destruct (chan_eqb d c); [|discriminate].
        injection Hi as ->. exact C. }
      assert (K := ch_tick_ok _ _ _ _ (part c r) I1 Hp Hn (part_length _ _ _ c E0)).
      split.
      * unfold due. cbn [rl_made]. rewrite map_app. cbn [map]. rewrite news_snoc, I2. fold (due c s). destruct c; exact K.
      * rewrite map_app. cbn [map]. rewrite last_last. now destruct c.
    + inv_ok H. split; auto.
  - inv_ok H. unfold rl_main. destruct (rl_at s) as [[d st]|] eqn:Ea.
    + destruct (ch_step (resends d) st (rl_chan s d)) as [x nxt] eqn:Es. cbn [rl_chan rl_made].
      unfold set_chan. destruct (chan_eqb c d) eqn:Ecd.
      * apply chan_eqb_spec in Ecd. subst d. rewrite Hc in Es. unfold at_in in I1. rewrite Ea, chan_eqb_refl in I1.
        assert (K := ch_step_ok _ _ _ _ _ _ I1 Es).
        assert (Hpk : ch_pack x = ch_pack (rl_chan s c)) by (destruct st; cbn in Es; injection Es as <- _; reflexivity).
        split; [|congruence]. unfold at_in. cbn [rl_at]. unfold due. cbn [rl_made]. fold (due c s).
        destruct nxt as [st'|]; [rewrite chan_eqb_refl; exact K|]. destruct c; cbn [after]; try discriminate; exact K.
      * split; [|exact I2]. unfold due. cbn [rl_made]. fold (due c s). unfold at_in in *. rewrite Ea in I1. cbn [rl_at].
        assert (Hdc : chan_eqb d c = false) by (destruct d, c; cbn in *; congruence). rewrite Hdc in I1.
        destruct nxt as [st'|]; [rewrite Hdc; exact I1|].
        destruct d; cbn [after]; [|destruct c; try discriminate; cbn [chan_eqb]; first [exact I1|now apply ch_ok_test]|exact I1].
        destruct c; cbn [chan_eqb]; try discriminate; exact I1.
    + destruct (rl_enum s); [|auto]. cbn [rl_chan rl_made]. split; [|exact I2]. unfold due. cbn [rl_made]. fold (due c s).
      unfold at_in in *. cbn [rl_at]. rewrite Ea in I1. destruct c; cbn [chan_eqb]; try discriminate; first [exact I1|now apply ch_ok_test].
  - inv_ok H. unfold rl_host. cbn [rl_chan rl_made]. unfold set_chan. destruct (chan_eqb c d) eqn:Ecd.
    + apply chan_eqb_spec in Ecd. subst d. split; [|unfold ch_take; now destruct (ch_ack (rl_chan s c))]. apply ch_take_ok; [exact I1|].
      intros Hb. cbn [rl_calm] in C. apply C. unfold at_in in Hb. cbn [rl_at] in Hb. destruct (rl_at s) as [[d st]|]; [|discriminate].
      destruct (chan_eqb d c) eqn:E; [|discriminate]. apply chan_eqb_spec in E. congruence.
    + split; auto.
  - inv_ok H. split; auto.
  - inv_ok H. cbn [rl_calm] in C. destruct C as [C1 C2]. split; [|exact I2]. cbn [rl_reset rl_chan]. unfold at_in in *. cbn [rl_reset rl_at] in *.
    rewrite C2 in *. apply ch_reset_ok; auto.
Qed.

Lemma rl_run_ok l : forall s s', rl_ok s -> rl_all_calm conf fuel l s -> rl_run conf fuel l s = Ok s' -> rl_ok s'.
Proof.
  induction l as [|a l IH]; intros s s' I C H; cbn [rl_all_calm] in C; unfold rl_run in H; cbn [fold_res] in H; [inv_ok H; auto|].
  destruct C as [C1 C2]. inv_bind H. rewrite E in C2. eapply IH; [|exact C2|exact H]. eapply rl_do_ok; eauto.
Qed.

(** What the host lacks. *)
Lemma rl_ok_waiting s c : rl_ok s -> resends c = false ->
  exists waiting, due c s = received c s ++ waiting /\ length waiting <= 1.
Proof.
  intros I Hc. destruct (I c Hc) as [[L1 L2 L3 L4 S] _]. unfold received. destruct (at_in s c) as [[| | |i| | | |i|]|]; cbn [ch_state] in S; cunfold;
    repeat match goal with H : _ \/ _ |- _ => destruct H | H : _ /\ _ |- _ => destruct H end;
    try (exists []; rewrite app_nil_r; split; [now symmetry|cbn; lia]);
    exists [ch_pack (rl_chan s c)]; split; try (now symmetry); cbn; lia.
Qed.
Lemma rl_ok_same s c : rl_ok s -> resends c = false -> ch_pack (rl_chan s c) = ch_prev (rl_chan s c) ->
  due c s = received c s.
Proof.
  intros I Hc Hp. destruct (I c Hc) as [[L1 L2 L3 L4 S] _]. unfold received. destruct (at_in s c) as [[| | |i| | | |i|]|]; cbn [ch_state] in S; cunfold;
    repeat match goal with H : _ \/ _ |- _ => destruct H | H : _ /\ _ |- _ => destruct H end; congruence.
Qed.

(** *** The calls into the keymap *)
Lemma plain_calls_app l1 : forall l2 (k : km), plain_calls conf fuel (l1 ++ l2) k =
  (let! (k1, r1) := plain_calls conf fuel l1 k in let! (k2, r2) := plain_calls conf fuel l2 k1 in Ok (k2, r1 ++ r2)).
Proof.
  induction l1 as [|[e|] l1 IH]; intros l2 k; cbn [plain_calls app].
  - cbn. destruct (plain_calls conf fuel l2 k) as [[k2 r2]| |]; reflexivity.
  - destruct (keymap_register_input_event conf fuel e k) as [k1| |]; cbn [bind]; auto.
  - destruct (keymap_tick conf fuel k) as [[k1 r]| |]; cbn [bind]; auto. rewrite IH.
    destruct (plain_calls conf fuel l1 k1) as [[k2 r2]| |]; cbn [bind]; auto.
    destruct (plain_calls conf fuel l2 k2) as [[k3 r3]| |]; cbn [bind]; auto.
Qed.
Lemma plain_events evs : forall k : km, plain_calls conf fuel (map CallEvent evs) k =
  (let! k1 := fold_res (fun k e => keymap_register_input_event conf fuel e k) evs k in Ok (k1, [])).
Proof.
  induction evs as [|e evs IH]; intros k; cbn [map plain_calls fold_res]; [reflexivity|].
  destruct (keymap_register_input_event conf fuel e k); cbn [bind]; auto.
Qed.
Lemma call_events_app a b : call_events (a ++ b) = call_events a ++ call_events b.
Proof. apply filter_map_app. Qed.
Lemma call_events_map evs : call_events (map CallEvent evs) = evs.
Proof. induction evs as [|e evs IH]; [reflexivity|]. unfold call_events in *. cbn. now rewrite IH. Qed.

Definition rl_plain (k : km) (s : rloop) : Prop := plain_calls conf fuel (rl_calls s) k = Ok (rl_keymap s, rl_made s).
Lemma rl_do_plain k s a s' : rl_plain k s -> rl_do conf fuel s a = Ok s' -> rl_plain k s' /\ call_events (rl_calls s') = call_events (rl_calls s) ++ scanned [a].
Proof.
  unfold rl_plain. intros I H. destruct a as [evs| |d| |]; cbn [rl_do] in H; unfold scanned; cbn [flat_map app]; rewrite ?app_nil_r.
  - unfold rl_timer in H. inv_bind H. destruct (_ && _) eqn:G.
    + inv_bind H. destruct a0 as [k2 r]. inv_ok H. cbn [rl_calls rl_keymap rl_made]. rewrite !plain_calls_app, I. cbn [bind]. rewrite plain_events, E. cbn [bind plain_calls].
      rewrite E0. cbn [bind]. rewrite !app_nil_r. split; [reflexivity|]. rewrite !call_events_app, call_events_map. cbn. now rewrite app_nil_r.
    + inv_ok H. cbn [rl_calls rl_keymap rl_made]. rewrite plain_calls_app, I. cbn [bind]. rewrite plain_events, E. cbn [bind]. rewrite !app_nil_r.
      split; [reflexivity|]. now rewrite call_events_app, call_events_map.
  - inv_ok H. unfold rl_main. destruct (rl_at s) as [[c st]|]; [destruct (ch_step _ _ _) as [x nxt]; auto|]. destruct (rl_enum s); auto.
  - inv_ok H. auto.
  - inv_ok H. auto.
  - inv_ok H. auto.
Qed.
Lemma scanned_cons a l : scanned (a :: l) = scanned [a] ++ scanned l.
Proof. unfold scanned. cbn [flat_map]. now rewrite app_nil_r. Qed.
Lemma rl_run_plain k l : forall s s', rl_plain k s -> rl_run conf fuel l s = Ok s' ->
  rl_plain k s' /\ call_events (rl_calls s') = call_events (rl_calls s) ++ scanned l.
Proof.
  induction l as [|a l IH]; intros s s' I H; unfold rl_run in H; cbn [fold_res] in H.
  - inv_ok H. cbn. now rewrite app_nil_r.
  - inv_bind H. destruct (rl_do_plain _ _ _ _ I E) as [I1 A1]. destruct (IH _ _ I1 H) as [I2 A2]. split; [exact I2|].
    rewrite A2, A1, <- app_assoc. f_equal. symmetry. apply scanned_cons.
Qed.

(** Where the firmware panics, the keymap alone would. *)
Lemma events_panic evs : forall k : km, fold_res (fun k e => keymap_register_input_event conf fuel e k) evs k = Panic ->
  exists a b, evs = a ++ b /\ plain_calls conf fuel (map CallEvent a) k = Panic.
Proof.
  induction evs as [|e evs IH]; intros k H; cbn [fold_res] in H; [discriminate|].
  destruct (keymap_register_input_event conf fuel e k) as [k1| |] eqn:E; cbn [bind] in H; [|exists [e], evs; cbn; now rewrite E|discriminate].
  destruct (IH _ H) as (a & b & -> & Hp). exists (e :: a), b. split; [reflexivity|]. cbn [map plain_calls]. now rewrite E.
Qed.
Lemma rl_do_panic k s a : rl_plain k s -> rl_do conf fuel s a = Panic ->
  exists calls rest, call_events (rl_calls s) ++ scanned [a] = call_events calls ++ rest /\ plain_calls conf fuel calls k = Panic.
Proof.
  unfold rl_plain. intros I H. destruct a as [evs| |d| |]; cbn [rl_do] in H; try discriminate. unfold rl_timer in H. unfold scanned. cbn [flat_map]. rewrite app_nil_r.
  destruct (fold_res (fun k e => keymap_register_input_event conf fuel e k) evs (rl_keymap s)) as [k1| |] eqn:E; cbn [bind] in H; [| |discriminate].
  - destruct (_ && _); [|discriminate]. destruct (keymap_tick conf fuel k1) as [[k2 r]| |] eqn:Et; cbn [bind] in H; try discriminate.
    exists ((rl_calls s ++ map CallEvent evs) ++ [CallTick]), []. split.
    + rewrite !call_events_app, call_events_map. cbn. now rewrite !app_nil_r.
    + rewrite !plain_calls_app, I. cbn [bind]. rewrite plain_events, E. cbn [bind plain_calls]. now rewrite Et.
  - destruct (events_panic _ _ E) as (a & b & -> & Hp). exists (rl_calls s ++ map CallEvent a), b. split.
    + now rewrite call_events_app, call_events_map, app_assoc.
    + rewrite plain_calls_app, I. cbn [bind]. now rewrite Hp.
Qed.
Lemma rl_run_panic k l : forall s, rl_plain k s -> rl_run conf fuel l s = Panic ->
  exists calls rest, call_events (rl_calls s) ++ scanned l = call_events calls ++ rest /\ plain_calls conf fuel calls k = Panic.
Proof.
  induction l as [|a l IH]; intros s I H; unfold rl_run in H; cbn [fold_res] in H; [discriminate|].
  destruct (rl_do conf fuel s a) as [s1| |] eqn:E; cbn [bind] in H; [| |discriminate].
  - destruct (rl_do_plain _ _ _ _ I E) as [I1 A1]. destruct (IH _ I1 H) as (calls & rest & A & P). exists calls, rest. split; [|exact P].
    rewrite <- A, A1, <- app_assoc. f_equal. apply scanned_cons.
  - destruct (rl_do_panic _ _ _ I E) as (calls & rest & A & P). exists calls, (rest ++ scanned l). split; [|exact P].
    now rewrite scanned_cons, app_assoc, A, app_assoc.
Qed.
End Loop.
