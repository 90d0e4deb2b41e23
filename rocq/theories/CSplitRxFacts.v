(** Facts about the serial link of the C firmware: receiving. *)
From Verif Require Import Base Output Types Split CApi CSplit SpecCSplit BaseFacts SplitFacts CFirmwareFacts CSplitFacts.
Local Open Scope nat_scope.

(** *** Decoding *)
Definition physical (e : c_event) : Prop := ce_type e = CPress \/ ce_type e = CRelease.
Lemma receive_bytes_all bytes : forall msg, length msg = 4 ->
  exists m evs, receive_bytes msg bytes = Ok (m, evs) /\ receive_all msg bytes = Ok (m, map event_of_c evs)
    /\ length m = 4 /\ Forall physical evs.
Proof.
  induction bytes as [|b t IH]; intros msg Hm; [exists msg, []; repeat split; auto|].
  assert (L : length (tl msg ++ [b]) = 4) by (rewrite app_length; destruct msg; cbn in *; lia).
  destruct (deserialize_total _ L) as [o E]. destruct (IH _ L) as (m & evs & E1 & E2 & E3 & E4).
  rewrite receive_all_cons. cbn [receive_bytes]. unfold keymap_message_buffer_receive_byte, receive_byte. rewrite E. cbn [bind].
  destruct o as [ev|].
  - destruct (deserialize_physical _ _ E) as (i & [-> | ->]); cbn [c_of_event bind]; rewrite E1, E2; cbn [bind].
    + exists m, (mkCEvent CPress i :: evs). repeat split; auto. constructor; [now left|auto].
    + exists m, (mkCEvent CRelease i :: evs). repeat split; auto. constructor; [now right|auto].
  - rewrite E1, E2. cbn [bind]. exists m, evs. repeat split; auto.
Qed.
Lemma receive_bytes_app a : forall msg b, receive_bytes msg (a ++ b) =
  (let! (m, evs) := receive_bytes msg a in let! (m2, evs2) := receive_bytes m b in Ok (m2, evs ++ evs2)).
Proof.
  induction a as [|x a IH]; intros msg b; cbn [receive_bytes app bind].
  - destruct (receive_bytes msg b) as [[m2 e2]| |]; reflexivity.
  - destruct (keymap_message_buffer_receive_byte msg x) as [msg1 r]. destruct r as [o| |]; cbn [bind]; auto. rewrite IH.
    destruct (receive_bytes msg1 a) as [[m e]| |]; cbn [bind]; auto. destruct (receive_bytes m b) as [[m2 e2]| |]; cbn [bind]; auto.
    now destruct o.
Qed.
Lemma event_of_c_inj a b : physical a -> physical b -> event_of_c a = event_of_c b -> a = b.
Proof. destruct a as [ta va], b as [tb vb]. unfold physical, event_of_c. cbn. intros [-> | ->] [-> | ->] H; congruence. Qed.
Lemma wire_received evs bytes : wire_of evs bytes -> exists m, receive_bytes (repeat 0%N MESSAGE_BUFFER_LEN) bytes = Ok (m, evs).
Proof.
  intros H. destruct (receive_bytes_all bytes (repeat 0%N MESSAGE_BUFFER_LEN) eq_refl) as (m & cs & E1 & E2 & _ & E4).
  exists m. rewrite E1. do 2 f_equal.
  assert (F : exists frames, Forall2 (fun ev f => serialize ev = Ok f) (map event_of_c evs) frames /\ bytes = concat frames /\ Forall physical evs).
  { clear -H. induction H as [|ev b evs rest E _ IH]; [exists []; repeat split; constructor|]. destruct IH as (fs & F1 & -> & F2).
    exists (b :: fs). repeat split; [constructor; auto|]. constructor; auto.
    destruct (proj1 (serialize_iff (event_of_c ev)) (ex_intro _ b E)) as (i & _ & G). unfold physical. unfold event_of_c in G. destruct (ce_type ev); auto; destruct G; discriminate. }
  destruct F as (fs & F1 & -> & F2). change (repeat 0%N MESSAGE_BUFFER_LEN) with [0%N; 0%N; 0%N; 0%N] in E2. rewrite (receive_frames _ _ F1) in E2. injection E2 as _ E2.
  clear -E2 E4 F2. revert cs E2 E4. induction F2 as [|e evs P _ IH]; intros [|c cs] E2 E4; cbn in E2; try discriminate; [reflexivity|].
  inversion E4; subst. injection E2 as E2 E3. f_equal; [symmetry; now apply event_of_c_inj|]. auto.
Qed.

(** *** The invariant of the receiver *)
Definition rx_fill (s : rx) : list u8 := firstn (16 - rx_cntr s) (rx_buf s (rx_current s)).
Record rx_ok (s : rx) (processed waiting : list u8) : Prop := {
  ro_len : forall i, length (rx_buf s i) = 16;
  ro_cntr : rx_cntr s <= 16;
  ro_to : rx_to s = rx_current s;
  ro_done : receive_bytes (repeat 0%N MESSAGE_BUFFER_LEN) processed = Ok (rx_msg s, rx_events s);
  ro_wait : match rx_at s with
            | RhNone => waiting = rx_fill s /\ rx_tc s = (rx_cntr s =? 0)
            | RhUsart len => waiting = rx_fill s /\ rx_tc s = false /\ 0 < rx_cntr s /\ len = 16 - rx_cntr s
            | RhDma old => waiting = rx_buf s old ++ rx_fill s /\ old = negb (rx_current s) /\ rx_tc s = true /\ 0 < rx_cntr s
            end
}.
Lemma rx_new_ok : rx_ok rx_new [] [].
Proof. constructor; cbn; auto. Qed.

Lemma msg_len processed m evs : receive_bytes (repeat 0%N MESSAGE_BUFFER_LEN) processed = Ok (m, evs) -> length m = 4.
Proof.
  intros H. destruct (receive_bytes_all processed (repeat 0%N MESSAGE_BUFFER_LEN) eq_refl) as (m' & e' & E & _ & L & _). rewrite H in E. now injection E as -> _.
Qed.
Lemma receive_more processed m evs more : receive_bytes (repeat 0%N MESSAGE_BUFFER_LEN) processed = Ok (m, evs) ->
  exists m' evs', receive_bytes m more = Ok (m', evs') /\ receive_bytes (repeat 0%N MESSAGE_BUFFER_LEN) (processed ++ more) = Ok (m', evs ++ evs').
Proof.
  intros H. destruct (receive_bytes_all more m (msg_len _ _ _ H)) as (m' & e' & E & _). exists m', e'. split; [exact E|]. rewrite receive_bytes_app, H. cbn [bind]. now rewrite E.
Qed.

Lemma firstn_set_nth (l : list u8) n b : n < length l -> firstn (S n) (set_nth l n b) = firstn n l ++ [b].
Proof. revert n. induction l as [|x l IH]; intros [|n] H; cbn in *; try lia; [reflexivity|]. f_equal. apply IH. lia. Qed.

Ltac rcbn := cbn [rx_current rx_buf rx_cntr rx_to rx_tc rx_idle rx_msg rx_at rx_events bind] in *.
Definition arrives (a : rx_step) : list u8 := match a with RxByte b => [b] | _ => [] end.

Lemma rx_do_ok s a p w : rx_ok s p w -> rx_in_time s a ->
  exists s' p' w', rx_do s a = Ok s' /\ rx_ok s' p' w' /\ p' ++ w' = p ++ w ++ arrives a.
Proof.
  intros I T. destruct I as [I1 I2 I3 I4 I5]. destruct a as [b| | | |]; cbn [rx_do arrives].
  - (* a byte *)
    cbn [rx_in_time] in T. unfold rx_do_byte. destruct (rx_cntr s) as [|n] eqn:Ec; [destruct (rx_at s); lia|].
    unfold update_index, RX_BUFFER_SIZE. rewrite I1. rewrite (proj2 (Nat.ltb_lt _ _)) by lia. cbn [bind].
    eexists _, p, (w ++ [b]). split; [reflexivity|]. split; [|reflexivity].
    assert (F : rx_fill (mkRx (rx_current s) (fun i => if eqb i (rx_to s) then set_nth (rx_buf s (rx_to s)) (16 - S n) b else rx_buf s i) n
                  (rx_to s) (match n with 0 => true | S _ => rx_tc s end) (rx_idle s) (rx_msg s) (rx_at s) (rx_events s)) = rx_fill s ++ [b]).
    { unfold rx_fill. rcbn. rewrite I3, eqb_reflx, Ec. replace (16 - n) with (S (16 - S n)) by lia. apply firstn_set_nth. rewrite I1. lia. }
    constructor; rcbn; auto.
    + intros i. destruct (eqb i (rx_to s)); [now rewrite set_nth_len|apply I1].
    + lia.
    + rewrite F. destruct (rx_at s) as [|len|old].
      * destruct I5 as [-> I5]. split; [reflexivity|]. rewrite I5. now destruct n.
      * destruct T.
      * destruct I5 as (-> & I6 & I7 & _). rewrite app_assoc. repeat split; auto; [|now destruct n|lia].
        rewrite I3, I6. destruct (rx_current s); reflexivity.
  - (* idle *)
    eexists _, p, w. split; [reflexivity|]. rewrite app_nil_r. split; [|reflexivity]. constructor; auto.
  - (* the USART handler begins *)
    unfold rx_do_usart. exists (rx_do_usart s), p, w. rewrite app_nil_r. split; [reflexivity|]. split; [|reflexivity]. unfold rx_do_usart. destruct (rx_at s) eqn:Ea.
    + destruct (rx_idle s && negb (rx_tc s)) eqn:G.
      * constructor; rcbn; auto. destruct I5 as [-> I5]. apply andb_prop in G as [_ G]. apply negb_true_iff in G. rewrite I5 in G. apply Nat.eqb_neq in G.
        repeat split; auto; [|lia]. rewrite I5. now apply Nat.eqb_neq.
      * constructor; auto. now rewrite Ea.
    + constructor; auto. now rewrite Ea.
    + constructor; auto. now rewrite Ea.
  - (* the DMA handler begins *)
    unfold rx_do_dma. exists (rx_do_dma s), p, w. rewrite app_nil_r. split; [reflexivity|]. split; [|reflexivity]. unfold rx_do_dma. destruct (rx_at s) eqn:Ea.
    + destruct (rx_tc s) eqn:G.
      * constructor; rcbn; auto. destruct I5 as [-> I5]. symmetry in I5. apply Nat.eqb_eq in I5.
        repeat split; [|now rewrite negb_involutive|unfold RX_BUFFER_SIZE; lia]. unfold rx_fill. rcbn. rewrite I5. change (16 - RX_BUFFER_SIZE) with 0. rewrite firstn_O, app_nil_r.
        apply firstn_all2. rewrite I1. reflexivity.
      * constructor; auto. now rewrite Ea, G.
    + constructor; auto. now rewrite Ea.
    + constructor; auto. now rewrite Ea.
  - (* a handler ends *)
    unfold rx_do_finish. rewrite app_nil_r. destruct (rx_at s) as [|len|old] eqn:Ea.
    + exists s, p, w. repeat split; auto. now rewrite Ea.
    + destruct I5 as (-> & I6 & I7 & ->). destruct (receive_more _ _ _ (rx_fill s) I4) as (m & evs & E1 & E2). fold (rx_fill s). rewrite E1. cbn [bind].
      eexists _, (p ++ rx_fill s), []. split; [reflexivity|]. rewrite app_nil_r. split; [|reflexivity].
      constructor; rcbn; auto.
    + destruct I5 as (-> & I6 & I7 & I8). rewrite firstn_all2 by (rewrite I1; reflexivity).
      destruct (receive_more _ _ _ (rx_buf s old) I4) as (m & evs & E1 & E2). rewrite E1. cbn [bind].
      eexists _, (p ++ rx_buf s old), (rx_fill s). split; [reflexivity|]. rewrite app_assoc. split; [|reflexivity].
      constructor; rcbn; auto. split; [reflexivity|]. symmetry. apply Nat.eqb_neq. lia.
Qed.

Lemma rx_run_ok l : forall s p w, rx_ok s p w -> rx_all_in_time l s ->
  exists s' p' w', rx_run l s = Ok s' /\ rx_ok s' p' w' /\ p' ++ w' = p ++ w ++ rx_bytes l.
Proof.
  induction l as [|a l IH]; intros s p w I T.
  - exists s, p, w. cbn. rewrite app_nil_r. auto.
  - cbn [rx_all_in_time] in T. destruct T as [T1 T2]. destruct (rx_do_ok _ _ _ _ I T1) as (s1 & p1 & w1 & E1 & I1 & A1). rewrite E1 in T2.
    destruct (IH _ _ _ I1 T2) as (s2 & p2 & w2 & E2 & I2 & A2). exists s2, p2, w2. unfold rx_run in *. cbn [fold_res]. rewrite E1. cbn [bind].
    split; [exact E2|]. split; [exact I2|]. rewrite A2, app_assoc, A1, <- !app_assoc. f_equal. f_equal. destruct a; reflexivity.
Qed.

Lemma rx_waiting_len s p w : rx_ok s p w -> length w <= 31.
Proof.
  intros [I1 I2 I3 I4 I5]. assert (F : length (rx_fill s) <= 16 - rx_cntr s) by (unfold rx_fill; rewrite firstn_length; lia).
  destruct (rx_at s).
  - destruct I5 as [-> _]. lia.
  - destruct I5 as [-> _]. lia.
  - destruct I5 as (-> & _ & _ & I5). rewrite app_length, I1. lia.
Qed.
Lemma rx_quiet_nothing s p w : rx_ok s p w -> rx_quiet s -> w = [].
Proof. intros [I1 I2 I3 I4 I5] [H1 H2]. rewrite H2 in I5. destruct I5 as [-> _]. unfold rx_fill. now rewrite H1. Qed.

(** Serving the interrupts once more leaves nothing waiting. *)
Lemma rx_serve s p w : rx_ok s p w ->
  rx_all_in_time [RxFinish; RxDma; RxFinish; RxIdle; RxUsart; RxFinish] s
  /\ exists s', rx_run [RxFinish; RxDma; RxFinish; RxIdle; RxUsart; RxFinish] s = Ok s' /\ rx_quiet s'.
Proof.
  intros I.
  assert (T : rx_all_in_time [RxFinish; RxDma; RxFinish; RxIdle; RxUsart; RxFinish] s).
  { cbn [rx_all_in_time rx_in_time]. repeat (split; [exact Logic.I|]; match goal with |- match ?x with _ => _ end => destruct x; [|exact Logic.I..] end). exact Logic.I. }
  split; [exact T|]. destruct (rx_do_ok s RxFinish _ _ I Logic.I) as (s1 & p1 & w1 & E1 & I1 & _).
  assert (N1 : rx_at s1 = RhNone).
  { cbn in E1. unfold rx_do_finish in E1. destruct (rx_at s) eqn:Ea; [inv_ok E1; exact Ea|inv_bind E1; destruct a; inv_ok E1; reflexivity..]. }
  destruct (rx_do_ok s1 RxDma _ _ I1 Logic.I) as (s2 & p2 & w2 & E2 & I2 & _).
  destruct (rx_do_ok s2 RxFinish _ _ I2 Logic.I) as (s3 & p3 & w3 & E3 & I3 & _).
  assert (N3 : rx_at s3 = RhNone).
  { cbn in E3. unfold rx_do_finish in E3. destruct (rx_at s2) eqn:Ea; [inv_ok E3; exact Ea|inv_bind E3; destruct a; inv_ok E3; reflexivity..]. }
  assert (C3 : rx_tc s3 = false).
  { cbn in E2, E3. unfold rx_do_dma in E2. rewrite N1 in E2. injection E2 as E2. destruct (rx_tc s1) eqn:Et.
    - rewrite <- E2 in E3. unfold rx_do_finish in E3. rcbn. inv_bind E3. destruct a. inv_ok E3. reflexivity.
    - subst s2. unfold rx_do_finish in E3. rewrite N1 in E3. inv_ok E3. exact Et. }
  destruct (receive_more _ _ _ (firstn (16 - rx_cntr s3) (rx_buf s3 (rx_current s3))) (ro_done _ _ _ I3)) as (m & evs & R & _).
  unfold rx_run. cbn [fold_res]. rewrite E1. cbn [bind]. rewrite E2. cbn [bind]. rewrite E3. cbn [bind rx_do].
  unfold rx_do_usart, rx_do_idle. rcbn. rewrite N3, C3. cbn [negb andb]. unfold rx_do_finish. rcbn. unfold RX_BUFFER_SIZE at 1. rewrite R. rcbn.
  eexists. split; [reflexivity|]. split; reflexivity.
Qed.
