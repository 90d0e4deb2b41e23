(** Facts about the serial link of the C firmware: sending. *)
From Verif Require Import Base Output Types Split CApi CSplit SpecCSplit BaseFacts SplitFacts CFirmwareFacts.
Local Open Scope nat_scope.

(** *** The ring *)
Definition wrap (x : nat) : nat := if x <? 16 then x else x - 16.
Ltac wrap := unfold wrap in *; repeat match goal with
  | |- context [?x <? 16] => destruct (Nat.ltb_spec x 16)
  | H : context [?x <? 16] |- _ => destruct (Nat.ltb_spec x 16)
  end; try lia.

Lemma tx_next_wrap (i : u8) : N.to_nat i < 16 -> N.to_nat (tx_next i) = wrap (N.to_nat i + 1).
Proof.
  intros H. assert (E : In (N.to_nat i) (seq 0 16)) by (apply in_seq; lia). rewrite <- (N2Nat.id i) at 1. revert E. generalize (N.to_nat i) as n.
  intros n E. cbn in E. repeat (destruct E as [<-|E]; [reflexivity|]). destruct E.
Qed.

Record ring (Q : list c_event) (T : nat) (q : list c_event) : Prop := {
  rg_len : length Q = 16;
  rg_tail : T < 16;
  rg_room : length q <= 15;
  rg_at : forall j, j < length q -> nth_error Q (wrap (T + j)) = nth_error q j
}.

Lemma ring_pop Q T e q : ring Q T (e :: q) -> nth_error Q T = Some e /\ ring Q (wrap (T + 1)) q.
Proof.
  intros [A B C D]. cbn in C. split.
  - specialize (D 0 ltac:(cbn; lia)). cbn in D. rewrite <- D. f_equal. wrap.
  - constructor; auto; [wrap|lia|]. intros j Hj. specialize (D (S j) ltac:(cbn; lia)). cbn [nth_error] in D. rewrite <- D. f_equal. wrap.
Qed.
Lemma ring_store Q T q e : ring Q T q -> length q <= 14 ->
  ring (set_nth Q (wrap (T + length q)) e) T q /\ nth_error (set_nth Q (wrap (T + length q)) e) (wrap (T + length q)) = Some e.
Proof.
  intros [A B C D] H. split.
  - constructor; auto; [now rewrite set_nth_len|]. intros j Hj. rewrite nth_error_set_nth.
    destruct (Nat.eqb_spec (wrap (T + length q)) (wrap (T + j))) as [E|E]; [exfalso; wrap|]. now apply D.
  - rewrite nth_error_set_nth, Nat.eqb_refl, A. destruct (Nat.ltb_spec (wrap (T + length q)) 16); [reflexivity|wrap].
Qed.
Lemma ring_push Q T q e : ring Q T q -> length q <= 14 -> nth_error Q (wrap (T + length q)) = Some e -> ring Q T (q ++ [e]).
Proof.
  intros [A B C D] H E. constructor; auto; rewrite app_length; cbn; [lia|]. intros j Hj.
  destruct (Nat.eq_dec j (length q)) as [->|Hn].
  - rewrite E. rewrite nth_error_app2 by lia. now rewrite Nat.sub_diag.
  - rewrite nth_error_app1 by lia. apply D. lia.
Qed.

(** *** The invariant of the sender *)
Definition tx_starting (s : tx) : list c_event := match tx_call_at s with TcKick ev => [ev] | _ => [] end.
Record tx_ok (s : tx) (sent q : list c_event) : Prop := {
  to_ring : ring (tx_queue s) (N.to_nat (tx_tail s)) q;
  to_head : N.to_nat (tx_head s) = wrap (N.to_nat (tx_tail s) + length q);
  to_given : tx_given s = sent ++ q;
  to_wire : wire_of sent (tx_wire s ++ skipn (4 - tx_left s) (tx_buffer s));
  to_buffer : length (tx_buffer s) = 4;
  to_left : tx_left s <= 4;
  to_busy : if tx_busy s then (0 < tx_left s /\ tx_tc s = false) \/ (tx_left s = 0 /\ tx_tc s = true)
            else tx_left s = 0 /\ tx_tc s = false /\ match tx_call_at s with TcKick _ => True | _ => q = [] end;
  to_call : match tx_call_at s with
            | TcNone | TcKick _ => True
            | TcStore ev next => N.to_nat next = wrap (N.to_nat (tx_head s) + 1) /\ length q <= 14
            | TcHead ev next => N.to_nat next = wrap (N.to_nat (tx_head s) + 1) /\ length q <= 14
                                /\ nth_error (tx_queue s) (N.to_nat (tx_head s)) = Some ev
            end
}.

Lemma tx_new_ok : tx_ok tx_new [] [].
Proof.
  constructor; cbn; try reflexivity; try lia; auto.
  - constructor; cbn; try reflexivity; lia.
  - constructor.
Qed.

Lemma wire_of_snoc evs w ev bytes : wire_of evs w -> keymap_serialize_event ev = Ok bytes -> wire_of (evs ++ [ev]) (w ++ bytes).
Proof.
  intros H Hs. induction H as [|e b evs rest He _ IH]; cbn.
  - rewrite <- (app_nil_r bytes). constructor; [exact Hs|constructor].
  - rewrite <- app_assoc. constructor; auto.
Qed.
Lemma frame_len ev bytes : keymap_serialize_event ev = Ok bytes -> length bytes = 4.
Proof. intros H. apply serialize_frame in H. destruct (frame_shape _ _ H) as (a & b & c & -> & _). reflexivity. Qed.

Lemma head_tail s sent q : tx_ok s sent q -> (tx_head s =? tx_tail s)%N = match q with [] => true | _ => false end.
Proof.
  intros H. pose proof (rg_tail _ _ _ (to_ring _ _ _ H)) as A. pose proof (rg_room _ _ _ (to_ring _ _ _ H)) as B. pose proof (to_head _ _ _ H) as C.
  destruct (N.eqb_spec (tx_head s) (tx_tail s)) as [E|E].
  - destruct q as [|e q]; [reflexivity|]. exfalso. cbn [length] in *. rewrite E in C. wrap.
  - destruct q as [|e q]; [|reflexivity]. exfalso. apply E, N2Nat.inj. cbn [length] in *. wrap.
Qed.

(** Starting the next transfer: by the call or by the interrupt handler. *)
Lemma tx_start_ok s e q sent s' : 
  ring (tx_queue s) (N.to_nat (tx_tail s)) (e :: q) -> N.to_nat (tx_head s) = wrap (N.to_nat (tx_tail s) + length (e :: q)) ->
  tx_left s = 0 -> length (tx_buffer s) = 4 -> wire_of sent (tx_wire s ++ skipn (4 - tx_left s) (tx_buffer s)) ->
  tx_start s = Ok s' ->
  ring (tx_queue s') (N.to_nat (tx_tail s')) q /\ N.to_nat (tx_head s') = wrap (N.to_nat (tx_tail s') + length q)
  /\ wire_of (sent ++ [e]) (tx_wire s' ++ skipn (4 - tx_left s') (tx_buffer s')) /\ length (tx_buffer s') = 4
  /\ tx_left s' = 4 /\ tx_busy s' = true /\ tx_tc s' = tx_tc s /\ tx_call_at s' = tx_call_at s /\ tx_log s' = tx_log s
  /\ tx_queue s' = tx_queue s /\ tx_head s' = tx_head s.
Proof.
  intros R Hh Hl Hb Hw H. unfold tx_start in H. destruct (ring_pop _ _ _ _ R) as [R1 R2]. pose proof (rg_tail _ _ _ R) as Ht.
  apply index_ok in R1. rewrite R1 in H. cbn [bind] in H. inv_bind H. inv_ok H.
  cbn [tx_queue tx_tail tx_head tx_wire tx_left tx_buffer tx_busy tx_tc tx_call_at tx_log].
  rewrite tx_next_wrap by exact Ht. repeat split; auto; try (now destruct R2).
  - pose proof (rg_room _ _ _ R) as Hr. cbn [length] in *. rewrite Hh. wrap.
  - rewrite Hl, skipn_all2, app_nil_r in Hw by lia. apply wire_of_snoc; auto.
  - eapply frame_len; eauto.
Qed.

Definition ev_calls (a : tx_step) : list c_event := match a with TxCall ev => [ev] | _ => [] end.

Lemma tx_given_return s ev : tx_given (tx_return s ev true) = tx_accepted s ++ [ev].
Proof. unfold tx_given, tx_accepted, tx_return. cbn. rewrite filter_app, map_app, app_nil_r. reflexivity. Qed.
Lemma tx_given_refused s ev : tx_call_at s = TcNone -> tx_given (tx_return s ev false) = tx_given s.
Proof. intros H. unfold tx_given, tx_accepted, tx_return. rewrite H. cbn. rewrite filter_app, map_app, !app_nil_r. reflexivity. Qed.

Ltac tcbn := cbn [tx_queue tx_tail tx_head tx_wire tx_left tx_buffer tx_busy tx_tc tx_call_at tx_log tx_set_call tx_return bind] in *.

Lemma tx_full s sent q : tx_ok s sent q -> (tx_next (tx_head s) =? tx_tail s)%N = (length q =? 15).
Proof.
  intros H. pose proof (rg_tail _ _ _ (to_ring _ _ _ H)) as A. pose proof (rg_room _ _ _ (to_ring _ _ _ H)) as B. pose proof (to_head _ _ _ H) as C.
  assert (D : N.to_nat (tx_head s) < 16) by wrap. pose proof (tx_next_wrap _ D) as F.
  destruct (N.eqb_spec (tx_next (tx_head s)) (tx_tail s)) as [E|E], (Nat.eqb_spec (length q) 15) as [G|G]; try reflexivity; exfalso.
  - rewrite E in F. wrap.
  - apply E, N2Nat.inj. rewrite F. wrap.
Qed.

Lemma tx_do_ok s a s' sent q : tx_ok s sent q -> tx_do s a = Ok s' -> exists sent' q', tx_ok s' sent' q'.
Proof.
  intros I H. destruct a as [ev| | |]; cbn [tx_do] in H.
  - (* a call begins *)
    inv_ok H. exists sent, q. unfold tx_do_call. destruct (tx_call_at s) eqn:Ec; [|exact I..]. rewrite (tx_full _ _ _ I).
    destruct I as [I1 I2 I3 I4 I5 I6 I7 I8]. destruct (Nat.eqb_spec (length q) 15) as [G|G].
    + constructor; tcbn; auto.
      * now rewrite tx_given_refused.
      * now rewrite Ec in I7.
    + constructor; tcbn; auto.
      * unfold tx_given in *. cbn. now rewrite Ec in I3.
      * now rewrite Ec in I7.
      * pose proof (rg_tail _ _ _ I1). pose proof (rg_room _ _ _ I1). split; [apply tx_next_wrap; wrap|lia].
  - (* the call goes on *)
    unfold tx_do_step in H. destruct (tx_call_at s) as [|ev next|ev next|ev] eqn:Ec.
    + inv_ok H. eauto.
    + inv_bind H. inv_ok H. destruct I as [I1 I2 I3 I4 I5 I6 I7 I8]. rewrite Ec in *. destruct I8 as [I8 I9].
      unfold update_index in E. destruct (Nat.ltb_spec (N.to_nat (tx_head s)) (length (tx_queue s))) as [_|]; [|discriminate]. inv_ok E.
      destruct (ring_store _ _ _ ev I1 I9) as [R1 R2]. rewrite I2.
      exists sent, q. constructor; tcbn; auto.
      * unfold tx_given in *. cbn. now rewrite Ec in I3.
      * rewrite I2 in *. auto.
    + inv_ok H. destruct I as [I1 I2 I3 I4 I5 I6 I7 I8]. rewrite Ec in *. destruct I8 as (I8 & I9 & I10).
      exists sent, (q ++ [ev]). rewrite I2 in I10. pose proof (ring_push _ _ _ _ I1 I9 I10) as R. pose proof (rg_tail _ _ _ I1).
      constructor; tcbn; auto.
      * rewrite app_length, I8, I2. cbn [length]. wrap.
      * unfold tx_given in *. cbn. rewrite Ec, app_nil_r in I3. unfold tx_accepted in *. cbn. rewrite I3. now rewrite app_assoc.
      * destruct (tx_busy s); [exact I7|]. tauto.
    + destruct (tx_busy s) eqn:Eb; cbn [negb andb bind] in H.
      * inv_ok H. exists sent, q. destruct I as [I1 I2 I3 I4 I5 I6 I7 I8]. rewrite Ec, Eb in *. constructor; tcbn; auto.
        -- rewrite tx_given_return. rewrite <- I3. unfold tx_given. now rewrite Ec.
        -- now rewrite Eb.
      * rewrite (head_tail _ _ _ I) in H. destruct q as [|e q]; cbn [negb bind] in H.
        -- inv_ok H. exists sent, []. destruct I as [I1 I2 I3 I4 I5 I6 I7 I8]. rewrite Ec, Eb in *. constructor; tcbn; auto.
           ++ rewrite tx_given_return. rewrite <- I3. unfold tx_given. now rewrite Ec.
           ++ rewrite Eb. tauto.
        -- inv_bind H. inv_ok H. destruct I as [I1 I2 I3 I4 I5 I6 I7 I8]. rewrite Ec, Eb in *.
           destruct (tx_start_ok _ _ _ _ _ I1 I2 (proj1 I7) I5 I4 E) as (R1 & R2 & R3 & R4 & R5 & R6 & R7 & R8 & R9 & R10 & R11).
           exists (sent ++ [e]), q. constructor; tcbn; auto.
           ++ rewrite tx_given_return. rewrite <- app_assoc. cbn [app]. rewrite <- I3. unfold tx_given, tx_accepted. now rewrite Ec, R9.
           ++ rewrite R5. lia.
           ++ rewrite R6, R5, R7. left. split; [lia|]. tauto.
  - (* a byte leaves *)
    unfold tx_do_byte in H. destruct (tx_left s) as [|n] eqn:El; [inv_ok H; eauto|]. inv_bind H. inv_ok H. exists sent, q.
    destruct I as [I1 I2 I3 I4 I5 I6 I7 I8]. rewrite El in *. apply index_ok in E. unfold MESSAGE_BUFFER_LEN in E.
    constructor; tcbn; auto; try lia.
    + rewrite <- app_assoc. cbn [app]. replace (a :: skipn (4 - n) (tx_buffer s)) with (skipn (4 - S n) (tx_buffer s)); [exact I4|].
      replace (4 - n) with (S (4 - S n)) by lia. clear -E. revert E. generalize (4 - S n) as m. generalize (tx_buffer s) as l.
      induction l as [|y l IH]; intros [|m] E; cbn in E; try discriminate; [injection E as ->; reflexivity|]. exact (IH m E).
    + destruct (tx_busy s); [|exfalso; lia]. destruct I7 as [[_ I7]|[I7 _]]; [|lia]. destruct n; [right; auto|left; split; [lia|exact I7]].
  - (* the interrupt *)
    unfold tx_do_irq in H. destruct (tx_tc s) eqn:Et; [|inv_ok H; eauto]. tcbn. rewrite (head_tail _ _ _ I) in H.
    destruct q as [|e q]; cbn [negb] in H.
    + inv_ok H. exists sent, []. destruct I as [I1 I2 I3 I4 I5 I6 I7 I8]. constructor; tcbn; auto.
      destruct (tx_busy s); [|destruct I7 as (_ & I7 & _); congruence]. destruct I7 as [[_ I7]|[I7 _]]; [congruence|].
      split; [exact I7|split; [reflexivity|]]. now destruct (tx_call_at s).
    + destruct I as [I1 I2 I3 I4 I5 I6 I7 I8].
      assert (L : tx_left s = 0 /\ tx_busy s = true).
      { destruct (tx_busy s); [|destruct I7 as (_ & I7 & _); congruence]. destruct I7 as [[_ I7]|[I7 _]]; [congruence|]. auto. }
      destruct L as [L1 L2].
      assert (E := H). apply (tx_start_ok _ e q sent) in E; tcbn; auto.
      destruct E as (R1 & R2 & R3 & R4 & R5 & R6 & R7 & R8 & R9 & R10 & R11).
      tcbn. exists (sent ++ [e]), q. constructor; tcbn; auto.
      * unfold tx_given, tx_accepted in *. rewrite R8, R9. rewrite I3. now rewrite <- app_assoc.
      * lia.
      * rewrite R6, R5, R7. left. split; [lia|reflexivity].
      * rewrite R8, R10, R11. destruct (tx_call_at s); auto; cbn [length] in I8; intuition lia.
Qed.

Lemma tx_run_ok l s : tx_run l tx_new = Ok s -> exists sent q, tx_ok s sent q.
Proof.
  intros H. refine (fold_res_inv _ (fun s => exists sent q, tx_ok s sent q) _ _ _ _ _ H).
  - intros s0 a s1 (sent & q & I) _ E. eapply tx_do_ok; eauto.
  - exists [], []. exact tx_new_ok.
Qed.

(** *** It does not panic *)
Definition tx_known (s : tx) : list c_event :=
  tx_given s ++ match tx_call_at s with TcStore ev _ | TcHead ev _ => [ev] | _ => [] end.
Lemma tx_start_same s s' : tx_start s = Ok s' -> tx_call_at s' = tx_call_at s /\ tx_log s' = tx_log s.
Proof. unfold tx_start. intros H. inv_bind H. inv_bind H. inv_ok H. auto. Qed.
Lemma tx_known_same s s' : tx_call_at s' = tx_call_at s -> tx_log s' = tx_log s -> tx_known s' = tx_known s.
Proof. unfold tx_known, tx_given, tx_accepted. now intros -> ->. Qed.
Lemma tx_known_step s a s' ev : tx_do s a = Ok s' -> In ev (tx_known s') -> In ev (tx_known s) \/ In ev (ev_calls a).
Proof.
  intros H Hi. destruct a as [e| | |]; cbn [tx_do] in H.
  - inv_ok H. unfold tx_do_call in Hi. destruct (tx_call_at s) eqn:Ec; [|now left..]. destruct (_ =? _)%N.
    + left. revert Hi. unfold tx_known. rewrite tx_given_refused, Ec by exact Ec. now cbn.
    + unfold tx_known, tx_given, tx_accepted in *. rewrite Ec. cbn in *. rewrite !app_nil_r in *. apply in_app_or in Hi. tauto.
  - left. unfold tx_do_step in H. destruct (tx_call_at s) as [|e next|e next|e] eqn:Ec.
    + inv_ok H. exact Hi.
    + inv_bind H. inv_ok H. revert Hi. unfold tx_known, tx_given, tx_accepted. rewrite Ec. now cbn.
    + inv_ok H. revert Hi. unfold tx_known, tx_given, tx_accepted. rewrite Ec. cbn. now rewrite !app_nil_r.
    + inv_bind H. inv_ok H. assert (X : tx_call_at a = tx_call_at s /\ tx_log a = tx_log s).
      { destruct (_ && _); [now apply tx_start_same|inv_ok E; auto]. }
      destruct X as [X1 X2]. revert Hi. unfold tx_known. rewrite tx_given_return. cbn. unfold tx_given, tx_accepted. rewrite X2, Ec. now rewrite !app_nil_r.
  - left. unfold tx_do_byte in H. destruct (tx_left s); [inv_ok H; exact Hi|]. inv_bind H. inv_ok H. exact Hi.
  - left. unfold tx_do_irq in H. destruct (tx_tc s); [|inv_ok H; exact Hi]. destruct (negb _); [|inv_ok H; exact Hi].
    apply tx_start_same in H as [X1 X2]. now rewrite (tx_known_same _ _ X1 X2) in Hi.
Qed.
Lemma tx_known_run l : forall s s' ev, tx_run l s = Ok s' -> In ev (tx_known s') -> In ev (tx_known s) \/ In ev (tx_calls l).
Proof.
  induction l as [|a l IH]; cbn; intros s s' ev H Hi; [inv_ok H; auto|]. inv_bind H.
  destruct (IH _ _ _ H Hi) as [G|G]; [destruct (tx_known_step _ _ _ _ E G) as [G'|G']; [now left|]|]; right.
  - destruct a; cbn in *; intuition.
  - destruct a; cbn in *; intuition.
Qed.

Lemma sendable_serialises ev : sendable ev -> exists bytes, keymap_serialize_event ev = Ok bytes.
Proof.
  intros [H1 H2]. unfold keymap_serialize_event. apply serialize_iff. exists (ce_value ev). split; [exact H2|].
  unfold event_of_c. destruct H1 as [-> | ->]; auto.
Qed.

Lemma tx_start_runs s e q sent : tx_ok s sent (e :: q) -> sendable e -> exists s', tx_start s = Ok s'.
Proof.
  intros I Hs. destruct (ring_pop _ _ _ _ (to_ring _ _ _ I)) as [R _]. apply index_ok in R. unfold tx_start. rewrite R. cbn.
  destruct (sendable_serialises _ Hs) as [b ->]. cbn. eauto.
Qed.
Lemma tx_do_runs s sent q a : tx_ok s sent q -> Forall sendable (tx_known s) -> exists s', tx_do s a = Ok s'.
Proof.
  intros I F.
  assert (Fq : forall e, In e q -> sendable e).
  { intros e He. rewrite Forall_forall in F. apply F. unfold tx_known. rewrite (to_given _ _ _ I). apply in_or_app. left. apply in_or_app. auto. }
  destruct a as [ev| | |]; cbn [tx_do]; [eauto|..].
  - unfold tx_do_step. destruct (tx_call_at s) eqn:Ec; [eauto| |eauto|].
    + unfold update_index. pose proof (to_head _ _ _ I). destruct (to_ring _ _ _ I) as [R1 R2 R3 _]. rewrite R1.
      destruct (Nat.ltb_spec (N.to_nat (tx_head s)) 16); cbn; [eauto|wrap].
    + rewrite (head_tail _ _ _ I). destruct (tx_busy s); cbn [negb andb bind]; [eauto|]. destruct q as [|e q]; cbn [negb bind]; [eauto|].
      destruct (tx_start_runs _ _ _ _ I (Fq e (or_introl eq_refl))) as [s' ->]. cbn. eauto.
  - unfold tx_do_byte. destruct (tx_left s) eqn:El; [eauto|]. pose proof (to_left _ _ _ I) as Hl. pose proof (to_buffer _ _ _ I) as Hb.
    unfold index, MESSAGE_BUFFER_LEN. destruct (nth_error (tx_buffer s) (4 - S n)) eqn:E; cbn; [eauto|]. apply nth_error_None in E. lia.
  - unfold tx_do_irq. tcbn. rewrite (head_tail _ _ _ I). destruct (tx_tc s); [|eauto]. destruct q as [|e q]; cbn [negb]; [eauto|].
    destruct (ring_pop _ _ _ _ (to_ring _ _ _ I)) as [R _]. apply index_ok in R. unfold tx_start. tcbn. rewrite R. cbn.
    destruct (sendable_serialises _ (Fq e (or_introl eq_refl))) as [b ->]. cbn. eauto.
Qed.
Lemma tx_run_runs l : Forall sendable (tx_calls l) -> exists s, tx_run l tx_new = Ok s.
Proof.
  intros F. assert (G : forall l2 l1 s1, l = l1 ++ l2 -> tx_run l1 tx_new = Ok s1 -> exists s, tx_run l2 s1 = Ok s).
  { induction l2 as [|a l2 IH]; intros l1 s1 El E1; cbn; [eauto|]. destruct (tx_run_ok _ _ E1) as (sent & q & I).
    destruct (tx_do_runs s1 sent q a I) as [s2 E2].
    - apply Forall_forall. intros ev Hi. destruct (tx_known_run _ _ _ _ E1 Hi) as [[]|Hi']. rewrite Forall_forall in F. apply F.
      rewrite El. unfold tx_calls in *. rewrite filter_map_app. apply in_or_app. now left.
    - unfold tx_run. cbn. rewrite E2. cbn. apply (IH (l1 ++ [a])); [now rewrite <- app_assoc|]. unfold tx_run in *. rewrite fold_res_app, E1. cbn. now rewrite E2. }
  exact (G l [] tx_new eq_refl eq_refl).
Qed.

(** *** It comes to rest *)
Definition tx_waiting (s : tx) : nat :=
  if N.to_nat (tx_tail s) <=? N.to_nat (tx_head s) then N.to_nat (tx_head s) - N.to_nat (tx_tail s)
  else N.to_nat (tx_head s) + 16 - N.to_nat (tx_tail s).
Lemma tx_waiting_ok s sent q : tx_ok s sent q -> tx_waiting s = length q.
Proof.
  intros I. pose proof (to_head _ _ _ I) as H. destruct (to_ring _ _ _ I) as [R1 R2 R3 _]. unfold tx_waiting.
  destruct (Nat.leb_spec (N.to_nat (tx_tail s)) (N.to_nat (tx_head s))); wrap.
Qed.
Definition tx_weight (s : tx) : nat :=
  5 * tx_waiting s + tx_left s + (if tx_busy s then 1 else 0)
  + match tx_call_at s with TcNone => 0 | TcStore _ _ => 8 | TcHead _ _ => 7 | TcKick _ => 1 end.

Lemma tx_start_weight s s' e q : tx_start s = Ok s' -> ring (tx_queue s) (N.to_nat (tx_tail s)) (e :: q) ->
  N.to_nat (tx_head s) = wrap (N.to_nat (tx_tail s) + length (e :: q)) ->
  tx_waiting s = S (tx_waiting s') /\ tx_left s' = 4 /\ tx_busy s' = true /\ tx_call_at s' = tx_call_at s.
Proof.
  intros H R Hh. unfold tx_start in H. inv_bind H. inv_bind H. inv_ok H. tcbn. repeat split. unfold tx_waiting. tcbn.
  destruct R as [R1 R2 R3 _]. rewrite tx_next_wrap by exact R2. cbn [length] in *.
  destruct (Nat.leb_spec (N.to_nat (tx_tail s)) (N.to_nat (tx_head s))), (Nat.leb_spec (wrap (N.to_nat (tx_tail s) + 1)) (N.to_nat (tx_head s))); wrap.
Qed.

Lemma tx_do_weight s a s' sent q : tx_ok s sent q -> tx_do s a = Ok s' -> (forall ev, a <> TxCall ev) ->
  s' = s \/ tx_weight s' < tx_weight s.
Proof.
  intros I H Hn. pose proof (to_head _ _ _ I) as Hh. pose proof (to_ring _ _ _ I) as R. pose proof (to_busy _ _ _ I) as B. pose proof (to_call _ _ _ I) as C.
  pose proof (rg_tail _ _ _ R). pose proof (rg_room _ _ _ R).
  destruct a as [ev| | |]; cbn [tx_do] in H; [now destruct (Hn ev)|..].
  - unfold tx_do_step in H. destruct (tx_call_at s) as [|ev next|ev next|ev] eqn:Ec.
    + left. now inv_ok H.
    + inv_bind H. inv_ok H. right. unfold tx_weight, tx_waiting. tcbn. rewrite Ec. lia.
    + inv_ok H. right. unfold tx_weight. tcbn. rewrite Ec. pose proof (tx_waiting_ok _ _ _ I) as W. rewrite W.
      unfold tx_waiting in *. tcbn. destruct C as (C1 & C2 & _).
      destruct (Nat.leb_spec (N.to_nat (tx_tail s)) (N.to_nat next)); wrap.
    + inv_bind H. inv_ok H. right. destruct (negb (tx_busy s) && negb (tx_head s =? tx_tail s)%N) eqn:G.
      * apply andb_prop in G as [G1 G2]. rewrite (head_tail _ _ _ I) in G2. destruct q as [|e q]; [discriminate|].
        destruct (tx_start_weight _ _ _ _ E R Hh) as (W1 & W2 & W3 & W4).
        unfold tx_weight. rewrite W1, Ec. unfold tx_return. tcbn. change (tx_waiting (mkTx (tx_queue a) (tx_head a) (tx_tail a) (tx_busy a) (tx_buffer a) (tx_left a) (tx_tc a) (tx_wire a) TcNone (tx_log a ++ [(ev, true)]))) with (tx_waiting a).
        rewrite W2, W3. destruct (tx_busy s); [discriminate|]. lia.
      * inv_ok E. unfold tx_weight, tx_waiting. tcbn. rewrite Ec. lia.
  - unfold tx_do_byte in H. destruct (tx_left s) eqn:El; [left; now inv_ok H|]. inv_bind H. inv_ok H. right. unfold tx_weight, tx_waiting. tcbn. rewrite El. lia.
  - unfold tx_do_irq in H. destruct (tx_tc s) eqn:Et; [|left; now inv_ok H]. right. tcbn. rewrite (head_tail _ _ _ I) in H.
    assert (L : tx_left s = 0 /\ tx_busy s = true).
    { destruct (tx_busy s); [|destruct B as (_ & B & _); congruence]. destruct B as [[_ B]|[B _]]; [congruence|]. auto. }
    destruct L as [L1 L2]. destruct q as [|e q]; cbn [negb] in H.
    + inv_ok H. unfold tx_weight, tx_waiting. tcbn. rewrite L1, L2. lia.
    + destruct (tx_start_weight _ _ e q H) as (W1 & W2 & W3 & W4); tcbn; auto.
      unfold tx_weight. rewrite W2, W3, W4. unfold tx_waiting in *. tcbn. rewrite W1, L1, L2. lia.
Qed.

(** Unless at rest, some step other than a call changes the state. *)
Lemma tx_enabled s sent q : tx_ok s sent q -> ~ tx_quiet s -> exists a, (forall ev, a <> TxCall ev) /\ tx_do s a <> Ok s.
Proof.
  intros I Hq. destruct (tx_call_at s) as [|ev next|ev next|ev] eqn:Ec.
  - destruct (tx_left s) as [|n] eqn:El.
    + destruct (tx_tc s) eqn:Et.
      * exists TxIrq. split; [discriminate|]. cbn. intros H. unfold tx_do_irq in H. rewrite Et in H. tcbn. destruct (negb _).
        -- unfold tx_start in H. inv_bind H. inv_bind H. inv_ok H. rewrite <- H in Et. discriminate.
        -- assert (G : tx_tc s = false) by (injection H as H; rewrite <- H; reflexivity). congruence.
      * destruct Hq. split; auto.
    + exists TxByte. split; [discriminate|]. cbn. intros H. unfold tx_do_byte in H. rewrite El in H. inv_bind H.
      assert (G : tx_left s = n) by (injection H as H; rewrite <- H; reflexivity). rewrite El in G. lia.
  - exists TxStep. split; [discriminate|]. cbn. intros H. unfold tx_do_step in H. rewrite Ec in H. inv_bind H.
    assert (G : tx_call_at s = TcHead ev next) by (injection H as H; rewrite <- H; reflexivity). congruence.
  - exists TxStep. split; [discriminate|]. cbn. intros H. unfold tx_do_step in H. rewrite Ec in H.
    assert (G : tx_call_at s = TcKick ev) by (injection H as H; rewrite <- H; reflexivity). congruence.
  - exists TxStep. split; [discriminate|]. cbn. intros H. unfold tx_do_step in H. rewrite Ec in H. inv_bind H.
    assert (G : tx_call_at s = TcNone) by (injection H as H; rewrite <- H; reflexivity). congruence.
Qed.

Lemma tx_weight_bound s sent q : tx_ok s sent q -> tx_weight s <= 83.
Proof.
  intros I. unfold tx_weight. rewrite (tx_waiting_ok _ _ _ I). pose proof (rg_room _ _ _ (to_ring _ _ _ I)). pose proof (to_left _ _ _ I).
  pose proof (to_call _ _ _ I). destruct (tx_busy s), (tx_call_at s); lia.
Qed.
Lemma tx_effective_bound l : forall s s' sent q, tx_ok s sent q -> tx_run l s = Ok s' -> tx_calls l = [] -> tx_effective l s ->
  length l + tx_weight s' <= tx_weight s.
Proof.
  induction l as [|a l IH]; intros s s' sent q I H Hc He; cbn [length]; [inv_ok H; lia|]. unfold tx_run in H. cbn [fold_res] in H. inv_bind H.
  cbn [tx_effective] in He. rewrite E in He. destruct He as [He1 He2]. destruct (tx_do_ok _ _ _ _ _ I E) as (sent' & q' & I').
  assert (Hn : forall ev, a <> TxCall ev) by (intros ev ->; discriminate).
  destruct (tx_do_weight _ _ _ _ _ I E Hn) as [->|W]; [congruence|].
  assert (Hc' : tx_calls l = []) by (destruct a; [discriminate|exact Hc..]).
  pose proof (IH _ _ _ _ I' H Hc' He2) as G. lia.
Qed.
