(** Facts about the Bluetooth keyboard. *)
From Verif Require Import Base Output Types Slice Split Scheduler Keymap CApi CFirmware SpecCFirmware CReport CBle SpecCBle
  BaseFacts OutputFacts CFirmwareFacts CReportFacts KeymapQueue.
Local Open Scope nat_scope.

(** *** The matrix *)
Lemma fold_res_ext_in {A S} (f g : S -> A -> res S) l : (forall x s, In x l -> f s x = g s x) -> forall s, fold_res f l s = fold_res g l s.
Proof.
  induction l as [|x l IH]; intros H s; [reflexivity|]. cbn [fold_res]. rewrite (H x s) by now left.
  destruct (g s x); cbn [bind]; auto. apply IH. intros; apply H; now right.
Qed.
Section Square.
Variables rows cols : nat.
Variable closed : nat -> nat -> bool.
Variable idx : nat -> nat -> option nat.
Lemma ble_scan_square high buf : rows = cols ->
  ble_scan_raw rows cols closed idx high buf = scan_raw cols rows (fun c r => closed r c) (fun c r => idx r c) high buf.
Proof.
  intros ->. unfold ble_scan_raw, scan_raw. apply fold_res_ext_in. intros c [h b] Hc. apply in_seq in Hc.
  unfold ble_scan_column, scan_line. rewrite (proj2 (Nat.ltb_lt c cols)) by lia. cbn [fst snd].
  rewrite (fold_res_ext_in _ (fun buf s => scan_switch cols (fun c r => closed r c) (fun c r => idx r c) (set_nth h c true) c s buf)); [reflexivity|].
  intros r b' Hr. apply in_seq in Hr. unfold ble_scan_switch. now rewrite (proj2 (Nat.ltb_lt r cols)) by lia.
Qed.
(** No scan of a matrix that is not square. *)
Lemma panics_at {A S} (f : S -> A -> res S) l x : (forall s y, f s y <> NoFuel) -> In x l -> (forall s, f s x = Panic) -> forall s, fold_res f l s = Panic.
Proof.
  intros Hf. induction l as [|y l IH]; intros Hx Hp s; [destruct Hx|]. cbn [fold_res]. destruct Hx as [->|Hx]; [now rewrite Hp|].
  destruct (f s y) as [s'| |] eqn:E; cbn [bind]; [auto|reflexivity|]. now apply Hf in E.
Qed.
Lemma ble_switch_fuel high c r buf : ble_scan_switch rows cols closed idx high c r buf <> NoFuel.
Proof.
  unfold ble_scan_switch, scan_switch, update_index. destruct (_ <? _); [|discriminate]. destruct (idx r c); [|discriminate]. destruct (_ <? _); discriminate.
Qed.
Lemma fold_no_fuel {A S} (f : S -> A -> res S) l : (forall s y, f s y <> NoFuel) -> forall s, fold_res f l s <> NoFuel.
Proof.
  intros Hf. induction l as [|y l IH]; intros s; [discriminate|]. cbn [fold_res]. destruct (f s y) eqn:E; cbn [bind]; [auto|discriminate|now apply Hf in E].
Qed.
Lemma ble_column_fuel st c : ble_scan_column rows cols closed idx st c <> NoFuel.
Proof.
  unfold ble_scan_column. destruct (_ <? _); [|discriminate].
  destruct (fold_res _ (seq 0 cols) (snd st)) eqn:E; cbn [bind]; [discriminate|discriminate|].
  exfalso. revert E. apply fold_no_fuel. intros. apply ble_switch_fuel.
Qed.
Lemma ble_scan_not_square high buf : 0 < rows -> rows <> cols -> ble_scan_raw rows cols closed idx high buf = Panic.
Proof.
  intros H0 Hn. unfold ble_scan_raw. destruct (Nat.lt_ge_cases rows cols) as [H|H].
  - apply (panics_at _ _ 0); [intros; apply ble_column_fuel|apply in_seq; lia|]. intros st. unfold ble_scan_column.
    rewrite (proj2 (Nat.ltb_lt 0 cols)) by lia.
    rewrite (panics_at (fun buf r => ble_scan_switch rows cols closed idx (set_nth (fst st) 0 true) 0 r buf) (seq 0 cols) rows); [reflexivity|intros; apply ble_switch_fuel|apply in_seq; lia|].
    intros s. unfold ble_scan_switch. now rewrite Nat.ltb_irrefl.
  - apply (panics_at _ _ cols); [intros; apply ble_column_fuel|apply in_seq; lia|]. intros st. unfold ble_scan_column. now rewrite Nat.ltb_irrefl.
Qed.
End Square.

(** *** The changed keys *)
Definition change_event (ch : N * bool) : c_event := state_changed (fst ch) (snd ch).
Lemma flat_map_seq_S {A} (f : nat -> list A) n : forall a, flat_map f (seq (S a) n) = flat_map (fun i => f (S i)) (seq a n).
Proof. induction n as [|n IH]; intros a; [reflexivity|]. cbn [seq flat_map]. now rewrite IH. Qed.
Lemma ble_scan_from_ok raws : forall states i count l n ch,
  length states = length raws -> (N.of_nat (i + length raws) <= 65536)%N ->
  ble_scan_from (N.of_nat i) states raws count = (l, n, ch) ->
  l = raws
  /\ map change_event ch = flat_map (fun j => if eqb (down_in raws j) (down_in states j) then []
                                      else [mkCEvent (if down_in raws j then CPress else CRelease) (N.of_nat (i + j))]) (seq 0 (length raws))
  /\ ((count < 256)%N -> (n < 256)%N /\ exists z, (n + N.of_nat (keys_down states) = count + N.of_nat (keys_down raws) + 256 * z)%N
                                        \/ (n + N.of_nat (keys_down states) + 256 * z = count + N.of_nat (keys_down raws))%N).
Proof.
  induction raws as [|raw raws IH]; intros [|st states] i count l n ch Hl Hi H; cbn [length] in *; try lia; cbn [ble_scan_from] in H.
  - injection H as <- <- <-. split; [reflexivity|]. split; [reflexivity|]. intros Hc. split; [exact Hc|]. exists 0%N. left. cbn. lia.
  - change (N.of_nat i + 1)%N with (N.succ (N.of_nat i)) in H || replace (N.of_nat i + 1)%N with (N.of_nat (S i)) in H by lia.
    cbn [seq flat_map]. rewrite flat_map_seq_S.
    assert (Ex : forall s rs r ss, flat_map (fun j => if eqb (down_in (r :: rs) (S j)) (down_in (s :: ss) (S j)) then []
              else [mkCEvent (if down_in (r :: rs) (S j) then CPress else CRelease) (N.of_nat (i + S j))]) (seq 0 (length raws))
              = flat_map (fun j => if eqb (down_in rs j) (down_in ss j) then [] else [mkCEvent (if down_in rs j then CPress else CRelease) (N.of_nat (S i + j))]) (seq 0 (length raws))).
    { intros. apply flat_map_ext. intros j. unfold down_in. cbn [nth]. now replace (i + S j) with (S i + j) by lia. }
    rewrite Ex. unfold down_in at 1 2 3. cbn [nth].
    destruct (eqb raw st) eqn:E.
    + destruct (ble_scan_from _ states raws count) as [[l0 n0] ch0] eqn:E0. injection H as <- <- <-.
      destruct (IH states (S i) count _ _ _ ltac:(lia) ltac:(lia) E0) as (A & B & C). apply eqb_prop in E. subst st. split; [now rewrite A|]. split; [exact B|].
      intros Hc. destruct (C Hc) as (C1 & z & C2). split; [exact C1|]. exists z. unfold keys_down in *. cbn [count_occ]. destruct (Bool.bool_dec raw true); lia.
    + destruct (ble_scan_from _ states raws _) as [[l0 n0] ch0] eqn:E0. injection H as <- <- <-.
      destruct (IH states (S i) _ _ _ _ ltac:(lia) ltac:(lia) E0) as (A & B & C). split; [now rewrite A|]. split.
      * cbn [map app]. rewrite B. f_equal. unfold change_event, state_changed. cbn [fst snd]. rewrite Nat.add_0_r, N.mod_small by lia. reflexivity.
      * intros Hc. destruct (C ltac:(apply N.mod_lt; lia)) as (C1 & z & C2). split; [exact C1|].
        unfold keys_down in *. cbn [count_occ].
        assert (X := N.div_mod (count + (if raw then 1 else 255)) 256 ltac:(lia)).
        pose (q := ((count + (if raw then 1 else 255)) / 256)%N). fold q in X.
        assert (q = 0 \/ q = 1)%N by (unfold q; destruct raw; assert (Y := N.div_lt_upper_bound (count + 255) 256 2 ltac:(lia) ltac:(lia)); assert (Y' := N.div_lt_upper_bound (count + 1) 256 2 ltac:(lia) ltac:(lia)); lia).
        destruct raw, st; try discriminate E; cbn [eqb] in *; destruct (Bool.bool_dec true true); try congruence; destruct (Bool.bool_dec false true); try congruence.
        -- destruct C2 as [C2|C2]; destruct H as [H|H]; rewrite H in X.
           ++ exists z. left. lia.
           ++ destruct z as [|z]; [exists 1%N; right; lia|]. exists (N.pos z - 1)%N. left. lia.
           ++ exists z. right. lia.
           ++ exists (z + 1)%N. right. lia.
        -- destruct C2 as [C2|C2]; destruct H as [H|H]; rewrite H in X.
           ++ exists (z + 1)%N. left. lia.
           ++ exists z. left. lia.
           ++ destruct z as [|z]; [exists 1%N; left; lia|]. exists (N.pos z - 1)%N. right. lia.
           ++ exists z. right. lia.
Qed.
Lemma keys_down_le l : keys_down l <= length l.
Proof. unfold keys_down. induction l as [|b l IH]; cbn; [lia|]. destruct (Bool.bool_dec b true); lia. Qed.
Lemma ble_matrix_scan_ok raw m m' ch : length (bm_state m) = length raw -> (N.of_nat (length raw) <= 65536)%N ->
  ble_matrix_scan raw m = (m', ch) ->
  bm_state m' = raw /\ map change_event ch = changes (length raw) (down_in (bm_state m)) (down_in raw)
  /\ (length raw <= 255 -> bm_count m = N.of_nat (keys_down (bm_state m)) -> bm_count m' = N.of_nat (keys_down raw)).
Proof.
  intros Hl Hn H. unfold ble_matrix_scan in H. destruct (ble_scan_from 0 (bm_state m) raw (bm_count m)) as [[l n] ch0] eqn:E. injection H as <- <-.
  destruct (ble_scan_from_ok raw (bm_state m) 0 _ _ _ _ Hl Hn E) as (A & B & C). cbn [bm_state bm_count]. split; [exact A|]. split; [exact B|].
  intros H255 Hc. assert (K1 := keys_down_le raw). assert (K2 := keys_down_le (bm_state m)).
  destruct C as (C1 & z & C2); [lia|]. destruct C2 as [C2|C2]; destruct z; lia.
Qed.

(** *** The task *)
Lemma evt_eqb_spec a b : evt_eqb a b = true <-> a = b.
Proof. destruct a as [| | |c|], b as [| | |d|]; cbn; try (split; congruence). rewrite chan_eqb_spec. split; congruence. Qed.
Lemma set_evt_same {A} e (x : A) f : set_evt e x f e = x.
Proof. unfold set_evt. now rewrite (proj2 (evt_eqb_spec e e) eq_refl). Qed.
Lemma set_evt_other {A} e d (x : A) f : d <> e -> set_evt e x f d = f d.
Proof. intros H. unfold set_evt. destruct (evt_eqb d e) eqn:E; [|reflexivity]. apply evt_eqb_spec in E. contradiction. Qed.

Section Task.
Context {R Ctx Ev PKS KS : Type}.
Variable conf : kconf R Ctx Ev PKS KS.
Variable fuel : nat.
Local Notation km := (keymap R Ctx Ev PKS KS).
Local Notation ble := (@ble R Ctx Ev PKS KS).

Ltac bcbn := cbn [bl_matrix bl_keymap bl_hid bl_prev bl_time bl_pending bl_irq bl_set bl_timer bl_now bl_calls bl_made bl_sent bl_scans
  bl_start bl_clear bl_set_irq bl_set_pending bl_set_time bl_called bl_report] in *.

Lemma ble_plain_app l1 : forall l2 (k : km), ble_plain conf fuel (l1 ++ l2) k =
  (let! (k1, r1) := ble_plain conf fuel l1 k in let! (k2, r2) := ble_plain conf fuel l2 k1 in Ok (k2, r1 ++ r2)).
Proof.
  induction l1 as [|c l1 IH]; intros l2 k; cbn [ble_plain app].
  - cbn [bind]. destruct (ble_plain conf fuel l2 k) as [[k2 r2]| |]; reflexivity.
  - destruct (ble_call_plain conf fuel c k) as [[k1 r1]| |]; cbn [bind]; auto. rewrite IH.
    destruct (ble_plain conf fuel l1 k1) as [[k2 r2]| |]; cbn [bind]; auto.
    destruct (ble_plain conf fuel l2 k2) as [[k3 r3]| |]; cbn [bind]; auto. now rewrite app_assoc.
Qed.
Lemma ble_events_app a b : ble_events (a ++ b) = ble_events a ++ ble_events b.
Proof. apply filter_map_app. Qed.

(** Requests for reports only start timers. *)
Lemma requests_timer (s : ble) e : bl_timer (bl_requests s) e =
  match e with EvReport c => if bl_wants c s then Some 1%N else bl_timer s e | _ => bl_timer s e end.
Proof.
  unfold bl_requests. cbn [fold_left]. unfold bl_request.
  assert (W : forall c d t (x : ble), bl_wants c (bl_start d t x) = bl_wants c x) by reflexivity.
  destruct (bl_wants ChKb s) eqn:E1; rewrite ?W; destruct (bl_wants ChMouse s) eqn:E2; rewrite ?W; destruct (bl_wants ChCon s) eqn:E3; rewrite ?W;
    destruct e as [| | |[| |]|]; rewrite ?E1, ?E2, ?E3; reflexivity.
Qed.
Definition same_core (s s' : ble) : Prop :=
  bl_matrix s' = bl_matrix s /\ bl_keymap s' = bl_keymap s /\ bl_hid s' = bl_hid s /\ bl_prev s' = bl_prev s /\ bl_now s' = bl_now s
  /\ bl_calls s' = bl_calls s /\ bl_made s' = bl_made s /\ bl_sent s' = bl_sent s /\ bl_scans s' = bl_scans s /\ bl_set s' = bl_set s.
Lemma requests_rest (s : ble) : same_core s (bl_requests s) /\ bl_irq (bl_requests s) = bl_irq s /\ bl_time (bl_requests s) = bl_time s /\ bl_pending (bl_requests s) = bl_pending s.
Proof.
  unfold bl_requests, same_core. cbn [fold_left]. unfold bl_request.
  destruct (bl_wants ChKb s); destruct (bl_wants ChMouse _); destruct (bl_wants ChCon _); repeat split.
Qed.
Lemma same_core_trans (a b c : ble) : same_core a b -> same_core b c -> same_core a c.
Proof. unfold same_core. intuition congruence. Qed.

(** Calls into the keymap. *)
Record worked (raws : list (list bool)) (l : list ble_call) (rs : list c_report) (s s' : ble) : Prop := {
  wk_matrix : bl_matrix s' = match raws with [] => bl_matrix s | raw :: _ => fst (ble_matrix_scan raw (bl_matrix s)) end;
  wk_plain : ble_plain conf fuel l (bl_keymap s) = Ok (bl_keymap s', rs);
  wk_calls : bl_calls s' = bl_calls s ++ l;
  wk_made : bl_made s' = bl_made s ++ rs;
  wk_hid : bl_hid s' = last rs (bl_hid s);
  wk_prev : bl_prev s' = bl_prev s;
  wk_now : bl_now s' = bl_now s;
  wk_sent : bl_sent s' = bl_sent s;
  wk_scans : bl_scans s' = bl_scans s ++ raws;
  wk_set : bl_set s' = bl_set s
}.
Lemma worked_core raws l rs s a b : worked raws l rs s a -> same_core a b -> worked raws l rs s b.
Proof. intros [] (A & B & C & D & E & F & G & H & I & J). constructor; congruence. Qed.
Lemma worked_app raws l1 rs1 l2 rs2 s a b : worked raws l1 rs1 s a -> worked [] l2 rs2 a b -> worked raws (l1 ++ l2) (rs1 ++ rs2) s b.
Proof.
  intros [A1 A2 A3 A4 A5 A6 A7 A8 A9 A10] [B1 B2 B3 B4 B5 B6 B7 B8 B9 B10]. constructor; try congruence.
  - rewrite ble_plain_app, A2. cbn [bind]. now rewrite B2.
  - rewrite B3, A3. now rewrite app_assoc.
  - rewrite B4, A4. now rewrite app_assoc.
  - rewrite B5, A5. clear. revert rs1. intros rs1. destruct rs2 as [|r rs2 _] using rev_ind; [now rewrite app_nil_r|]. now rewrite app_assoc, !last_last.
  - rewrite B9, A9. now rewrite app_nil_r.
Qed.

Lemma scan_worked raw s s' ch : bl_scan raw s = (s', ch) ->
  worked [raw] [] [] s s' /\ ch = snd (ble_matrix_scan raw (bl_matrix s)) /\ bl_timer s' = bl_timer s /\ bl_irq s' = bl_irq s /\ bl_pending s' = bl_pending s /\ bl_time s' = bl_time s.
Proof.
  unfold bl_scan. destruct (ble_matrix_scan raw (bl_matrix s)) as [m c] eqn:E. intros H. injection H as <- <-.
  split; [|auto]. constructor; bcbn; rewrite ?app_nil_r, ?E; auto.
Qed.
Lemma after_worked ch : forall s t s' t', fold_res (bl_after conf fuel) ch (s, t) = Ok (s', t') ->
  exists l rs, worked [] l rs s s' /\ ble_events l = map change_event ch /\ bl_timer s' = bl_timer s /\ bl_irq s' = bl_irq s /\ bl_pending s' = bl_pending s.
Proof.
  induction ch as [|c ch IH]; intros s t s' t' H; cbn [fold_res] in H.
  - inv_ok H. exists [], []. split; [|auto]. constructor; rewrite ?app_nil_r; auto.
  - inv_bind H. unfold bl_after in E. cbn [fst snd] in E. inv_bind E. destruct a0 as [[k r] t1]. inv_ok E.
    destruct (IH _ _ _ _ H) as (l & rs & W & A & B & C & D). bcbn.
    set (d := ms_of_tmos ((bl_now s + 2 ^ 32 - bl_time s) mod 2 ^ 32)%N) in *.
    exists (BcAfter d (state_changed (fst c) (snd c)) :: l), (r :: rs). split; [|split; [cbn [map]; rewrite <- A; reflexivity|auto]].
    refine (worked_app [] [_] [r] l rs s _ s' _ W). constructor; bcbn; rewrite ?app_nil_r; auto. cbn [ble_plain ble_call_plain]. rewrite E0. reflexivity.
Qed.
Lemma event_worked ch : forall s s', fold_res (bl_event conf fuel) ch s = Ok s' ->
  exists l, worked [] l [] s s' /\ ble_events l = map change_event ch /\ bl_timer s' = bl_timer s /\ bl_irq s' = bl_irq s /\ bl_pending s' = bl_pending s.
Proof.
  induction ch as [|c ch IH]; intros s s' H; cbn [fold_res] in H.
  - inv_ok H. exists []. split; [|auto]. constructor; rewrite ?app_nil_r; auto.
  - inv_bind H. unfold bl_event in E. inv_bind E. inv_ok E.
    destruct (IH _ _ H) as (l & W & A & B & C & D). bcbn.
    exists (BcEvent (state_changed (fst c) (snd c)) :: l). split; [|split; [cbn [map]; rewrite <- A; reflexivity|auto]].
    refine (worked_app [] [_] [] l [] s _ s' _ W). constructor; bcbn; rewrite ?app_nil_r; auto. cbn [ble_plain ble_call_plain]. rewrite E0. reflexivity.
Qed.

(** The three handlers that work with the keymap. *)
Lemma on_scan_worked raw s s' : bl_on_scan conf fuel raw s = Ok s' ->
  exists l rs, worked [raw] l rs s s' /\ ble_events l = map change_event (snd (ble_matrix_scan raw (bl_matrix s)))
    /\ bl_irq s' = bl_irq s /\ bl_timer s' EvTick = Some 12%N /\ bl_timer s' EvWake = bl_timer s EvWake /\ bl_timer s' EvScan = bl_timer s EvScan
    /\ forall c, bl_timer s' (EvReport c) = if bl_wants c s' then Some 1%N else bl_timer s (EvReport c).
Proof.
  unfold bl_on_scan. destruct (bl_scan raw s) as [s1 ch] eqn:E1. destruct (scan_worked _ _ _ _ E1) as (W1 & -> & T1 & I1 & P1 & _).
  intros H. inv_bind H. destruct a as [s2 t]. destruct (after_worked _ _ _ _ _ E) as (l & rs & W2 & A & T2 & I2 & P2). inv_ok H.
  exists l, rs. assert (W : worked [raw] l rs s s2) by (exact (worked_app _ [] [] _ _ _ _ _ W1 W2)).
  set (s3 := if negb (bl_pending s2) && (0 <? t)%N then bl_set_pending true (bl_start EvTimeout (tmos_of_ms t) s2) else s2).
  assert (K3 : same_core s2 s3 /\ bl_irq s3 = bl_irq s2 /\ forall e, e <> EvTimeout -> bl_timer s3 e = bl_timer s2 e).
  { unfold s3. destruct (_ && _); [|repeat split]. repeat split. bcbn. intros e He. now apply set_evt_other. }
  destruct K3 as (K3 & K4 & K5). set (s4 := bl_start EvTick 12 s3). destruct (requests_rest s4) as (Q1 & Q2 & Q3).
  assert (K6 : same_core s3 s4) by (repeat split).
  split; [eapply worked_core; [exact W|]; eauto using same_core_trans|]. split; [exact A|].
  split; [rewrite Q2; unfold s4; bcbn; congruence|]. rewrite !requests_timer. unfold s4. bcbn. rewrite set_evt_same, !set_evt_other, !K5 by discriminate.
  repeat (split; [congruence|]). intros c. rewrite requests_timer. bcbn. rewrite set_evt_other, K5 by discriminate. fold s4.
  replace (bl_wants c (bl_requests s4)) with (bl_wants c s4); [now rewrite T2, T1|].
  destruct Q1 as (_ & _ & Q1 & Q4 & _). unfold bl_wants. now rewrite Q1, Q4.
Qed.
Lemma on_timeout_worked s s' : bl_on_timeout conf fuel s = Ok s' ->
  exists rs, worked [] [BcNext] rs s s' /\ bl_irq s' = bl_irq s /\ (forall e, (e = EvWake \/ e = EvScan \/ e = EvTick) -> bl_timer s' e = bl_timer s e)
    /\ forall c, bl_timer s' (EvReport c) = if bl_wants c s' then Some 1%N else bl_timer s (EvReport c).
Proof.
  unfold bl_on_timeout. intros H. inv_bind H. destruct a as [[k r] t]. inv_ok H. exists [r].
  set (s1 := bl_set_time (bl_report r (bl_called BcNext k s))).
  assert (W : worked [] [BcNext] [r] s s1). { constructor; unfold s1; bcbn; rewrite ?app_nil_r; auto. cbn [ble_plain ble_call_plain]. rewrite E. reflexivity. }
  set (s2 := if (0 <? t)%N then bl_start EvTimeout (tmos_of_ms t) s1 else bl_set_pending false s1).
  assert (K3 : same_core s1 s2 /\ bl_irq s2 = bl_irq s /\ forall e, e <> EvTimeout -> bl_timer s2 e = bl_timer s e).
  { unfold s2. destruct (0 <? t)%N; repeat split. bcbn. intros e He. unfold s1. bcbn. now apply set_evt_other. }
  destruct K3 as (K3 & K4 & K5). destruct (requests_rest s2) as (Q1 & Q2 & Q3).
  split; [eapply worked_core; [exact W|]; eauto using same_core_trans|]. split; [congruence|]. split.
  - intros e He. rewrite requests_timer. destruct He as [->|[->| ->]]; apply K5; discriminate.
  - intros c. rewrite requests_timer, K5 by discriminate.
    replace (bl_wants c (bl_requests s2)) with (bl_wants c s2); [reflexivity|]. destruct Q1 as (_ & _ & Q1 & Q4 & _). unfold bl_wants. now rewrite Q1, Q4.
Qed.
Lemma on_tick_worked raw s s' : bl_on_tick conf fuel raw s = Ok s' ->
  exists l r, worked [raw] l [r] s s' /\ ble_events l = map change_event (snd (ble_matrix_scan raw (bl_matrix s)))
    /\ ((bl_irq s' = bl_irq s /\ bl_timer s' EvTick = Some 12%N)
        \/ (bl_irq s' = true /\ bl_timer s' EvTick = bl_timer s EvTick /\ keymap_requires_polling (bl_keymap s') = false /\ bm_count (bl_matrix s') = 0%N))
    /\ bl_timer s' EvWake = bl_timer s EvWake /\ bl_timer s' EvScan = bl_timer s EvScan
    /\ forall c, bl_timer s' (EvReport c) = if bl_wants c s' then Some 1%N else bl_timer s (EvReport c).
Proof.
  unfold bl_on_tick. destruct (bl_scan raw s) as [s1 ch] eqn:E1. destruct (scan_worked _ _ _ _ E1) as (W1 & -> & T1 & I1 & P1 & _).
  intros H. inv_bind H. destruct (event_worked _ _ _ E) as (l & W2 & A & T2 & I2 & P2). inv_bind H. destruct a0 as [k r]. inv_ok H.
  set (s3 := bl_set_time (bl_report r (bl_called BcTick k a))).
  assert (W3 : worked [] [BcTick] [r] a s3). { constructor; unfold s3; bcbn; rewrite ?app_nil_r; auto. cbn [ble_plain ble_call_plain]. rewrite E0. reflexivity. }
  assert (W : worked [raw] (l ++ [BcTick]) [r] s s3).
  { apply (worked_app [raw] l [] [BcTick] [r] s a); [|exact W3]. exact (worked_app _ [] [] _ _ _ _ _ W1 W2). }
  exists (l ++ [BcTick]), r.
  set (s4 := if keymap_requires_polling k || (0 <? bm_count (bl_matrix a))%N then bl_start EvTick 12 s3 else bl_set_irq true s3).
  assert (T3 : bl_timer s3 = bl_timer s) by (unfold s3; bcbn; congruence).
  assert (K4 : same_core s3 s4 /\ (forall e, e <> EvTick -> bl_timer s4 e = bl_timer s e)
     /\ ((bl_irq s4 = bl_irq s /\ bl_timer s4 EvTick = Some 12%N)
        \/ (bl_irq s4 = true /\ bl_timer s4 EvTick = bl_timer s EvTick /\ keymap_requires_polling (bl_keymap s4) = false /\ bm_count (bl_matrix s4) = 0%N))).
  { unfold s4. destruct (keymap_requires_polling k) eqn:Ep; [|destruct (0 <? bm_count (bl_matrix a))%N eqn:Ec]; cbn [orb].
    - split; [repeat split|]. bcbn. split; [intros e He; rewrite set_evt_other by exact He; now rewrite T3|]. left. split; [unfold s3; bcbn; congruence|apply set_evt_same].
    - split; [repeat split|]. bcbn. split; [intros e He; rewrite set_evt_other by exact He; now rewrite T3|]. left. split; [unfold s3; bcbn; congruence|apply set_evt_same].
    - split; [repeat split|]. split; [intros; bcbn; congruence|]. right. bcbn. apply N.ltb_ge in Ec. repeat split; try exact Ep; try congruence. unfold s3. bcbn. lia. }
  destruct K4 as (K4 & K5 & K6). destruct (requests_rest s4) as (Q1 & Q2 & Q3).
  split; [eapply worked_core; [exact W|]; eauto using same_core_trans|]. split; [rewrite ble_events_app, A; cbn; apply app_nil_r|].
  split; [|split; [rewrite requests_timer; apply K5; discriminate|split; [rewrite requests_timer; apply K5; discriminate|]]].
  - rewrite Q2, requests_timer. destruct Q1 as (Q4 & Q5 & _). now rewrite Q4, Q5.
  - intros c. rewrite requests_timer, K5 by discriminate.
    replace (bl_wants c (bl_requests s4)) with (bl_wants c s4); [reflexivity|]. destruct Q1 as (_ & _ & Q1 & Q4 & _). unfold bl_wants. now rewrite Q1, Q4.
Qed.

Lemma next_set (s : ble) e : bl_next s = Some e -> bl_set s e = true.
Proof. unfold bl_next. intros H. now destruct (find_some _ _ H). Qed.
Lemma next_none (s : ble) : bl_next s = None -> idle_task s.
Proof. unfold bl_next, idle_task. intros H e. apply (find_none _ _ H). destruct e as [| | |[| |]|]; cbn; auto 10. Qed.

(** *** The calls into the keymap *)
Record bl_hist (keys : nat) (k1 : km) (s : ble) : Prop := {
  bh_state : bm_state (bl_matrix s) = last (bl_scans s) (repeat false keys);
  bh_len : length (bm_state (bl_matrix s)) = keys;
  bh_events : ble_events (bl_calls s) = scan_events keys (repeat false keys) (bl_scans s);
  bh_count : keys <= 255 -> bm_count (bl_matrix s) = N.of_nat (keys_down (last (bl_scans s) (repeat false keys)));
  bh_plain : ble_plain conf fuel (bl_calls s) k1 = Ok (bl_keymap s, bl_made s);
  bh_hid : bl_hid s = last (bl_made s) report_zero
}.
Lemma last_app_def {A} (l1 l2 : list A) d : last (l1 ++ l2) d = last l2 (last l1 d).
Proof. destruct l2 as [|x l2 _] using rev_ind; [now rewrite app_nil_r|]. now rewrite app_assoc, !last_last. Qed.
Lemma scan_events_snoc keys raws : forall before raw,
  scan_events keys before (raws ++ [raw]) = scan_events keys before raws ++ changes keys (down_in (last raws before)) (down_in raw).
Proof.
  induction raws as [|r raws IH]; intros before raw; cbn [scan_events app].
  - cbn [last]. apply app_nil_r.
  - rewrite IH, app_assoc. do 3 f_equal. change (r :: raws) with ([r] ++ raws). now rewrite last_app_def.
Qed.
Lemma hist_new keys k : bl_hist keys (keymap_set_ms_per_tick (keymap_init k) 8%N) (ble_new keys k).
Proof.
  constructor; cbn [ble_new bl_matrix bm_new bm_state bm_count bl_scans bl_calls bl_keymap bl_made bl_hid last ble_plain]; auto.
  - apply repeat_length.
  - intros _. unfold keys_down. rewrite (proj1 (count_occ_not_In _ _ _)); [reflexivity|]. intros H. apply repeat_spec in H. discriminate.
Qed.
Lemma hist_core keys k1 s s' : same_core s s' -> bl_hist keys k1 s -> bl_hist keys k1 s'.
Proof. intros (A & B & C & D & E & F & G & H & I & J) []. constructor; rewrite ?A, ?B, ?C, ?F, ?G, ?I; auto. Qed.
Lemma hist_worked keys k1 raws l rs s s' : bl_hist keys k1 s -> worked raws l rs s s' -> (N.of_nat keys <= 65536)%N ->
  (raws = [] /\ ble_events l = [] \/ exists raw, raws = [raw] /\ length raw = keys /\ ble_events l = map change_event (snd (ble_matrix_scan raw (bl_matrix s)))) ->
  bl_hist keys k1 s'.
Proof.
  intros [A1 A2 A3 A4 A5 A6] [B1 B2 B3 B4 B5 B6 B7 B8 B9 B10] Hk H.
  assert (P : ble_plain conf fuel (bl_calls s') k1 = Ok (bl_keymap s', bl_made s')).
  { rewrite B3, ble_plain_app, A5. cbn [bind]. rewrite B2. cbn [bind]. now rewrite B4. }
  assert (Q : bl_hid s' = last (bl_made s') report_zero) by (now rewrite B5, B4, A6, last_app_def).
  destruct H as [(-> & H)|(raw & -> & Hl & H)].
  - rewrite app_nil_r in B9. constructor; rewrite ?B1, ?B9; auto. rewrite B3, ble_events_app, H, app_nil_r. exact A3.
  - destruct (ble_matrix_scan raw (bl_matrix s)) as [m ch] eqn:E. cbn [fst snd] in *.
    destruct (ble_matrix_scan_ok _ _ _ _ (eq_trans A2 (eq_sym Hl)) ltac:(now rewrite Hl) E) as (C1 & C2 & C3). rewrite Hl in C2, C3.
    constructor; rewrite ?B1, ?B9, ?last_last; auto.
    + now rewrite C1.
    + rewrite B3, ble_events_app, H, A3, scan_events_snoc, C2. now rewrite A1.
    + intros K. apply C3; [exact K|]. rewrite A1. auto.
Qed.

Lemma clear_core_hist keys k1 e s : bl_hist keys k1 s -> bl_hist keys k1 (bl_clear e s).
Proof. intros []. constructor; auto. Qed.
Lemma do_hist keys k1 a s s' : bl_hist keys k1 s -> (N.of_nat keys <= 65536)%N -> (forall raw ok, a = BlTask raw ok -> length raw = keys) ->
  bl_do conf fuel s a = Ok s' -> bl_hist keys k1 s'.
Proof.
  intros I Hk Ha H. destruct a as [| |raw ok]; cbn [bl_do] in H.
  - inv_ok H. destruct I. constructor; auto.
  - inv_ok H. unfold bl_gpio. destruct (bl_irq s); [|exact I]. destruct I. constructor; auto.
  - specialize (Ha raw ok eq_refl). unfold bl_task in H. destruct (bl_next s) as [e|]; [|now inv_ok H].
    apply (clear_core_hist _ _ e) in I. set (s0 := bl_clear e s) in *. destruct e as [| | |c|].
    + inv_ok H. destruct I. constructor; auto.
    + destruct (on_scan_worked _ _ _ H) as (l & rs & W & E & _). eapply hist_worked; eauto.
    + destruct (on_timeout_worked _ _ H) as (rs & W & _). eapply hist_worked; eauto.
    + inv_ok H. destruct I. constructor; auto.
    + destruct (on_tick_worked _ _ _ H) as (l & r & W & E & _). eapply hist_worked; eauto.
Qed.
Lemma run_hist keys k1 l : forall s s', bl_hist keys k1 s -> (N.of_nat keys <= 65536)%N -> reads_keys keys l ->
  bl_run conf fuel l s = Ok s' -> bl_hist keys k1 s'.
Proof.
  induction l as [|a l IH]; intros s s' I Hk Hl H; cbn [bl_run fold_res] in H.
  - now inv_ok H.
  - inv_bind H. eapply IH; [|exact Hk| |exact H].
    + eapply do_hist; [exact I|exact Hk| |exact E]. intros raw ok ->. apply (Hl raw ok). now left.
    + intros raw ok Hin. apply (Hl raw ok). now right.
Qed.

(** *** One of: waiting for a key, or one event that leads to a scan *)
Definition nb (b : bool) : nat := if b then 1 else 0.
Definition nt (o : option N) : nat := match o with Some _ => 1 | None => 0 end.
Record bl_token (s : ble) : Prop := {
  tk_one : nb (bl_irq s) + (nb (bl_set s EvWake) + nb (bl_set s EvScan) + nb (bl_set s EvTick))
           + (nt (bl_timer s EvScan) + nt (bl_timer s EvTick)) = 1;
  tk_wake : bl_timer s EvWake = None;
  tk_scan : forall t, bl_timer s EvScan = Some t -> (t <= 1)%N;
  tk_tick : forall t, bl_timer s EvTick = Some t -> (t <= 12)%N;
  tk_idle : bl_irq s = true -> bm_count (bl_matrix s) = 0%N
}.
Lemma token_new keys k : bl_token (ble_new keys k : ble).
Proof. constructor; cbn; auto; discriminate. Qed.
Lemma token_unit (s : ble) : bl_token s -> bl_token (bl_unit s).
Proof.
  intros [A B C D E]. constructor; cbn [bl_unit bl_irq bl_set bl_timer bl_matrix].
  - rewrite B. destruct (bl_timer s EvScan) as [t1|]; cbn [nt] in *; [specialize (C t1 eq_refl)|clear C];
    (destruct (bl_timer s EvTick) as [t2|]; cbn [nt] in *; [specialize (D t2 eq_refl)|clear D]).
    all: destruct (bl_irq s), (bl_set s EvWake), (bl_set s EvScan), (bl_set s EvTick); cbn [nb nt orb] in *; try lia;
      try (destruct (t1 <=? 1)%N; cbn [nb nt]; lia); try (destruct (t2 <=? 1)%N; cbn [nb nt]; lia).
  - now rewrite B.
  - intros t H. destruct (bl_timer s EvScan) as [t1|]; [|discriminate]. specialize (C t1 eq_refl). destruct (t1 <=? 1)%N eqn:E1; [discriminate|]. apply N.leb_gt in E1. lia.
  - intros t H. destruct (bl_timer s EvTick) as [t1|]; [|discriminate]. specialize (D t1 eq_refl). destruct (t1 <=? 1)%N eqn:E1; [discriminate|]. injection H as <-. lia.
  - exact E.
Qed.
Lemma do_token a s s' : bl_token s -> bl_do conf fuel s a = Ok s' -> bl_token s'.
Proof.
  intros I H. destruct a as [| |raw ok]; cbn [bl_do] in H.
  - inv_ok H. now apply token_unit.
  - inv_ok H. unfold bl_gpio. destruct (bl_irq s) eqn:Ei; [|exact I]. destruct I as [A B C D E].
    constructor; cbn [bl_irq bl_set bl_timer bl_matrix]; auto; try discriminate. rewrite set_evt_same, !set_evt_other by discriminate. rewrite Ei in A. cbn [nb] in *. destruct (bl_set s EvWake); cbn [nb] in *; lia.
  - unfold bl_task in H. destruct (bl_next s) as [e|] eqn:En; [|now inv_ok H]. apply next_set in En. destruct I as [A B C D E].
    destruct e as [| | |c|].
    + inv_ok H. unfold bl_on_wake. rewrite En in A. constructor; bcbn; rewrite ?set_evt_same, ?set_evt_other by discriminate; auto; try discriminate.
      * cbn [nb nt] in *. lia.
      * intros t Ht. injection Ht as <-. lia.
    + destruct (on_scan_worked _ _ _ H) as (l & rs & W & _ & K1 & K2 & K3 & K4 & _). bcbn. rewrite En in A.
      assert (Ei : bl_irq s = false). { destruct (bl_irq s); [|reflexivity]. cbn [nb] in A. lia. }
      constructor; rewrite ?(wk_set _ _ _ _ _ W); bcbn; rewrite ?K1, ?K2, ?K3, ?K4, ?set_evt_same, ?set_evt_other by discriminate; auto.
      * cbn [nb nt] in *. destruct (bl_timer s EvTick); cbn [nb nt] in *; lia.
      * intros t Ht. injection Ht as <-. lia.
      * congruence.
    + destruct (on_timeout_worked _ _ H) as (rs & W & K1 & K2 & _). bcbn.
      constructor; rewrite ?(wk_set _ _ _ _ _ W), ?(wk_matrix _ _ _ _ _ W); bcbn; rewrite ?K1, ?K2, ?set_evt_same, ?set_evt_other by (discriminate || auto); auto.
    + inv_ok H. constructor; cbn [bl_on_report bl_irq bl_set bl_timer bl_matrix bl_clear]; rewrite ?set_evt_other by discriminate; auto.
    + destruct (on_tick_worked _ _ _ H) as (l & r & W & _ & K1 & K3 & K4 & _). bcbn. rewrite En in A.
      assert (Ei : bl_irq s = false). { destruct (bl_irq s); [|reflexivity]. cbn [nb] in A. lia. }
      assert (Et : bl_timer s EvTick = None). { destruct (bl_timer s EvTick); [|reflexivity]. cbn [nb nt] in A. lia. }
      destruct K1 as [(K1 & K2)|(K1 & K2 & _ & K5)];
      (constructor; rewrite ?(wk_set _ _ _ _ _ W); bcbn; rewrite ?K1, ?K2, ?K3, ?K4, ?Et, ?set_evt_same, ?set_evt_other by discriminate; auto); try congruence.
      all: try (rewrite ?Ei, ?Et in *; cbn [nb nt] in *; lia).
      intros t Ht. injection Ht as <-. lia.
Qed.
Lemma run_token l : forall s s', bl_token s -> bl_run conf fuel l s = Ok s' -> bl_token s'.
Proof.
  induction l as [|a l IH]; intros s s' I H; cbn [bl_run fold_res] in H.
  - now inv_ok H.
  - inv_bind H. eapply IH; [|exact H]. eapply do_token; eauto.
Qed.

Lemma token_awake s : bl_token s -> bl_irq s = false -> will_scan s.
Proof.
  intros [A B C D E] Hi. rewrite Hi in A. unfold will_scan, due_evt.
  destruct (bl_set s EvWake); [auto|]. destruct (bl_set s EvScan); [auto|]. destruct (bl_set s EvTick); [auto|].
  destruct (bl_timer s EvScan); [right; left; right; discriminate|]. destruct (bl_timer s EvTick); [right; right; right; discriminate|]. cbn in A. lia.
Qed.
Lemma token_asleep s : bl_token s -> bl_irq s = true -> ~ will_scan s.
Proof.
  intros [A B C D E] Hi. rewrite Hi in A. unfold will_scan, due_evt. rewrite B.
  destruct (bl_set s EvWake), (bl_set s EvScan), (bl_set s EvTick); cbn [nb] in A; try lia.
  destruct (bl_timer s EvScan), (bl_timer s EvTick); cbn [nb nt] in A; try lia. intuition congruence.
Qed.
Lemma do_sleeps a s s' : bl_token s -> bl_irq s = false -> bl_do conf fuel s a = Ok s' -> bl_irq s' = true ->
  keymap_requires_polling (bl_keymap s') = false /\ exists raw, bl_scans s' = bl_scans s ++ [raw].
Proof.
  intros I Hi H Hi'. destruct a as [| |raw ok]; cbn [bl_do] in H.
  - inv_ok H. cbn [bl_unit bl_irq] in Hi'. congruence.
  - inv_ok H. unfold bl_gpio in Hi'. rewrite Hi in Hi'. congruence.
  - unfold bl_task in H. destruct (bl_next s) as [e|] eqn:En; [|inv_ok H; congruence]. destruct e as [| | |c|].
    + inv_ok H. unfold bl_on_wake in Hi'. bcbn. discriminate.
    + destruct (on_scan_worked _ _ _ H) as (l & rs & W & _ & K1 & _). bcbn. congruence.
    + destruct (on_timeout_worked _ _ H) as (rs & W & K1 & _). bcbn. congruence.
    + inv_ok H. cbn in Hi'. congruence.
    + destruct (on_tick_worked _ _ _ H) as (l & r & W & _ & K1 & _). bcbn. destruct K1 as [(K1 & _)|(K1 & _ & K2 & _)]; [congruence|].
      split; [exact K2|]. exists raw. exact (wk_scans _ _ _ _ _ W).
Qed.

(** How many more units of time can pass before a scan. *)
Definition dist (s : ble) : nat :=
  if bl_set s EvWake then 1 else if bl_set s EvScan || bl_set s EvTick then 0
  else match bl_timer s EvScan with
       | Some t => Nat.max 1 (N.to_nat t)
       | None => match bl_timer s EvTick with Some t => Nat.max 1 (N.to_nat t) | None => 0 end
       end.
Lemma dist_le s : bl_token s -> dist s <= 12.
Proof.
  intros [A B C D E]. unfold dist. destruct (bl_set s EvWake); [lia|]. destruct (_ || _); [lia|].
  destruct (bl_timer s EvScan) as [t|]; [specialize (C t eq_refl); lia|]. destruct (bl_timer s EvTick) as [t|]; [specialize (D t eq_refl); lia|]. lia.
Qed.
Lemma do_scans a s s' : bl_do conf fuel s a = Ok s' -> exists raws, bl_scans s' = bl_scans s ++ raws.
Proof.
  intros H. destruct a as [| |raw ok]; cbn [bl_do] in H.
  - inv_ok H. exists []. now rewrite app_nil_r.
  - inv_ok H. exists []. unfold bl_gpio. destruct (bl_irq s); now rewrite app_nil_r.
  - unfold bl_task in H. destruct (bl_next s) as [e|] eqn:En; [|inv_ok H; exists []; now rewrite app_nil_r]. destruct e as [| | |c|].
    + inv_ok H. exists []. now rewrite app_nil_r.
    + destruct (on_scan_worked _ _ _ H) as (l & rs & W & _). eexists. exact (wk_scans _ _ _ _ _ W).
    + destruct (on_timeout_worked _ _ H) as (rs & W & _). eexists. exact (wk_scans _ _ _ _ _ W).
    + inv_ok H. exists []. now rewrite app_nil_r.
    + destruct (on_tick_worked _ _ _ H) as (l & r & W & _). eexists. exact (wk_scans _ _ _ _ _ W).
Qed.
Lemma run_scans l : forall s s', bl_run conf fuel l s = Ok s' -> exists raws, bl_scans s' = bl_scans s ++ raws.
Proof.
  induction l as [|a l IH]; intros s s' H; cbn [bl_run fold_res] in H.
  - inv_ok H. exists []. now rewrite app_nil_r.
  - inv_bind H. destruct (do_scans _ _ _ E) as (r1 & R1). destruct (IH _ _ H) as (r2 & R2). exists (r1 ++ r2). rewrite R2, R1. now rewrite app_assoc.
Qed.
Lemma app_self_nil {A} (l m : list A) : l = l ++ m -> m = [].
Proof. intros H. apply (f_equal (@length A)) in H. rewrite app_length in H. destruct m; [reflexivity|cbn in H; lia]. Qed.
Lemma do_dist a s s' : bl_token s -> bl_irq s = false -> bl_do conf fuel s a = Ok s' -> bl_scans s' = bl_scans s ->
  bl_irq s' = false /\ (a = BlUnit -> idle_task s -> Datatypes.S (dist s') <= dist s) /\ (a <> BlUnit -> dist s' <= dist s).
Proof.
  intros I Hi H Hs. assert (I' := do_token _ _ _ I H). destruct I as [A B C D E]. destruct a as [| |raw ok]; cbn [bl_do] in H.
  - inv_ok H. split; [exact Hi|]. split; [|congruence]. intros _ Hidle. unfold dist. cbn [bl_unit bl_set bl_timer]. rewrite B, !Hidle. rewrite Hi, !Hidle in A. cbn [nb orb] in *.
    destruct (bl_timer s EvScan) as [t1|]; cbn [nt] in A.
    + specialize (C t1 eq_refl). rewrite (proj2 (N.leb_le _ _) C). cbn [orb]. lia.
    + destruct (bl_timer s EvTick) as [t2|]; cbn [nt] in A; [|lia]. destruct (t2 <=? 1)%N eqn:E2; cbn [orb]; [lia|]. apply N.leb_gt in E2. cbn [orb]. lia.
  - inv_ok H. unfold bl_gpio. rewrite Hi. split; [exact Hi|]. split; [discriminate|lia].
  - unfold bl_task in H. destruct (bl_next s) as [e|] eqn:En; [|inv_ok H; split; [exact Hi|split; [discriminate|lia]]]. apply next_set in En. destruct e as [| | |c|].
    + inv_ok H. unfold bl_on_wake. split; [reflexivity|]. split; [discriminate|]. intros _. unfold dist. bcbn. rewrite set_evt_same, En, !set_evt_other, set_evt_same by discriminate.
      rewrite En, Hi in A. destruct (bl_set s EvScan), (bl_set s EvTick); cbn [nb orb] in *; lia.
    + destruct (on_scan_worked _ _ _ H) as (l & rs & W & _). assert (X := wk_scans _ _ _ _ _ W). bcbn. rewrite Hs in X. apply app_self_nil in X. discriminate.
    + destruct (on_timeout_worked _ _ H) as (rs & W & K1 & K2 & _). split; [bcbn; congruence|]. split; [discriminate|]. intros _.
      unfold dist. rewrite (wk_set _ _ _ _ _ W), !K2 by auto. bcbn. rewrite !set_evt_other by discriminate. lia.
    + inv_ok H. split; [exact Hi|]. split; [discriminate|]. intros _. unfold dist. cbn [bl_on_report bl_clear bl_set bl_timer]. rewrite !set_evt_other by discriminate. lia.
    + destruct (on_tick_worked _ _ _ H) as (l & r & W & _). assert (X := wk_scans _ _ _ _ _ W). bcbn. rewrite Hs in X. apply app_self_nil in X. discriminate.
Qed.
Lemma run_dist l : forall s s', bl_token s -> bl_irq s = false -> bl_prompt conf fuel l s -> bl_run conf fuel l s = Ok s' -> bl_scans s' = bl_scans s ->
  units l <= dist s.
Proof.
  induction l as [|a l IH]; intros s s' I Hi Hp H Hs; cbn [bl_run fold_res] in H; [cbn; lia|].
  inv_bind H. cbn [bl_prompt] in Hp. destruct Hp as [Hp1 Hp2]. rewrite E in Hp2.
  assert (Hs1 : bl_scans a0 = bl_scans s).
  { destruct (do_scans _ _ _ E) as (r1 & R1). destruct (run_scans _ _ _ H) as (r2 & R2). rewrite R2, R1 in Hs. symmetry in Hs. rewrite <- app_assoc in Hs. apply app_self_nil in Hs.
    apply app_eq_nil in Hs. destruct Hs as [-> _]. now rewrite app_nil_r in R1. }
  destruct (do_dist _ _ _ I Hi E Hs1) as (K1 & K2 & K3).
  assert (X := IH _ _ (do_token _ _ _ I E) K1 Hp2 H (eq_trans Hs (eq_sym Hs1))).
  destruct a; unfold units in *; cbn [filter length] in *.
  - specialize (K2 eq_refl (Hp1 eq_refl)). lia.
  - specialize (K3 ltac:(discriminate)). lia.
  - specialize (K3 ltac:(discriminate)). lia.
Qed.

(** *** Reports *)
Lemma sampled_app {A} (l : list A) : forall m s, sampled m s -> sampled (m ++ l) s.
Proof. induction l as [|x l IH] using rev_ind; intros m s H; [now rewrite app_nil_r|]. rewrite app_assoc. apply SaMake. auto. Qed.
Lemma sampled_send {A} (m s : list A) r : sampled (r :: m) s -> sampled (r :: m) (s ++ [last m r]).
Proof.
  intros H. destruct m as [|x m _] using rev_ind.
  - exact (SaSend [] s r H).
  - rewrite last_last. change (r :: m ++ [x]) with ((r :: m) ++ [x]) in *. now apply SaSend.
Qed.
Record bl_reports (c : chan) (s : ble) : Prop := {
  br_hid : bl_hid s = last (bl_made s) report_zero;
  br_prev : bl_prev s c = host_has c s;
  br_sampled : sampled (map (ble_part c) (report_zero :: bl_made s)) (offered c s);
  br_timer : forall t, bl_timer s (EvReport c) = Some t -> (t <= 1)%N
}.
Definition bl_synced (c : chan) (s : ble) : Prop := bl_prev s c = ble_part c (bl_hid s) \/ due_evt (EvReport c) s.
Lemma reports_new c keys k : bl_reports c (ble_new keys k : ble).
Proof. constructor; cbn; auto; try discriminate. exact (SaMake [] [] _ SaNil). Qed.
Lemma synced_new c keys k : bl_synced c (ble_new keys k : ble).
Proof. now left. Qed.
Lemma host_has_sent c (s s' : ble) : bl_sent s' = bl_sent s -> host_has c s' = host_has c s /\ offered c s' = offered c s.
Proof. unfold host_has, delivered, offered. intros ->. auto. Qed.
Lemma reports_worked c raws l rs s s' : bl_reports c s -> worked raws l rs s s' ->
  bl_timer s' (EvReport c) = (if bl_wants c s' then Some 1%N else bl_timer s (EvReport c)) -> bl_reports c s'.
Proof.
  intros [A B C D] [E1 E2 E3 E4 E5 E6 E7 E8 E9 E10] H. destruct (host_has_sent c _ _ E8) as [F1 F2]. constructor.
  - now rewrite E5, E4, A, last_app_def.
  - now rewrite E6, F1.
  - rewrite F2, E4. cbn [map]. rewrite map_app. exact (sampled_app _ (_ :: _) _ C).
  - rewrite H. intros t. destruct (bl_wants c s'); [intros K; injection K as <-; lia|apply D].
Qed.
Lemma bytes_eqb_false_or a b : bytes_eqb a b = true -> a = b.
Proof. apply bytes_eqb_spec. Qed.
Lemma wants_synced c raws l rs s s' : worked raws l rs s s' ->
  bl_timer s' (EvReport c) = (if bl_wants c s' then Some 1%N else bl_timer s (EvReport c)) -> bl_synced c s'.
Proof.
  intros W H. unfold bl_synced, due_evt. rewrite H. unfold bl_wants.
  destruct (bytes_eqb (ble_part c (bl_hid s')) (bl_prev s' c)) eqn:E; cbn [negb orb].
  - left. symmetry. now apply bytes_eqb_spec.
  - right. right. discriminate.
Qed.
Lemma chan_eqb_refl c : chan_eqb c c = true.
Proof. now apply chan_eqb_spec. Qed.
Lemma do_reports c a s s' : bl_reports c s -> bl_do conf fuel s a = Ok s' -> bl_reports c s'.
Proof.
  intros I H. destruct a as [| |raw ok]; cbn [bl_do] in H.
  - inv_ok H. destruct I as [A B C D]. constructor; auto. cbn [bl_unit bl_timer]. intros t Ht. destruct (bl_timer s (EvReport c)) as [t1|]; [|discriminate].
    specialize (D t1 eq_refl). rewrite (proj2 (N.leb_le _ _) D) in Ht. discriminate.
  - inv_ok H. unfold bl_gpio. destruct (bl_irq s); [|exact I]. destruct I. constructor; auto.
  - unfold bl_task in H. destruct (bl_next s) as [e|] eqn:En; [|now inv_ok H].
    assert (I0 : bl_reports c (bl_clear e s)) by (destruct I; constructor; auto). clear I. set (s0 := bl_clear e s) in *. clearbody s0. destruct e as [| | |d|].
    + inv_ok H. destruct I0 as [A B C D]. constructor; auto.
    + destruct (on_scan_worked _ _ _ H) as (l & rs & W & _ & _ & _ & _ & _ & K). eapply reports_worked; eauto.
    + destruct (on_timeout_worked _ _ H) as (rs & W & _ & _ & K). eapply reports_worked; eauto.
    + inv_ok H. destruct I0 as [A B C D]. constructor; cbn [bl_on_report bl_hid bl_made bl_prev bl_timer]; auto.
      * unfold host_has, delivered. cbn [bl_sent bl_on_report]. rewrite filter_map_app. cbn [filter_map fst snd]. destruct (chan_eqb d c) eqn:Ec.
        -- apply chan_eqb_spec in Ec. subst d. cbn [andb]. destruct ok; [|now rewrite app_nil_r]. rewrite last_last. unfold set_chan_bytes. now rewrite chan_eqb_refl.
        -- cbn [andb]. rewrite app_nil_r. destruct ok; [|exact B]. unfold set_chan_bytes. destruct (chan_eqb c d) eqn:Ed; [apply chan_eqb_spec in Ed; subst; rewrite chan_eqb_refl in Ec; discriminate|]. exact B.
      * unfold offered. cbn [bl_sent bl_on_report]. rewrite filter_map_app. cbn [filter_map fst snd]. destruct (chan_eqb d c) eqn:Ec; [|now rewrite app_nil_r].
        apply chan_eqb_spec in Ec. subst d. rewrite A. cbn [map] in *. replace (ble_part c (last (bl_made s0) report_zero)) with (last (map (ble_part c) (bl_made s0)) (ble_part c report_zero)).
        { now apply sampled_send. }
        destruct (bl_made s0) as [|x m _] using rev_ind; [reflexivity|]. rewrite map_app. cbn [map]. now rewrite !last_last.
    + destruct (on_tick_worked _ _ _ H) as (l & r & W & _ & _ & _ & _ & K). eapply reports_worked; eauto.
Qed.
Lemma run_reports c l : forall s s', bl_reports c s -> bl_run conf fuel l s = Ok s' -> bl_reports c s'.
Proof.
  induction l as [|a l IH]; intros s s' I H; cbn [bl_run fold_res] in H; [now inv_ok H|]. inv_bind H. eapply IH; [|exact H]. eapply do_reports; eauto.
Qed.

(** A step that does not fail keeps: sent, or due. *)
Lemma do_synced c a s s' : bl_synced c s -> (forall raw ok, a = BlTask raw ok -> ok = true) -> bl_do conf fuel s a = Ok s' -> bl_synced c s'.
Proof.
  intros I Ha H. destruct a as [| |raw ok]; cbn [bl_do] in H.
  - inv_ok H. destruct I as [I|I]; [now left|right]. unfold due_evt in *. cbn [bl_unit bl_set bl_timer]. destruct I as [I|I].
    + left. rewrite I. destruct (bl_timer s (EvReport c)); reflexivity.
    + destruct (bl_timer s (EvReport c)) as [t|]; [|contradiction]. destruct (t <=? 1)%N; [left; apply orb_true_r|right; discriminate].
  - inv_ok H. unfold bl_gpio. destruct (bl_irq s); [|exact I]. destruct I as [I|I]; [now left|right]. unfold due_evt in *. bcbn. rewrite set_evt_other by discriminate. exact I.
  - specialize (Ha raw ok eq_refl). subst ok. unfold bl_task in H. destruct (bl_next s) as [e|] eqn:En; [|now inv_ok H]. destruct e as [| | |d|].
    + inv_ok H. destruct I as [I|I]; [now left|right]. unfold due_evt, bl_on_wake in *. bcbn. rewrite !set_evt_other by discriminate. exact I.
    + destruct (on_scan_worked _ _ _ H) as (l & rs & W & _ & _ & _ & _ & _ & K). eapply wants_synced; eauto.
    + destruct (on_timeout_worked _ _ H) as (rs & W & _ & _ & K). eapply wants_synced; eauto.
    + inv_ok H. unfold bl_synced, due_evt in *. cbn [bl_on_report bl_prev bl_hid bl_set bl_timer bl_clear]. unfold set_chan_bytes. destruct (chan_eqb c d) eqn:Ec.
      * left. apply chan_eqb_spec in Ec. now subst.
      * rewrite set_evt_other; [exact I|]. intros X. injection X as ->. rewrite chan_eqb_refl in Ec. discriminate.
    + destruct (on_tick_worked _ _ _ H) as (l & r & W & _ & _ & _ & _ & K). eapply wants_synced; eauto.
Qed.
Lemma run_synced c l : forall s s', bl_synced c s -> all_succeed l -> bl_run conf fuel l s = Ok s' -> bl_synced c s'.
Proof.
  induction l as [|a l IH]; intros s s' I Hl H; cbn [bl_run fold_res] in H; [now inv_ok H|]. inv_bind H. eapply IH; [| |exact H].
  - eapply do_synced; [exact I| |exact E]. intros raw ok ->. apply (Hl raw ok). now left.
  - intros raw ok Hin. apply (Hl raw ok). now right.
Qed.

(** Once the timer has run out, the report is sent or the event is set, as long as the keymap makes no new report. *)
Definition bl_pend (c : chan) (s : ble) : Prop := bl_prev s c = ble_part c (bl_hid s) \/ bl_set s (EvReport c) = true.
Lemma unit_pend c s : bl_reports c s -> bl_synced c s -> bl_pend c (bl_unit s).
Proof.
  intros [A B C D] [I|[I|I]]; [now left|right|right]; cbn [bl_unit bl_set].
  - rewrite I. destruct (bl_timer s (EvReport c)); reflexivity.
  - destruct (bl_timer s (EvReport c)) as [t|]; [|contradiction]. rewrite (proj2 (N.leb_le _ _) (D t eq_refl)). apply orb_true_r.
Qed.
Lemma worked_made raws l rs s s' : worked raws l rs s s' -> bl_made s' = bl_made s -> rs = [].
Proof. intros [] H. rewrite wk_made0 in H. symmetry in H. now apply app_self_nil in H. Qed.
Lemma do_made a s s' : bl_do conf fuel s a = Ok s' -> exists rs, bl_made s' = bl_made s ++ rs.
Proof.
  intros H. destruct a as [| |raw ok]; cbn [bl_do] in H.
  - inv_ok H. exists []. now rewrite app_nil_r.
  - inv_ok H. exists []. unfold bl_gpio. destruct (bl_irq s); now rewrite app_nil_r.
  - unfold bl_task in H. destruct (bl_next s) as [e|] eqn:En; [|inv_ok H; exists []; now rewrite app_nil_r]. destruct e as [| | |c|].
    + inv_ok H. exists []. now rewrite app_nil_r.
    + destruct (on_scan_worked _ _ _ H) as (l & rs & W & _). eexists. exact (wk_made _ _ _ _ _ W).
    + destruct (on_timeout_worked _ _ H) as (rs & W & _). eexists. exact (wk_made _ _ _ _ _ W).
    + inv_ok H. exists []. now rewrite app_nil_r.
    + destruct (on_tick_worked _ _ _ H) as (l & r & W & _). eexists. exact (wk_made _ _ _ _ _ W).
Qed.
Lemma run_made l : forall s s', bl_run conf fuel l s = Ok s' -> exists rs, bl_made s' = bl_made s ++ rs.
Proof.
  induction l as [|a l IH]; intros s s' H; cbn [bl_run fold_res] in H.
  - inv_ok H. exists []. now rewrite app_nil_r.
  - inv_bind H. destruct (do_made _ _ _ E) as (r1 & R1). destruct (IH _ _ H) as (r2 & R2). exists (r1 ++ r2). rewrite R2, R1. now rewrite app_assoc.
Qed.
Lemma pend_worked c raws l rs s s' e : worked raws l rs (bl_clear e s) s' -> e <> EvReport c -> bl_made s' = bl_made s -> bl_pend c s -> bl_pend c s'.
Proof.
  intros W He Hm I. assert (X := worked_made _ _ _ _ _ W Hm). subst rs. destruct W as [E1 E2 E3 E4 E5 E6 E7 E8 E9 E10]. unfold bl_pend in *.
  rewrite E6, E5, E10. bcbn. cbn [last]. rewrite set_evt_other by congruence. exact I.
Qed.
Lemma do_pend c a s s' : bl_pend c s -> (forall raw ok, a = BlTask raw ok -> ok = true) -> bl_do conf fuel s a = Ok s' -> bl_made s' = bl_made s -> bl_pend c s'.
Proof.
  intros I Ha H Hm. destruct a as [| |raw ok]; cbn [bl_do] in H.
  - inv_ok H. destruct I as [I|I]; [now left|right]. cbn [bl_unit bl_set]. rewrite I. destruct (bl_timer s (EvReport c)); reflexivity.
  - inv_ok H. unfold bl_gpio. destruct (bl_irq s); [|exact I]. destruct I as [I|I]; [now left|right]. bcbn. rewrite set_evt_other by discriminate. exact I.
  - specialize (Ha raw ok eq_refl). subst ok. unfold bl_task in H. destruct (bl_next s) as [e|] eqn:En; [|now inv_ok H]. destruct e as [| | |d|].
    + inv_ok H. destruct I as [I|I]; [now left|right]. unfold bl_on_wake in *. bcbn. rewrite set_evt_other by discriminate. exact I.
    + destruct (on_scan_worked _ _ _ H) as (l & rs & W & _). eapply pend_worked; eauto; discriminate.
    + destruct (on_timeout_worked _ _ H) as (rs & W & _). eapply pend_worked; eauto; discriminate.
    + inv_ok H. unfold bl_pend in *. cbn [bl_on_report bl_prev bl_hid bl_set bl_timer bl_clear]. unfold set_chan_bytes. destruct (chan_eqb c d) eqn:Ec.
      * left. apply chan_eqb_spec in Ec. now subst.
      * rewrite set_evt_other; [exact I|]. intros X. injection X as ->. rewrite chan_eqb_refl in Ec. discriminate.
    + destruct (on_tick_worked _ _ _ H) as (l & r & W & _). eapply pend_worked; eauto; discriminate.
Qed.
Lemma run_pend c l : forall s s', bl_pend c s -> all_succeed l -> bl_run conf fuel l s = Ok s' -> bl_made s' = bl_made s -> bl_pend c s'.
Proof.
  induction l as [|a l IH]; intros s s' I Hl H Hm; cbn [bl_run fold_res] in H; [now inv_ok H|]. inv_bind H.
  assert (Hm1 : bl_made a0 = bl_made s).
  { destruct (do_made _ _ _ E) as (r1 & R1). destruct (run_made _ _ _ H) as (r2 & R2). rewrite R2, R1 in Hm. symmetry in Hm. rewrite <- app_assoc in Hm. apply app_self_nil in Hm.
    apply app_eq_nil in Hm. destruct Hm as [-> _]. now rewrite app_nil_r in R1. }
  eapply IH; [| |exact H|congruence].
  - eapply do_pend; [exact I| |exact E|exact Hm1]. intros raw ok ->. apply (Hl raw ok). now left.
  - intros raw ok Hin. apply (Hl raw ok). now right.
Qed.

(** *** The keymap's clock *)
Local Notation clk k := (sc_counter (km_sched k)).
Lemma report_output_clock (k k' : km) kos : km_report_output conf k = Ok (k', kos) -> clk k' = clk k /\ km_ms_per_tick k' = km_ms_per_tick k.
Proof. unfold km_report_output. intros H. inv_bind H. inv_ok H. auto. Qed.
Lemma tick_clock (k k' : km) r : keymap_tick conf fuel k = Ok (k', r) -> clk k' = (clk k + km_ms_per_tick k)%N /\ km_ms_per_tick k' = km_ms_per_tick k.
Proof.
  unfold keymap_tick. intros H. inv_bind H. inv_bind H. destruct a0 as [k2 kos]. inv_bind H. inv_ok H.
  destruct (frame_of_tick _ _ _ _ E) as (A & B & _). destruct (report_output_clock _ _ _ E0) as (C & D). split; congruence.
Qed.
Lemma event_clock e (k k' : km) : keymap_register_input_event conf fuel e k = Ok k' -> clk k' = clk k /\ km_ms_per_tick k' = km_ms_per_tick k.
Proof. intros H. apply frame_of_handle_input in H as (A & B & _). auto. Qed.
Lemma after_clock d e (k k' : km) r t : keymap_register_input_after_ms conf fuel d e k = Ok (k', r, t) ->
  clk k' = (clk k + (if d =? 0 then 1 else d / km_ms_per_tick k) * km_ms_per_tick k)%N /\ km_ms_per_tick k' = km_ms_per_tick k.
Proof.
  unfold keymap_register_input_after_ms, km_handle_input_after_time. intros H. inv_bind H. destruct a as [k1 nxt]. inv_bind H. destruct a as [k2 kos]. inv_bind H. inv_bind H. inv_ok H.
  inv_bind E. inv_bind E. inv_bind E. destruct (tick_by_clock _ _ _ _ _ E3) as (A & B). apply frame_of_handle_input in E4 as (C & D & _).
  assert (X : k1 = a0). { destruct a1 as [t1|]; [destruct (_ && _); [discriminate|]|]; now inv_ok E. } subst a0.
  destruct (report_output_clock _ _ _ E0) as (F & G). split; congruence.
Qed.

Definition nev (s : ble) : N := N.of_nat (length (ble_events (bl_calls s))).
(** The time of the last update. *)
Definition ck (c0 T : N) (s : ble) : Prop :=
  km_ms_per_tick (bl_keymap s) = 8%N /\ bl_time s = (T mod 2 ^ 32)%N /\ (T <= bl_now s)%N
  /\ (3 * clk (bl_keymap s) <= 3 * c0 + 2 * T + 24 * nev s)%N.
Lemma nev_called c r k s : nev (bl_set_time (bl_report r (bl_called c k s))) = (nev s + N.of_nat (length (ble_events [c])))%N.
Proof. unfold nev. bcbn. rewrite ble_events_app, app_length. lia. Qed.
Lemma delta_bound now T : (T <= now)%N -> let d := ms_of_tmos ((now + 2 ^ 32 - T mod 2 ^ 32) mod 2 ^ 32)%N in (1000 * d <= 625 * (now - T))%N.
Proof.
  intros H. cbn zeta. unfold ms_of_tmos.
  assert (A : ((now + 2 ^ 32 - T mod 2 ^ 32) mod 2 ^ 32 <= now - T)%N).
  { assert (M : (2 ^ 32 <> 0)%N) by discriminate. set (m := (2 ^ 32)%N) in *. assert (B := N.mod_lt T m M). assert (D := N.div_mod T m M). assert (E := N.div_mod now m M). assert (B' := N.mod_lt now m M).
    assert (F : (now + m - T mod m = (now - T) + (T / m + 1) * m)%N) by lia. rewrite F, N.mod_add by exact M. apply N.mod_le. exact M. }
  set (D := ((now + 2 ^ 32 - T mod 2 ^ 32) mod 2 ^ 32)%N) in *. clearbody D.
  assert (B : (D * 625 mod 2 ^ 32 <= D * 625)%N) by (apply N.mod_le; discriminate).
  set (y := (D * 625 mod 2 ^ 32)%N) in *. clearbody y. assert (C := N.mul_div_le y 1000 ltac:(discriminate)). lia.
Qed.
Lemma after_fold_ck ch c0 : forall s t s' t' T, ck c0 T s -> fold_res (bl_after conf fuel) ch (s, t) = Ok (s', t') ->
  exists T', ck c0 T' s' /\ bl_now s' = bl_now s.
Proof.
  induction ch as [|c ch IH]; intros s t s' t' T I H; cbn [fold_res] in H; [inv_ok H; eauto|].
  inv_bind H. unfold bl_after in E. cbn [fst snd] in E. inv_bind E. destruct a0 as [[k r] t1]. inv_ok E.
  set (d := ms_of_tmos ((bl_now s + 2 ^ 32 - bl_time s) mod 2 ^ 32)%N) in *. destruct I as (A & B & C & D).
  match type of H with fold_res _ _ (bl_set_time (bl_report _ (bl_called (BcAfter ?x _) _ _)), _) = _ => change x with d in H end.
  destruct (after_clock _ _ _ _ _ _ E0) as (F & G).
  assert (Hd := delta_bound _ _ C). cbn zeta in Hd. rewrite <- B in Hd. fold d in Hd. clearbody d.
  assert (I' : ck c0 (bl_now s) (bl_set_time (bl_report r (bl_called (BcAfter d (state_changed (fst c) (snd c))) k s)))).
  { split; [bcbn; congruence|]. split; [reflexivity|]. split; [bcbn; lia|]. rewrite nev_called. bcbn. rewrite F, A. cbn [ble_events filter_map length].
    destruct (d =? 0)%N eqn:Ed; [lia|]. assert (X := N.mul_div_le d 8 ltac:(discriminate)). lia. }
  destruct (IH _ _ _ _ _ I' H) as (T' & I'' & J). eauto.
Qed.
Lemma event_fold_ck ch c0 T : forall s s', ck c0 T s -> fold_res (bl_event conf fuel) ch s = Ok s' -> ck c0 T s' /\ bl_now s' = bl_now s.
Proof.
  induction ch as [|c ch IH]; intros s s' I H; cbn [fold_res] in H; [inv_ok H; eauto|].
  inv_bind H. unfold bl_event in E. inv_bind E. inv_ok E. destruct I as (A & B & C & D). destruct (event_clock _ _ _ E0) as (F & G).
  apply IH in H; [exact H|]. split; [bcbn; congruence|]. split; [exact B|]. split; [exact C|].
  unfold nev. bcbn. rewrite ble_events_app, app_length, F. unfold nev in D. lia.
Qed.
(** A tick is at least 12 units after the last update. *)
Definition ckt (c0 : N) (s : ble) : Prop :=
  exists T, ck c0 T s /\ (forall t, bl_timer s EvTick = Some t -> (T + 12 <= bl_now s + t)%N) /\ (bl_set s EvTick = true -> (T + 12 <= bl_now s)%N).
Lemma scan_ck raw c0 T s s' ch : ck c0 T s -> bl_scan raw s = (s', ch) -> ck c0 T s' /\ bl_now s' = bl_now s.
Proof. unfold bl_scan. destruct (ble_matrix_scan raw (bl_matrix s)) as [m c]. intros I H. injection H as <- <-. split; [exact I|reflexivity]. Qed.
Lemma core_ck c0 T s s' : ck c0 T s -> same_core s s' -> bl_time s' = bl_time s -> ck c0 T s'.
Proof. intros (A & B & C & D) (A1 & A2 & A3 & A4 & A5 & A6 & A7 & A8 & A9 & A10) E. unfold ck, nev in *. rewrite A2, A5, A6, E. auto. Qed.
Lemma do_ckt c0 a s s' : bl_token s -> ckt c0 s -> bl_do conf fuel s a = Ok s' -> ~ In BcNext (bl_calls s') -> ckt c0 s'.
Proof.
  intros Tk I H Hn. destruct a as [| |raw ok]; cbn [bl_do] in H.
  - inv_ok H. destruct I as (T & (A & B & C & D) & E & F). exists T. split; [|split].
    + split; [exact A|]. split; [exact B|]. split; [cbn; lia|exact D].
    + cbn [bl_unit bl_timer bl_now]. intros t Ht. destruct (bl_timer s EvTick) as [t1|]; [|discriminate]. specialize (E t1 eq_refl). destruct (t1 <=? 1)%N eqn:E1; [discriminate|]. apply N.leb_gt in E1. injection Ht as <-. lia.
    + cbn [bl_unit bl_timer bl_now bl_set]. intros Hs. destruct (bl_timer s EvTick) as [t1|]; [|specialize (F Hs); lia]. specialize (E t1 eq_refl).
      destruct (bl_set s EvTick) eqn:Es; [specialize (F eq_refl); lia|]. cbn [orb] in Hs. apply N.leb_le in Hs. lia.
  - inv_ok H. unfold bl_gpio. destruct (bl_irq s); [|exact I]. destruct I as (T & A & B & C). exists T. split; [exact A|]. split; [exact B|]. bcbn. rewrite set_evt_other by discriminate. exact C.
  - unfold bl_task in H. destruct (bl_next s) as [e|] eqn:En; [|now inv_ok H]. apply next_set in En. destruct I as (T & A & B & C). destruct e as [| | |d|].
    + inv_ok H. unfold bl_on_wake. exists T. split; [exact A|]. bcbn. rewrite !set_evt_other by discriminate. auto.
    + destruct (on_scan_worked _ _ _ H) as (l & rs & W & _ & _ & K2 & _).
      assert (Es : bl_set s EvTick = false). { destruct Tk as [X _ _ _ _]. rewrite En in X. destruct (bl_set s EvTick); [|reflexivity]. cbn [nb] in X. lia. }
      assert (Eset : bl_set s' EvTick = false). { rewrite (wk_set _ _ _ _ _ W). bcbn. rewrite set_evt_other by discriminate. exact Es. }
      unfold bl_on_scan in H. destruct (bl_scan raw (bl_clear EvScan s)) as [s1 ch] eqn:E1. destruct (scan_ck _ c0 T (bl_clear EvScan s) _ _ A E1) as (I1 & N1). inv_bind H. destruct a as [s2 t].
      destruct (after_fold_ck _ _ _ _ _ _ _ I1 E) as (T' & I2 & N2). inv_ok H.
      set (s3 := if negb (bl_pending s2) && (0 <? t)%N then bl_set_pending true (bl_start EvTimeout (tmos_of_ms t) s2) else s2) in *.
      assert (K3 : same_core s2 s3 /\ bl_time s3 = bl_time s2) by (unfold s3; destruct (_ && _); repeat split).
      destruct (requests_rest (bl_start EvTick 12 s3)) as (Q1 & _ & Q3 & _). exists T'. split; [|split].
      * eapply core_ck; [exact I2| |rewrite Q3; exact (proj2 K3)]. eapply same_core_trans; [exact (proj1 K3)|]. eapply same_core_trans; [|exact Q1]. repeat split.
      * rewrite K2. intros t0 Ht. injection Ht as <-. destruct I2 as (_ & _ & I2 & _). destruct Q1 as (_ & _ & _ & _ & Q1 & _). rewrite Q1. bcbn. destruct K3 as [(_ & _ & _ & _ & K3 & _) _]. rewrite K3. lia.
      * intros X. bcbn. congruence.
    + exfalso. apply Hn. destruct (on_timeout_worked _ _ H) as (rs & W & _). rewrite (wk_calls _ _ _ _ _ W). apply in_or_app. right. now left.
    + inv_ok H. exists T. split; [exact A|]. cbn [bl_on_report bl_clear bl_timer bl_now bl_set]. rewrite set_evt_other by discriminate. auto.
    + destruct (on_tick_worked _ _ _ H) as (l & r & W & _ & K2 & _).
      assert (Et : bl_timer s EvTick = None). { destruct Tk as [X _ _ _ _]. rewrite En in X. destruct (bl_timer s EvTick); [|reflexivity]. cbn [nb nt] in X. lia. }
      assert (Eset : bl_set s' EvTick = false). { rewrite (wk_set _ _ _ _ _ W). bcbn. apply set_evt_same. }
      assert (Hnow := wk_now _ _ _ _ _ W).
      unfold bl_on_tick in H. destruct (bl_scan raw (bl_clear EvTick s)) as [s1 ch] eqn:E1. destruct (scan_ck _ c0 T (bl_clear EvTick s) _ _ A E1) as (I1 & N1). inv_bind H.
      destruct (event_fold_ck _ _ _ _ _ I1 E) as (I2 & N2). inv_bind H. destruct a0 as [k r0]. inv_ok H.
      destruct (tick_clock _ _ _ E0) as (F & G). destruct I2 as (J1 & J2 & J3 & J4).
      set (s3 := bl_set_time (bl_report r0 (bl_called BcTick k a))) in *.
      assert (I3 : ck c0 (bl_now s) s3).
      { split; [unfold s3; bcbn; congruence|]. split; [unfold s3; bcbn; congruence|]. split; [unfold s3; bcbn; rewrite N2, N1; lia|]. unfold s3. rewrite nev_called. bcbn.
        rewrite F, J1. cbn [ble_events filter_map length]. specialize (C En). lia. }
      match goal with |- ckt _ (bl_requests ?x) => set (s4 := x) in * end.
      assert (K4 : same_core s3 s4 /\ bl_time s4 = bl_time s3) by (unfold s4; destruct (_ || _); repeat split).
      destruct (requests_rest s4) as (Q1 & _ & Q3 & _). exists (bl_now s). split; [|split].
      * eapply core_ck; [exact I3|eapply same_core_trans; [exact (proj1 K4)|exact Q1]|rewrite Q3; exact (proj2 K4)].
      * intros t Ht. destruct K2 as [(_ & K2)|(_ & K2 & _)]; [|bcbn; congruence]. rewrite K2 in Ht. injection Ht as <-. rewrite Hnow. bcbn. lia.
      * congruence.
Qed.
Lemma do_calls a s s' : bl_do conf fuel s a = Ok s' -> exists cs, bl_calls s' = bl_calls s ++ cs.
Proof.
  intros H. destruct a as [| |raw ok]; cbn [bl_do] in H.
  - inv_ok H. exists []. now rewrite app_nil_r.
  - inv_ok H. exists []. unfold bl_gpio. destruct (bl_irq s); now rewrite app_nil_r.
  - unfold bl_task in H. destruct (bl_next s) as [e|] eqn:En; [|inv_ok H; exists []; now rewrite app_nil_r]. destruct e as [| | |c|].
    + inv_ok H. exists []. now rewrite app_nil_r.
    + destruct (on_scan_worked _ _ _ H) as (l & rs & W & _). eexists. exact (wk_calls _ _ _ _ _ W).
    + destruct (on_timeout_worked _ _ H) as (rs & W & _). eexists. exact (wk_calls _ _ _ _ _ W).
    + inv_ok H. exists []. now rewrite app_nil_r.
    + destruct (on_tick_worked _ _ _ H) as (l & r & W & _). eexists. exact (wk_calls _ _ _ _ _ W).
Qed.
Lemma run_calls l : forall s s', bl_run conf fuel l s = Ok s' -> exists cs, bl_calls s' = bl_calls s ++ cs.
Proof.
  induction l as [|a l IH]; intros s s' H; cbn [bl_run fold_res] in H.
  - inv_ok H. exists []. now rewrite app_nil_r.
  - inv_bind H. destruct (do_calls _ _ _ E) as (r1 & R1). destruct (IH _ _ H) as (r2 & R2). exists (r1 ++ r2). rewrite R2, R1. now rewrite app_assoc.
Qed.
Lemma run_ckt c0 l : forall s s', bl_token s -> ckt c0 s -> bl_run conf fuel l s = Ok s' -> ~ In BcNext (bl_calls s') -> ckt c0 s'.
Proof.
  induction l as [|a l IH]; intros s s' Tk I H Hn; cbn [bl_run fold_res] in H; [now inv_ok H|]. inv_bind H.
  eapply IH; [eapply do_token; eauto| |exact H|exact Hn]. eapply do_ckt; eauto.
  intros X. apply Hn. destruct (run_calls _ _ _ H) as (cs & ->). apply in_or_app. auto.
Qed.
Lemma ckt_new keys k : ckt (clk (km_init k)) (ble_new keys k).
Proof. exists 0%N. split; [|split; [discriminate|discriminate]]. split; [reflexivity|]. split; [reflexivity|]. split; [cbn; lia|]. cbn [ble_new bl_keymap]. unfold keymap_set_ms_per_tick, km_set_ms_per_tick, keymap_init. cbn. lia. Qed.

(** *** Asleep *)
Lemma next_timeout_ms (k k' : km) r t : keymap_next_event_timeout conf fuel k = Ok (k', r, t) -> km_ms_per_tick k' = km_ms_per_tick k.
Proof.
  unfold keymap_next_event_timeout, km_tick_to_next. intros H. inv_bind H. destruct a as [k1 nxt]. inv_bind H. destruct a as [k2 kos]. inv_bind H. inv_bind H. inv_ok H.
  destruct (report_output_clock _ _ _ E0) as (_ & A). rewrite A. inv_bind E. destruct a as [d|]; [|now inv_ok E]. inv_bind E. inv_bind E. inv_ok E. apply (tick_by_clock conf fuel d k k1). assumption.
Qed.
Lemma plain_ms l : forall (k k' : km) rs, ble_plain conf fuel l k = Ok (k', rs) -> km_ms_per_tick k' = km_ms_per_tick k.
Proof.
  induction l as [|c l IH]; intros k k' rs H; cbn [ble_plain] in H; [now inv_ok H|]. inv_bind H. destruct a as [k1 r1]. inv_bind H. destruct a as [k2 r2]. inv_ok H.
  rewrite (IH _ _ _ E0). destruct c as [d e|e| |]; cbn [ble_call_plain] in E; inv_bind E.
  - destruct a as [[k3 r3] t]. inv_ok E. now destruct (after_clock _ _ _ _ _ _ E1).
  - inv_ok E. now destruct (event_clock _ _ _ E1).
  - destruct a as [[k3 r3] t]. inv_ok E. eapply next_timeout_ms; eauto.
  - destruct a as [k3 r3]. inv_ok E. now destruct (tick_clock _ _ _ E1).
Qed.
Lemma hist_ms keys k s : bl_hist keys (keymap_set_ms_per_tick (keymap_init k) 8%N) s -> km_ms_per_tick (bl_keymap s) = 8%N.
Proof. intros I. exact (plain_ms _ _ _ _ (bh_plain _ _ _ I)). Qed.

Lemma asleep_next s e : bl_token s -> bl_irq s = true -> bl_next s = Some e -> e = EvTimeout \/ exists c, e = EvReport c.
Proof.
  intros T Hi H. apply next_set in H. destruct e as [| | |c|]; eauto.
  all: exfalso; apply (token_asleep _ T Hi); unfold will_scan, due_evt; auto.
Qed.
Lemma do_asleep_quiet a s s' : bl_token s -> bl_irq s = true -> ~ due_evt EvTimeout s -> a <> BlGpio -> bl_do conf fuel s a = Ok s' ->
  bl_irq s' = true /\ ~ due_evt EvTimeout s' /\ bl_keymap s' = bl_keymap s /\ bl_calls s' = bl_calls s.
Proof.
  intros T Hi Hd Ha H. destruct a as [| |raw ok]; [|contradiction|]; cbn [bl_do] in H.
  - inv_ok H. repeat split; auto. intros X. apply Hd. unfold due_evt in *. cbn [bl_unit bl_set bl_timer] in X.
    destruct (bl_timer s EvTimeout) as [t|]; [right; discriminate|]. destruct X as [X|X]; [now left|contradiction].
  - unfold bl_task in H. destruct (bl_next s) as [e|] eqn:En; [|inv_ok H; auto]. destruct (asleep_next _ _ T Hi En) as [->|(c & ->)].
    + exfalso. apply Hd. left. now apply next_set.
    + inv_ok H. repeat split; auto.
Qed.
Lemma run_asleep_quiet l : forall s s', bl_token s -> bl_irq s = true -> ~ due_evt EvTimeout s -> ~ In BlGpio l -> bl_run conf fuel l s = Ok s' ->
  bl_irq s' = true /\ bl_keymap s' = bl_keymap s /\ bl_calls s' = bl_calls s.
Proof.
  induction l as [|a l IH]; intros s s' T Hi Hd Hg H; cbn [bl_run fold_res] in H; [inv_ok H; auto|]. inv_bind H.
  destruct (do_asleep_quiet _ _ _ T Hi Hd (fun X => Hg (or_introl X)) E) as (A & B & C & D).
  destruct (IH _ _ (do_token _ _ _ T E) A B (fun X => Hg (or_intror X)) H) as (F & G & J). repeat split; congruence.
Qed.
Lemma next_timeout_stuck (k k' : km) r t d : km_ms_per_tick k = 8%N -> next_event_time (km_sched k) = Ok (Some d) -> (0 < d < 8)%N ->
  keymap_next_event_timeout conf fuel k = Ok (k', r, t) -> km_sched k' = km_sched k /\ km_ms_per_tick k' = 8%N /\ t = d.
Proof.
  intros Hm Hn Hd. unfold keymap_next_event_timeout, km_tick_to_next. rewrite Hn. cbn [bind]. unfold km_tick_by.
  destruct (d =? 0)%N eqn:E0; [apply N.eqb_eq in E0; lia|]. rewrite Hm. cbn [N.eqb]. rewrite (N.div_small d 8) by lia. cbn [N.to_nat tick_n bind]. rewrite Hn. cbn [bind].
  intros H. inv_bind H. destruct a as [k2 kos]. inv_bind H. inv_bind H. inv_ok H. unfold km_report_output in E. inv_bind E. inv_ok E. repeat split; [exact Hm|].
  unfold c_timeout in E2. rewrite E0 in E2. cbn [andb] in E2. now inv_ok E2.
Qed.
Lemma do_asleep_stuck a s s' d : bl_token s -> bl_irq s = true -> km_ms_per_tick (bl_keymap s) = 8%N -> next_event_time (km_sched (bl_keymap s)) = Ok (Some d) -> (0 < d < 8)%N ->
  a <> BlGpio -> bl_do conf fuel s a = Ok s' ->
  bl_irq s' = true /\ km_ms_per_tick (bl_keymap s') = 8%N /\ km_sched (bl_keymap s') = km_sched (bl_keymap s).
Proof.
  intros T Hi Hm Hn Hd Ha H. destruct a as [| |raw ok]; [|contradiction|]; cbn [bl_do] in H.
  - inv_ok H. auto.
  - unfold bl_task in H. destruct (bl_next s) as [e|] eqn:En; [|inv_ok H; auto]. destruct (asleep_next _ _ T Hi En) as [->|(c & ->)]; [|inv_ok H; auto].
    destruct (on_timeout_worked _ _ H) as (rs & W & K & _). assert (P := wk_plain _ _ _ _ _ W). cbn [ble_plain ble_call_plain] in P. inv_bind P. destruct a as [k1 r1]. inv_bind E. destruct a as [[k2 r2] t2]. inv_ok E. cbn [bind] in P. inv_ok P.
    bcbn. destruct (next_timeout_stuck _ _ _ _ _ Hm Hn Hd E0) as (A & B & C). split; [congruence|]. auto.
Qed.
Lemma run_asleep_stuck l d : (0 < d < 8)%N -> forall s s', bl_token s -> bl_irq s = true -> km_ms_per_tick (bl_keymap s) = 8%N -> next_event_time (km_sched (bl_keymap s)) = Ok (Some d) ->
  ~ In BlGpio l -> bl_run conf fuel l s = Ok s' -> bl_irq s' = true /\ km_sched (bl_keymap s') = km_sched (bl_keymap s).
Proof.
  intros Hd. induction l as [|a l IH]; intros s s' T Hi Hm Hn Hg H; cbn [bl_run fold_res] in H; [inv_ok H; auto|]. inv_bind H.
  destruct (do_asleep_stuck _ _ _ _ T Hi Hm Hn Hd (fun X => Hg (or_introl X)) E) as (A & B & C).
  assert (Hn' : next_event_time (km_sched (bl_keymap a0)) = Ok (Some d)) by (rewrite C; exact Hn).
  destruct (IH _ _ (do_token _ _ _ T E) A B Hn' (fun X => Hg (or_intror X)) H) as (F & G). split; congruence.
Qed.
End Task.
