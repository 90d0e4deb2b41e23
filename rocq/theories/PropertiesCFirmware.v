(** Theorems C53 and C54: matrix scanning and debouncing in the C firmware. *)
From Verif Require Import Base Output Types Split CApi CFirmware SpecCFirmware BaseFacts CFirmwareFacts.
Local Open Scope N_scope.

(** C53: a scan reads every key off its own switch, whatever else is pressed, and
    leaves every driven line high; both ways of wiring the diodes agree.  It is
    enough that no line but the first was low before: that is how
    [keyboard_init] leaves them. *)
Theorem C53_scan_col_to_row : forall rows cols closed idx low buf,
  wiring_ok rows cols (length buf) idx ->
  length low = rows -> (forall e, e <> 0%nat -> nth e low false = false) ->
  exists buf', col_to_row_scan rows cols closed idx low buf = Ok (repeat false rows, buf')
    /\ length buf' = length buf
    /\ (forall r c i, (r < rows)%nat -> (c < cols)%nat -> idx r c = Some i -> nth_error buf' i = Some (closed r c))
    /\ forall i, (forall r c, (r < rows)%nat -> (c < cols)%nat -> idx r c <> Some i) ->
         nth_error buf' i = nth_error buf i.
Proof. intros rows cols closed idx low buf. apply scan_raw_ok. Qed.
Print Assumptions C53_scan_col_to_row.

Theorem C53_scan_row_to_col : forall rows cols closed idx low buf,
  wiring_ok rows cols (length buf) idx ->
  length low = cols -> (forall e, e <> 0%nat -> nth e low false = false) ->
  exists buf', row_to_col_scan rows cols closed idx low buf = Ok (repeat false cols, buf')
    /\ length buf' = length buf
    /\ (forall r c i, (r < rows)%nat -> (c < cols)%nat -> idx r c = Some i -> nth_error buf' i = Some (closed r c))
    /\ forall i, (forall r c, (r < rows)%nat -> (c < cols)%nat -> idx r c <> Some i) ->
         nth_error buf' i = nth_error buf i.
Proof.
  intros rows cols closed idx low buf [W1 W2] Hl Ho.
  destruct (scan_raw_ok cols rows (fun c r => closed r c) (fun c r => idx r c) low buf) as (b & E & L & P1 & P2); auto.
  - split; [intros c r i Hc Hr; apply W1; auto|]. intros c r c' r' i Hc Hr Hc' Hr' H H'.
    destruct (W2 r c r' c' i) as [-> ->]; auto.
  - exists b. repeat split; auto.
Qed.
Print Assumptions C53_scan_row_to_col.

(** C53: the switch that starts the bootloader is the one at row 0, column 0, and
    no other; the check leaves the lines as the first scan needs them. *)
Theorem C53_boot_key : forall driven closed,
  (0 < driven)%nat ->
  snd (keyboard_init driven closed) = closed 0%nat 0%nat
  /\ length (fst (keyboard_init driven closed)) = driven
  /\ forall e, e <> 0%nat -> nth e (fst (keyboard_init driven closed)) false = false.
Proof.
  intros driven closed Hd. split; [|exact (kb_start_ok driven 0 closed)]. cbn.
  apply (senses_one driven closed (fun _ _ => None) _ 0%nat); [exact Hd|exact (proj2 (kb_start_ok driven 0 closed))|].
  apply nth_set_nth_eq. unfold matrix_init. now rewrite repeat_length.
Qed.
Print Assumptions C53_boot_key.

(** Three keys on a 2 x 2 matrix, two of them pressed. *)
Definition sample_idx (r c : nat) : option nat :=
  match r, c with O, O => Some 0%nat | O, S O => Some 1%nat | S O, S O => Some 2%nat | _, _ => None end.
Definition sample_closed (r c : nat) : bool := (c =? 1)%nat.
Example C53_example :
  wiring_ok 2 2 3 sample_idx
  /\ col_to_row_scan 2 2 sample_closed sample_idx [true; false] [false; false; false]
     = Ok ([false; false], [false; true; true])
  /\ row_to_col_scan 2 2 sample_closed sample_idx [true; false] [false; false; false]
     = Ok ([false; false], [false; true; true])
  /\ keyboard_init 2 sample_closed = ([true; false], false).
Proof.
  split; [|repeat split; reflexivity]. split.
  - intros [|[|r]] [|[|c]] i Hr Hc H; cbn in H; try lia; try discriminate; injection H as <-; lia.
  - intros [|[|r]] [|[|c]] [|[|r']] [|[|c']] i Hr Hc Hr' Hc' H H'; cbn in H, H'; try lia; try discriminate; try congruence; auto.
Qed.

(** C54: what a key counts as is determined by its readings. *)
Theorem C54_settled_unique : forall h v w, settled h v -> settled h w -> v = w.
Proof. exact settled_unique. Qed.
Print Assumptions C54_settled_unique.

(** C54: an event is made exactly when what the key counts as changes: six scans
    in a row must differ from what it counted as.  Within a scan the events come in
    the order of the keys. *)
Theorem C54_debounce : forall keys raws ds evs,
  N.of_nat keys <= 65536 -> Forall (fun raw => length raw = keys) raws ->
  debounce_scans (repeat debounce_new keys) raws = (ds, evs) ->
  exists counts_as : nat -> nat -> bool,
    (forall i n, (i < keys)%nat -> (n <= length raws)%nat ->
       settled (key_readings (firstn n raws) i) (counts_as i n))
    /\ length evs = length raws
    /\ forall n, (n < length raws)%nat ->
         nth n evs [] = changes keys (fun i => counts_as i n) (fun i => counts_as i (S n)).
Proof.
  intros keys raws ds evs B F H.
  destruct (debounce_scans_ok raws (repeat debounce_new keys) [] keys (repeat_length _ _) B F) as (lv & A1 & A2 & A3).
  - intros i d E. apply nth_error_In, repeat_spec in E. subst d. exact debounced_new.
  - rewrite H in A2, A3. exists lv. auto.
Qed.
Print Assumptions C54_debounce.

(** C54: the presses and releases of every key alternate, beginning with a press. *)
Theorem C54_alternates : forall keys raws ds evs i,
  N.of_nat keys <= 65536 -> Forall (fun raw => length raw = keys) raws ->
  debounce_scans (repeat debounce_new keys) raws = (ds, evs) ->
  alternates true (of_key i (concat evs)).
Proof.
  intros keys raws ds evs i B F H. destruct (C54_debounce _ _ _ _ B F H) as (lv & A1 & A2 & A3). rewrite <- A2 in A3.
  destruct (Nat.lt_ge_cases i keys) as [Hi|Hi].
  - replace true with (negb (lv i 0%nat)).
    + apply (alternates_changes keys lv i Hi evs 0%nat). intros m Hm. exact (A3 m Hm).
    + rewrite (settled_unique [] (lv i 0%nat) false); [reflexivity| |exact (settled_false 0)]. exact (A1 i 0%nat Hi (Nat.le_0_l _)).
  - assert (E : of_key i (concat evs) = []); [|now rewrite E]. clear A1 A2 H. revert A3. generalize 0%nat as n0.
    assert (G : forall l : list (list c_event), (forall e, In e l -> exists b w, e = changes keys b w) -> of_key i (concat l) = []).
    { induction l as [|e l IH]; intros Hl; [reflexivity|]. cbn [concat]. rewrite of_key_app, IH by (intros; apply Hl; now right).
      destruct (Hl e (or_introl eq_refl)) as (b & w & ->). rewrite of_key_changes. now rewrite (proj2 (Nat.ltb_ge _ _) Hi). }
    intros _ A3. apply G. intros e He. apply (In_nth _ _ []) in He as (m & Hm & <-). eexists _, _. apply A3. exact Hm.
Qed.
Print Assumptions C54_alternates.

(** C54: whatever shorter glitches there are, they make no event. *)
Theorem C54_glitches : forall keys raws ds evs i,
  N.of_nat keys <= 65536 -> Forall (fun raw => length raw = keys) raws ->
  debounce_scans (repeat debounce_new keys) raws = (ds, evs) ->
  (forall p, ~ six_at true (key_readings raws i) p) ->
  of_key i (concat evs) = [].
Proof.
  intros keys raws ds evs i B F H Hn. destruct (C54_debounce _ _ _ _ B F H) as (lv & A1 & A2 & A3). rewrite <- A2 in A3.
  assert (G : forall n, (i < keys)%nat -> (n <= length raws)%nat -> lv i n = false).
  { intros n Hi Hl. specialize (A1 i n Hi Hl). destruct A1 as [[E _]|(p & Hp & _)]; [exact E|]. destruct (lv i n) eqn:E; [|reflexivity].
    destruct (Hn p). rewrite <- (firstn_skipn n raws). unfold key_readings. rewrite map_app. now apply six_at_more. }
  rewrite A2 in A3.
  assert (K : forall e, In e evs -> of_key i e = []).
  { intros e He. apply (In_nth _ _ []) in He as (m & Hm & <-). rewrite A2 in Hm. rewrite A3 by exact Hm. rewrite of_key_changes.
    destruct (Nat.ltb_spec i keys) as [Hi|]; [|reflexivity]. rewrite !G by lia. reflexivity. }
  clear -K. induction evs as [|e evs IH]; [reflexivity|]. cbn [concat]. rewrite of_key_app, IH, (K e); auto; [now left|].
  intros; apply K; now right.
Qed.
Print Assumptions C54_glitches.

(** C54: from [keyboard_init] on, with switches opening and closing at will between
    scans, scanning never fails, and every key's events follow its own switch in this
    way; a key without a switch makes none. *)
Theorem C54_keyboard : forall rows cols keys idx closed0 closeds,
  wiring_ok rows cols keys idx -> N.of_nat keys <= 65536 ->
  exists k evs counts_as,
    kb_scans rows cols idx closeds (kb_start rows keys closed0) = Ok (k, evs)
    /\ length evs = length closeds
    /\ (forall n, (n < length closeds)%nat ->
         nth n evs [] = changes keys (fun i => counts_as i n) (fun i => counts_as i (S n)))
    /\ (forall r c i n, (r < rows)%nat -> (c < cols)%nat -> idx r c = Some i -> (n <= length closeds)%nat ->
         settled (switch_readings (firstn n closeds) r c) (counts_as i n))
    /\ (forall i n, (i < keys)%nat -> (forall r c, (r < rows)%nat -> (c < cols)%nat -> idx r c <> Some i) ->
         (n <= length closeds)%nat -> counts_as i n = false).
Proof.
  intros rows cols keys idx closed0 closeds W B. destruct (kb_start_ok rows keys closed0) as [S1 S2].
  destruct (kb_scans_raws rows cols keys idx W closeds _ S1 S2 (repeat_length _ _)) as (raws & k' & E & L & F & P1 & P2).
  destruct (debounce_scans (kx_debounce (kb_start rows keys closed0)) raws) as [ds evs] eqn:Ed. cbn [snd] in E.
  destruct (C54_debounce keys raws ds evs B F Ed) as (lv & A1 & A2 & A3).
  exists k', evs, lv. split; [exact E|]. split; [congruence|]. rewrite <- L. split; [exact A3|]. split.
  - intros r c i n Hr Hc Hi Hn. specialize (A1 i n (proj1 W r c i Hr Hc Hi) Hn).
    replace (switch_readings (firstn n closeds) r c) with (key_readings (firstn n raws) i); [exact A1|].
    unfold key_readings, switch_readings in *. rewrite <- !firstn_map. f_equal. exact (P1 r c i Hr Hc Hi).
  - intros i n Hi Hp Hn. specialize (A1 i n Hi Hn). apply (settled_unique _ _ _ A1).
    replace (key_readings (firstn n raws) i) with (repeat false n); [apply settled_false|].
    unfold key_readings in *. rewrite <- firstn_map, P2 by exact Hp. cbn [kx_raw kb_start].
    rewrite nth_repeat, <- L. clear -Hn. revert Hn. generalize (length raws) as m. revert n.
    induction n as [|n IH]; intros [|m] Hm; cbn; try lia; try reflexivity. f_equal. apply IH. lia.
Qed.
Print Assumptions C54_keyboard.

(** A bounce of five scans makes no event; the sixth equal scan does. *)
Example C54_example :
  snd (debounce_scans (repeat debounce_new 1) (map (fun b => [b]) [true; true; true; true; true; false; true; true; true; true; true; true; true]))
  = [[]; []; []; []; []; []; []; []; []; []; []; [mkCEvent CPress 0]; []].
Proof. reflexivity. Qed.
Example C54_keyboard_example :
  returns (kb_scans 2 2 sample_idx (repeat sample_closed 6 ++ repeat (fun _ _ => false) 6) (kb_start 2 3 (fun _ _ => true)))
    (fun r => concat (snd r) = [mkCEvent CPress 1; mkCEvent CPress 2; mkCEvent CRelease 1; mkCEvent CRelease 2]).
Proof. vm_compute. reflexivity. Qed.
