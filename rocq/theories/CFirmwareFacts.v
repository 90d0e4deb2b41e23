(** Facts about matrix scanning and debouncing in the C firmware. *)
From Verif Require Import Base Output Types Split CApi CFirmware SpecCFirmware BaseFacts.
Local Open Scope nat_scope.

(** *** The matrix *)
Lemma set_nth_len {A} (l : list A) i v : length (set_nth l i v) = length l.
Proof. revert i. induction l as [|x l IH]; intros [|i]; cbn; congruence. Qed.
Lemma nth_error_set_nth {A} (l : list A) i j v :
  nth_error (set_nth l i v) j = if i =? j then (if i <? length l then Some v else None) else nth_error l j.
Proof.
  revert i j. induction l as [|x l IH]; intros [|i] [|j]; cbn; try reflexivity.
  - now destruct (i =? j).
  - rewrite IH. reflexivity.
Qed.
Lemma nth_set_nth_ne {A} (l : list A) i j v d : j <> i -> nth j (set_nth l i v) d = nth j l d.
Proof. revert i j. induction l as [|x l IH]; intros [|i] [|j] H; cbn; try reflexivity; try lia. apply IH. lia. Qed.
Lemma nth_set_nth_eq {A} (l : list A) i v d : i < length l -> nth i (set_nth l i v) d = v.
Proof. revert i. induction l as [|x l IH]; intros [|i] H; cbn in *; try lia; auto. apply IH. lia. Qed.

(** Writing the readings of a list of switches into the buffer. *)
Section Writes.
Variable P : Type.
Variable idx : P -> option nat.
Variable v : P -> bool.
Definition write (buf : list bool) (p : P) : res (list bool) :=
  match idx p with Some i => update_index buf i (v p) | None => Ok buf end.
Lemma writes_ok ps : forall buf, (forall p i, In p ps -> idx p = Some i -> i < length buf) ->
  exists buf', fold_res write ps buf = Ok buf' /\ length buf' = length buf
  /\ forall i, (forall p, In p ps -> idx p <> Some i) -> nth_error buf' i = nth_error buf i.
Proof.
  induction ps as [|p ps IH]; intros buf H; [exists buf; auto|].
  assert (E : exists b1, write buf p = Ok b1 /\ length b1 = length buf
                         /\ forall i, idx p <> Some i -> nth_error b1 i = nth_error buf i).
  { unfold write. destruct (idx p) as [i|] eqn:Ei; [|exists buf; auto].
    unfold update_index. rewrite (proj2 (Nat.ltb_lt _ _) (H p i (or_introl eq_refl) Ei)). eexists. split; [reflexivity|].
    rewrite set_nth_len. split; [reflexivity|]. intros j Hj. rewrite nth_error_set_nth.
    destruct (Nat.eqb_spec i j) as [->|]; [now destruct Hj|reflexivity]. }
  destruct E as (b1 & E & El & Ek). cbn [fold_res]. rewrite E. cbn [bind].
  destruct (IH b1) as (b2 & E2 & L2 & K2); [intros q i Hq Hi; rewrite El; apply (H q); [now right|exact Hi]|].
  exists b2. split; [exact E2|split; [congruence|]]. intros i Hi. rewrite K2 by (intros q Hq; apply Hi; now right).
  apply Ek. apply Hi. now left.
Qed.
Lemma writes_app ps qs buf : fold_res write (ps ++ qs) buf = (let! b := fold_res write ps buf in fold_res write qs b).
Proof. apply fold_res_app. Qed.
Lemma writes_at ps p i : forall buf buf', fold_res write ps buf = Ok buf' ->
  (forall p i, In p ps -> idx p = Some i -> i < length buf) ->
  In p ps -> idx p = Some i -> (forall q, In q ps -> idx q = Some i -> q = p) -> nth_error buf' i = Some (v p).
Proof.
  intros buf buf' H Hr Hp Hi Hu.
  assert (Hd : forall l : list P, In p l -> (forall q, In q l -> idx q = Some i -> q = p) ->
            exists a b, l = a ++ p :: b /\ forall q, In q b -> idx q <> Some i).
  { clear -Hi. induction l as [|x l IH]; intros Hp Hu; [destruct Hp|].
    assert (HD : (exists q, In q l /\ idx q = Some i) \/ forall q, In q l -> idx q <> Some i).
    { clear -l. induction l as [|y l IH]; [now right|]. destruct IH as [(q & Hq & E)|H]; [left; exists q; split; [now right|exact E]|].
      destruct (idx y) as [j|] eqn:Ej; [destruct (Nat.eq_dec j i) as [->|]|].
      - left. exists y. split; [now left|exact Ej].
      - right. intros q [->|Hq]; [congruence|auto].
      - right. intros q [->|Hq]; [congruence|auto]. }
    destruct HD as [(q & Hq & Eq)|HD].
    - assert (q = p) by (apply Hu; [now right|exact Eq]). subst q.
      destruct (IH Hq) as (a & b & -> & Hb); [intros z Hz; apply Hu; now right|]. exists (x :: a), b. auto.
    - destruct Hp as [->|Hp]; [|now destruct (HD _ Hp)]. exists [], l. auto. }
  destruct (Hd ps Hp Hu) as (a & b & -> & Hb). clear Hd.
  rewrite writes_app in H. inv_bind H. cbn [fold_res] in H. inv_bind H.
  destruct (writes_ok a buf) as (b1 & F1 & L1 & _); [intros q j Hq; apply Hr; rewrite in_app_iff; now left|].
  rewrite F1 in E. injection E as <-.
  assert (Hlt : i < length b1) by (rewrite L1; apply (Hr p); [rewrite in_app_iff; right; now left|exact Hi]).
  unfold write in E0. rewrite Hi in E0. unfold update_index in E0. rewrite (proj2 (Nat.ltb_lt _ _) Hlt) in E0.
  injection E0 as <-.
  destruct (writes_ok b (set_nth b1 i (v p))) as (b3 & F3 & _ & K3).
  { intros q j Hq Hj. rewrite set_nth_len, L1. apply (Hr q); [|exact Hj]. rewrite in_app_iff. right. now right. }
  rewrite F3 in H. injection H as <-. rewrite K3 by exact Hb. rewrite nth_error_set_nth, Nat.eqb_refl.
  now rewrite (proj2 (Nat.ltb_lt _ _) Hlt).
Qed.
End Writes.

Section Lines.
Variables driven sensed : nat.
Variable closed : nat -> nat -> bool.
Variable idx : nat -> nat -> option nat.
(** Only line [d] is low. *)
Lemma senses_one low d s : d < driven ->
  (forall e, e <> d -> nth e low false = false) -> nth d low false = true -> senses_low driven closed low s = closed d s.
Proof.
  intros Hd Ho Hl. unfold senses_low. destruct (closed d s) eqn:Ec.
  - apply existsb_exists. exists d. split; [apply in_seq; lia|]. now rewrite Hl, Ec.
  - apply Bool.not_true_is_false. intros H. apply existsb_exists in H as (e & _ & H). apply andb_prop in H as [H1 H2].
    destruct (Nat.eq_dec e d) as [->|Hn]; [congruence|]. rewrite Ho in H1 by exact Hn. discriminate.
Qed.
Let write1 d := write nat (idx d) (closed d).
Lemma scan_line_writes low buf d : d < driven -> length low = driven ->
  (forall e, e <> d -> nth e low false = false) ->
  scan_line driven sensed closed idx (low, buf) d
  = let! b := fold_res (write1 d) (seq 0 sensed) buf in Ok (set_nth (set_nth low d true) d false, b).
Proof.
  intros Hd Hl Ho. unfold scan_line. cbn [fst snd].
  assert (E : forall l b, fold_res (fun b s => scan_switch driven closed idx (set_nth low d true) d s b) l b
                     = fold_res (write1 d) l b).
  { induction l as [|s l IH]; intros b; [reflexivity|]. cbn [fold_res].
    replace (scan_switch driven closed idx (set_nth low d true) d s b) with (write1 d b s).
    - destruct (write1 d b s); cbn [bind]; auto.
    - unfold write1, write, scan_switch. destruct (idx d s); [|reflexivity]. f_equal. symmetry.
      apply (senses_one _ d); [exact Hd| |].
      + intros e He. rewrite nth_set_nth_ne by exact He. auto.
      + apply nth_set_nth_eq. lia. }
  now rewrite E.
Qed.
Lemma high_again low d : length low = driven -> (forall e, e <> d -> nth e low false = false) ->
  set_nth (set_nth low d true) d false = repeat false driven.
Proof.
  intros Hl Ho. subst driven. apply nth_ext with (d := false) (d' := false); [rewrite !set_nth_len, repeat_length; reflexivity|].
  intros n Hn. rewrite nth_repeat. destruct (Nat.eq_dec n d) as [->|Hne].
  - apply nth_set_nth_eq. now rewrite set_nth_len in Hn.
  - rewrite !nth_set_nth_ne by exact Hne. auto.
Qed.
Definition positions := list_prod (seq 0 driven) (seq 0 sensed).
Let write2 := write (nat * nat) (fun p => idx (fst p) (snd p)) (fun p => closed (fst p) (snd p)).
Lemma scan_raw_writes low buf : length low = driven -> (forall e, e <> 0 -> nth e low false = false) ->
  scan_raw driven sensed closed idx low buf = let! b := fold_res write2 positions buf in Ok (repeat false driven, b).
Proof.
  intros Hl Ho. unfold scan_raw, positions.
  assert (G : forall n a low buf, a + n = driven -> length low = driven -> (forall e, e <> a -> nth e low false = false) ->
     (n = 0 -> low = repeat false driven) ->
     fold_res (scan_line driven sensed closed idx) (seq a n) (low, buf)
     = let! b := fold_res write2 (list_prod (seq a n) (seq 0 sensed)) buf in Ok (repeat false driven, b)).
  { clear low buf Hl Ho. induction n as [|n IH]; intros a low buf Hn Hl Ho Hz.
    - cbn. now rewrite Hz.
    - cbn [seq fold_res list_prod]. rewrite scan_line_writes by (auto; lia). rewrite high_again by auto.
      rewrite (fold_res_app write2 (map (fun y => (a, y)) (seq 0 sensed))).
      assert (E : forall l b, fold_res write2 (map (fun y => (a, y)) l) b = fold_res (write1 a) l b).
      { induction l as [|s l IHl]; intros b; [reflexivity|]. cbn [map fold_res].
        change (write2 b (a, s)) with (write1 a b s). destruct (write1 a b s); cbn [bind]; auto. }
      rewrite E. destruct (fold_res (write1 a) (seq 0 sensed) buf) as [b| |]; cbn [bind]; try reflexivity.
      apply IH; [lia|apply repeat_length| |reflexivity]. intros e _. apply nth_repeat. }
  apply G; [lia|exact Hl|exact Ho|]. intros Hz. rewrite Hz in *. now destruct low.
Qed.
Lemma scan_raw_ok low buf : wiring_ok driven sensed (length buf) idx ->
  length low = driven -> (forall e, e <> 0 -> nth e low false = false) ->
  exists buf', scan_raw driven sensed closed idx low buf = Ok (repeat false driven, buf')
    /\ length buf' = length buf
    /\ (forall d s i, d < driven -> s < sensed -> idx d s = Some i -> nth_error buf' i = Some (closed d s))
    /\ forall i, (forall d s, d < driven -> s < sensed -> idx d s <> Some i) -> nth_error buf' i = nth_error buf i.
Proof.
  intros [W1 W2] Hl Ho. rewrite scan_raw_writes by assumption.
  assert (Hin : forall p, In p positions <-> fst p < driven /\ snd p < sensed).
  { intros [d s]. unfold positions. rewrite in_prod_iff, !in_seq. cbn. lia. }
  assert (Hr : forall p i, In p positions -> idx (fst p) (snd p) = Some i -> i < length buf).
  { intros p i Hp Hi. apply Hin in Hp as [P1 P2]. eauto. }
  destruct (writes_ok _ _ (fun p => closed (fst p) (snd p)) positions buf Hr) as (b & E & L & K).
  fold write2 in E. rewrite E. exists b. cbn [bind]. split; [reflexivity|]. split; [exact L|]. split.
  - intros d s i Hd Hs Hi. refine (writes_at _ _ (fun p => closed (fst p) (snd p)) positions (d, s) i buf b E Hr _ Hi _).
    + apply Hin. auto.
    + intros [d' s'] Hq Hi'. apply Hin in Hq as [Q1 Q2]. cbn in *. destruct (W2 d s d' s' i) as [-> ->]; auto.
  - intros i Hi. apply K. intros p Hp. apply Hin in Hp as [P1 P2]. auto.
Qed.
End Lines.

(** *** Debouncing *)
Lemma six_at_length v h q : six_at v h q -> q + 6 <= length h.
Proof. intros H. specialize (H 5 ltac:(lia)). assert (L : nth_error h (q + 5) <> None) by congruence. apply nth_error_Some in L. lia. Qed.
Lemma six_at_app v h x q : six_at v (h ++ x) q -> q + 6 <= length h -> six_at v h q.
Proof. intros H Hq j Hj. specialize (H j Hj). now rewrite nth_error_app1 in H by lia. Qed.
Lemma six_at_more v h x q : six_at v h q -> six_at v (h ++ x) q.
Proof. intros H j Hj. pose proof (six_at_length _ _ _ H). rewrite nth_error_app1 by lia. auto. Qed.
Lemma settled_unique h v w : settled h v -> settled h w -> v = w.
Proof.
  assert (G : settled h true -> settled h false -> False).
  { intros [[H _]|(p & Hp & Hn)] [[_ H']|(q & Hq & Hm)]; try discriminate.
    - exact (H' _ Hp).
    - destruct (Nat.lt_trichotomy p q) as [L|[->|L]]; [exact (Hn _ L Hq)| |exact (Hm _ L Hp)].
      specialize (Hp 0 ltac:(lia)). specialize (Hq 0 ltac:(lia)). congruence. }
  destruct v, w; auto; intros; exfalso; auto.
Qed.
Lemma settled_keep h v x : settled h v ->
  (forall q, q + 6 = length h + 1 -> ~ six_at (negb v) (h ++ [x]) q) -> settled (h ++ [x]) v.
Proof.
  intros Hs Hq.
  assert (G : forall q, six_at (negb v) (h ++ [x]) q -> six_at (negb v) h q).
  { intros q H. pose proof (six_at_length _ _ _ H) as L. rewrite app_length in L. cbn in L.
    destruct (Nat.eq_dec (q + 6) (length h + 1)) as [E|N]; [destruct (Hq q E H)|]. apply (six_at_app _ _ [x]); [exact H|lia]. }
  destruct Hs as [[-> Hn]|(p & Hp & Hn)].
  - left. split; [reflexivity|]. intros q H. apply G in H. exact (Hn _ H).
  - right. exists p. split; [now apply six_at_more|]. intros q L H. apply G in H. exact (Hn _ L H).
Qed.
Lemma settled_turn h v : 6 <= length h -> six_at v h (length h - 6) -> settled h v.
Proof.
  intros L H. right. exists (length h - 6). split; [exact H|]. intros q Lq Hq. apply six_at_length in Hq. lia.
Qed.

Record debounced (h : list bool) (d : debounce) : Prop := {
  dbd_settled : settled h (db_state d);
  dbd_prev : db_prev d = last h false;
  dbd_run : db_prev d <> db_state d ->
    N.to_nat (db_count d) < 5 /\ S (N.to_nat (db_count d)) <= length h
    /\ (forall j, j <= N.to_nat (db_count d) -> nth_error h (length h - 1 - j) = Some (db_prev d))
    /\ (S (N.to_nat (db_count d)) = length h \/ nth_error h (length h - 2 - N.to_nat (db_count d)) = Some (db_state d))
}.
Lemma debounced_new : debounced [] debounce_new.
Proof.
  constructor; [|reflexivity|now intros []]. left. split; [reflexivity|]. intros q H. apply six_at_length in H. cbn in H. lia.
Qed.
Lemma last_nth_error {A} (h : list A) d : h <> [] -> nth_error h (length h - 1) = Some (last h d).
Proof.
  intros H. destruct (exists_last H) as (a & x & ->). rewrite last_last, app_length. cbn [length].
  rewrite nth_error_app2 by lia. now replace (length a + 1 - 1 - length a) with 0 by lia.
Qed.
Lemma nth_error_snoc {A} (h : list A) x : nth_error (h ++ [x]) (length h) = Some x.
Proof. rewrite nth_error_app2 by lia. now rewrite Nat.sub_diag. Qed.
Lemma debounce_key_ok h d x : debounced h d ->
  debounced (h ++ [x]) (fst (debounce_key d x))
  /\ snd (debounce_key d x) = negb (eqb (db_state (fst (debounce_key d x))) (db_state d))
  /\ (snd (debounce_key d x) = true -> db_state (fst (debounce_key d x)) = x).
Proof.
  intros [Hs Hp Hr]. unfold debounce_key. destruct (eqb x (db_state d)) eqn:Ex.
  - apply eqb_prop in Ex. cbn [fst snd db_state]. split; [|split; [now destruct (db_state d)|discriminate]].
    constructor; cbn [db_state db_prev db_count]; [|now rewrite last_last|congruence].
    apply settled_keep; [exact Hs|]. intros q Eq H. specialize (H 5 ltac:(lia)). replace (q + 5) with (length h) in H by lia.
    rewrite nth_error_snoc in H. rewrite Ex in H. destruct (db_state d); discriminate.
  - assert (Hx : x = negb (db_state d)) by (revert Ex; destruct x, (db_state d); cbn; congruence).
    destruct (eqb x (db_prev d)) eqn:Ep; cbn [negb].
    + apply eqb_prop in Ep. destruct Hr as (R1 & R2 & R3 & R4); [rewrite <- Ep, Hx; now destruct (db_state d)|].
      assert (Em : ((db_count d + 1) mod 256 = db_count d + 1)%N) by (apply N.mod_small; lia). rewrite Em.
      assert (Hrun : forall j, j <= N.to_nat (db_count d) + 1 -> nth_error (h ++ [x]) (length (h ++ [x]) - 1 - j) = Some x).
      { intros j Hj. rewrite app_length. cbn [length]. destruct j as [|j].
        - replace (length h + 1 - 1 - 0) with (length h) by lia. apply nth_error_snoc.
        - rewrite nth_error_app1 by lia. replace (length h + 1 - 1 - S j) with (length h - 1 - j) by lia.
          rewrite R3 by lia. now rewrite Ep. }
      destruct (N.leb_spec 5 (db_count d + 1)) as [Hc|Hc]; cbn [fst snd db_state].
      * split; [|split; [rewrite Hx; now destruct (db_state d)|reflexivity]].
        constructor; cbn [db_state db_prev db_count]; [|now rewrite last_last|congruence].
        assert (L : length (h ++ [x]) = length h + 1) by (rewrite app_length; reflexivity).
        apply settled_turn; [lia|]. intros j Hj. specialize (Hrun (5 - j) ltac:(lia)).
        replace (length (h ++ [x]) - 6 + j) with (length (h ++ [x]) - 1 - (5 - j)) by lia. exact Hrun.
      * split; [|split; [now destruct (db_state d)|discriminate]].
        constructor; cbn [db_state db_prev db_count]; [|now rewrite last_last|].
        -- apply settled_keep; [exact Hs|]. intros q Eq H.
           assert (Hst : nth_error h (length h - 2 - N.to_nat (db_count d)) = Some (db_state d)) by (destruct R4 as [R4|R4]; [lia|exact R4]).
           assert (Hl : length h - 2 - N.to_nat (db_count d) < length h) by lia.
           destruct R4 as [R4|_]; [lia|].
           specialize (H (length h - 2 - N.to_nat (db_count d) - q) ltac:(lia)).
           replace (q + (length h - 2 - N.to_nat (db_count d) - q)) with (length h - 2 - N.to_nat (db_count d)) in H by lia.
           rewrite nth_error_app1 in H by lia. rewrite Hst in H. destruct (db_state d); discriminate.
        -- intros _. replace (N.to_nat (db_count d + 1)) with (N.to_nat (db_count d) + 1) by lia.
           split; [lia|]. rewrite app_length. cbn [length]. split; [lia|]. split.
           ++ intros j Hj. specialize (Hrun j Hj). rewrite app_length in Hrun. exact Hrun.
           ++ destruct R4 as [R4|R4]; [left; lia|right].
              assert (length h - 2 - N.to_nat (db_count d) < length h) by (apply nth_error_Some; congruence).
              rewrite nth_error_app1 by lia.
              replace (length h + 1 - 2 - (N.to_nat (db_count d) + 1)) with (length h - 2 - N.to_nat (db_count d)) by lia. exact R4.
    + change (5 <=? 0)%N with false. cbn [fst snd db_state].
      assert (Hpv : db_prev d = db_state d) by (revert Ex Ep; destruct x, (db_prev d), (db_state d); cbn; congruence).
      assert (Hl : h = [] \/ nth_error h (length h - 1) = Some (db_state d)).
      { destruct h as [|y h']; [now left|right]. rewrite (last_nth_error _ false) by discriminate. now rewrite <- Hp, Hpv. }
      split; [|split; [now destruct (db_state d)|discriminate]].
      constructor; cbn [db_state db_prev db_count]; [|now rewrite last_last|].
      * apply settled_keep; [exact Hs|]. intros q Eq H. destruct Hl as [->|Hl]; [cbn in Eq; lia|].
        specialize (H 4 ltac:(lia)). replace (q + 4) with (length h - 1) in H by lia.
        assert (length h - 1 < length h) by (apply nth_error_Some; congruence).
        rewrite nth_error_app1 in H by lia. rewrite Hl in H. destruct (db_state d); discriminate.
      * intros _. cbn [N.to_nat]. rewrite app_length. cbn [length]. split; [lia|]. split; [lia|]. split.
        -- intros j Hj. replace (length h + 1 - 1 - j) with (length h) by lia. apply nth_error_snoc.
        -- destruct Hl as [->|Hl]; [now left|right].
           assert (length h - 1 < length h) by (apply nth_error_Some; congruence).
           rewrite nth_error_app1 by lia. now replace (length h + 1 - 2 - 0) with (length h - 1) by lia.
Qed.

(** All keys: [hs i] is the history of key [i]. *)
Lemma debounce_from_ok : forall ds raws (hs : nat -> list bool) i, length raws = length ds ->
  (forall j d, nth_error ds j = Some d -> debounced (hs (i + j)) d) -> (N.of_nat (i + length ds) <= 65536)%N ->
  let r := debounce_from (N.of_nat i) ds raws in
  length (fst r) = length ds
  /\ (forall j d, nth_error (fst r) j = Some d -> debounced (hs (i + j) ++ [nth j raws false]) d)
  /\ snd r = flat_map (fun j => if eqb (db_state (nth j (fst r) debounce_new)) (db_state (nth j ds debounce_new)) then []
                       else [mkCEvent (if db_state (nth j (fst r) debounce_new) then CPress else CRelease) (N.of_nat (i + j))])
                      (seq 0 (length ds)).
Proof.
  induction ds as [|d ds IH]; intros raws hs i L H B; destruct raws as [|x raws]; try discriminate; cbn [debounce_from].
  - cbn. split; [reflexivity|]. split; [|reflexivity]. intros [|j] d E; discriminate.
  - destruct (debounce_key_ok (hs (i + 0)) d x (H 0 d eq_refl)) as (D1 & D2 & D3).
    destruct (debounce_key d x) as [d' ch]. cbn [fst snd] in *.
    assert (B' : (N.of_nat (S i + length ds) <= 65536)%N) by (cbn in B; lia).
    assert (H' : forall j e, nth_error ds j = Some e -> debounced (hs (S i + j)) e).
    { intros j e E. replace (S i + j) with (i + S j) by lia. now apply H. }
    specialize (IH raws hs (S i) ltac:(cbn in L; lia) H' B'). cbn zeta in IH.
    replace (N.of_nat i + 1)%N with (N.of_nat (S i)) by lia.
    destruct (debounce_from (N.of_nat (S i)) ds raws) as [ds' evs]. cbn [fst snd] in *. destruct IH as (I1 & I2 & I3).
    cbn zeta. cbn [fst snd]. split; [cbn; lia|]. split.
    + intros [|j] e E; cbn in E; [injection E as <-; exact D1|]. replace (i + S j) with (S i + j) by lia. cbn [nth]. now apply I2.
    + cbn [length seq flat_map nth]. rewrite <- seq_shift, flat_map_concat_map, map_map, <- flat_map_concat_map. cbn [nth].
      assert (E2 : evs = flat_map (fun j => if eqb (db_state (nth j ds' debounce_new)) (db_state (nth j ds debounce_new)) then []
                   else [mkCEvent (if db_state (nth j ds' debounce_new) then CPress else CRelease) (N.of_nat (i + S j))]) (seq 0 (length ds))).
      { rewrite I3. apply flat_map_ext. intros j. now replace (S i + j) with (i + S j) by lia. }
      rewrite <- E2. destruct ch.
      * destruct (eqb (db_state d') (db_state d)) eqn:Eq; [cbn in D2; discriminate|]. rewrite (D3 eq_refl). cbn [app].
        unfold state_changed. rewrite N.mod_small by lia. now rewrite Nat.add_0_r.
      * destruct (eqb (db_state d') (db_state d)) eqn:Eq; [reflexivity|cbn in D2; discriminate].
Qed.

(** Scan after scan, from keys with histories [pre]. *)
Lemma debounce_scans_ok : forall raws ds (pre : list (list bool)) keys, length ds = keys -> (N.of_nat keys <= 65536)%N ->
  Forall (fun raw => length raw = keys) raws ->
  (forall i d, nth_error ds i = Some d -> debounced (key_readings pre i) d) ->
  exists level : nat -> nat -> bool,
    (forall i n, i < keys -> n <= length raws -> settled (key_readings (pre ++ firstn n raws) i) (level i n))
    /\ length (snd (debounce_scans ds raws)) = length raws
    /\ forall n, n < length raws ->
         nth n (snd (debounce_scans ds raws)) [] = changes keys (fun i => level i n) (fun i => level i (S n)).
Proof.
  induction raws as [|raw raws IH]; intros ds pre keys L B F H.
  - exists (fun i _ => db_state (nth i ds debounce_new)). split; [|split; [reflexivity|cbn; lia]].
    intros i n Hi Hn. rewrite firstn_nil, app_nil_r. rewrite <- L in Hi. apply (dbd_settled _ _ (H i _ (nth_error_nth' ds debounce_new Hi))).
  - inversion F as [|? ? F1 F2]; subst. cbn [debounce_scans].
    destruct (debounce_from_ok ds raw (key_readings pre) 0 F1 H) as (I1 & I2 & I3); [lia|].
    unfold debounce_scan. change (debounce_from 0 ds raw) with (debounce_from (N.of_nat 0) ds raw).
    destruct (debounce_from (N.of_nat 0) ds raw) as [ds1 evs]. cbn [fst snd] in *.
    assert (H1 : forall i d, nth_error ds1 i = Some d -> debounced (key_readings (pre ++ [raw]) i) d).
    { intros i d E. unfold key_readings. rewrite map_app. cbn [map]. exact (I2 i d E). }
    destruct (IH ds1 (pre ++ [raw]) (length ds) I1 B F2 H1) as (level & A1 & A2 & A3).
    destruct (debounce_scans ds1 raws) as [ds2 rest]. cbn [fst snd] in *.
    exists (fun i n => match n with O => db_state (nth i ds debounce_new) | S m => level i m end). split; [|split; [cbn; lia|]].
    + intros i [|n] Hi Hn; cbn [firstn].
      * rewrite app_nil_r. apply (dbd_settled _ _ (H i _ (nth_error_nth' ds debounce_new Hi))).
      * cbn in Hn. specialize (A1 i n Hi ltac:(lia)). rewrite <- app_assoc in A1. exact A1.
    + intros [|n] Hn; cbn [nth]; [|apply A3; cbn in Hn; lia].
      rewrite I3. unfold changes. rewrite !flat_map_concat_map. f_equal. apply map_ext_in. intros i Hi. apply in_seq in Hi.
      assert (Hi' : i < length ds1) by lia.
      assert (El : level i 0 = db_state (nth i ds1 debounce_new)).
      { apply (settled_unique (key_readings (pre ++ [raw]) i)).
        - specialize (A1 i 0 ltac:(lia) ltac:(lia)). now rewrite firstn_O, app_nil_r in A1.
        - apply (dbd_settled _ _ (H1 i _ (nth_error_nth' ds1 debounce_new Hi'))). }
      rewrite El. reflexivity.
Qed.

(** The events of one key. *)
Lemma of_key_app i a b : of_key i (a ++ b) = of_key i a ++ of_key i b.
Proof. apply filter_app. Qed.
Lemma of_key_changes keys before now i : of_key i (changes keys before now)
  = if i <? keys then (if eqb (now i) (before i) then [] else [mkCEvent (if now i then CPress else CRelease) (N.of_nat i)]) else [].
Proof.
  unfold changes. induction keys as [|keys IH]; [reflexivity|]. rewrite seq_S, flat_map_app, of_key_app, IH. cbn [flat_map plus].
  rewrite app_nil_r. destruct (Nat.eq_dec i keys) as [->|Hn].
  - rewrite (proj2 (Nat.ltb_ge _ _)) by lia. rewrite (proj2 (Nat.ltb_lt keys (S keys))) by lia. cbn [app].
    destruct (eqb (now keys) (before keys)); [reflexivity|]. cbn. now rewrite N.eqb_refl.
  - assert (Ez : of_key i (if eqb (now keys) (before keys) then [] else [mkCEvent (if now keys then CPress else CRelease) (N.of_nat keys)]) = []).
    { destruct (eqb (now keys) (before keys)); [reflexivity|]. cbn. destruct (N.eqb_spec (N.of_nat keys) (N.of_nat i)); [lia|reflexivity]. }
    rewrite Ez, app_nil_r. destruct (Nat.ltb_spec i keys), (Nat.ltb_spec i (S keys)); try lia; reflexivity.
Qed.
Lemma alternates_changes keys (level : nat -> nat -> bool) i : i < keys -> forall (evs : list (list c_event)) n,
  (forall m, m < length evs -> nth m evs [] = changes keys (fun i => level i (n + m)) (fun i => level i (n + S m))) ->
  alternates (negb (level i n)) (of_key i (concat evs)).
Proof.
  intros Hi. induction evs as [|e evs IH]; intros n H; [exact I|]. cbn [concat]. rewrite of_key_app.
  pose proof (H 0 ltac:(cbn; lia)) as H0. cbn [nth] in H0. rewrite H0, of_key_changes, (proj2 (Nat.ltb_lt _ _) Hi).
  rewrite Nat.add_0_r. assert (IHn : alternates (negb (level i (n + 1))) (of_key i (concat evs))).
  { apply IH. intros m Hm. specialize (H (S m) ltac:(cbn; lia)). cbn [nth] in H. rewrite H.
    now replace (n + 1 + m) with (n + S m) by lia; replace (n + 1 + S m) with (n + S (S m)) by lia. }
  destruct (eqb (level i (n + 1)) (level i n)) eqn:E.
  - apply eqb_prop in E. cbn [app]. now rewrite <- E.
  - cbn [app alternates ce_type]. replace (negb (negb (level i n))) with (negb (level i (n + 1)))
      by (revert E; destruct (level i n), (level i (n + 1)); cbn; congruence).
    split; [|exact IHn]. revert E; destruct (level i n), (level i (n + 1)); cbn; congruence.
Qed.

(** Scanning the matrix again and again. *)
Lemma kb_scans_raws rows cols keys idx : wiring_ok rows cols keys idx -> forall closeds k,
  length (kx_low k) = rows -> (forall e, e <> 0 -> nth e (kx_low k) false = false) -> length (kx_raw k) = keys ->
  exists raws k', kb_scans rows cols idx closeds k = Ok (k', snd (debounce_scans (kx_debounce k) raws))
    /\ length raws = length closeds /\ Forall (fun raw => length raw = keys) raws
    /\ (forall r c i, r < rows -> c < cols -> idx r c = Some i -> key_readings raws i = switch_readings closeds r c)
    /\ (forall i, (forall r c, r < rows -> c < cols -> idx r c <> Some i) ->
          key_readings raws i = repeat (nth i (kx_raw k) false) (length closeds)).
Proof.
  intros W. induction closeds as [|closed closeds IH]; intros k H1 H2 H3.
  - exists [], k. cbn. repeat split; auto.
  - cbn [kb_scans]. unfold kb_scan, col_to_row_scan. rewrite <- H3 in W.
    destruct (scan_raw_ok rows cols closed idx (kx_low k) (kx_raw k) W H1 H2) as (raw & E & L & P1 & P2). rewrite H3 in W.
    rewrite E. cbn [bind]. destruct (debounce_scan (kx_debounce k) raw) as [ds evs] eqn:Ed. cbn [bind].
    destruct (IH (mkKbMatrix (repeat false rows) raw ds)) as (raws & k' & F1 & F2 & F3 & F4 & F5);
      [apply repeat_length|intros; apply nth_repeat|cbn; congruence|].
    rewrite F1. cbn [bind]. exists (raw :: raws), k'. cbn [debounce_scans]. rewrite Ed. cbn [kx_debounce].
    destruct (debounce_scans ds raws) as [ds2 rest]. cbn [snd]. split; [reflexivity|]. split; [cbn; lia|].
    split; [constructor; [congruence|exact F3]|]. split.
    + intros r c i Hr Hc Hi. cbn. rewrite (nth_error_nth raw i false (P1 r c i Hr Hc Hi)). f_equal. exact (F4 r c i Hr Hc Hi).
    + intros i Hi. specialize (F5 i Hi). cbn [kx_raw] in F5. unfold key_readings in *. cbn [map length repeat]. rewrite F5.
      assert (En : nth i raw false = nth i (kx_raw k) false).
      { specialize (P2 i Hi). destruct (nth_error raw i) eqn:En.
        - rewrite (nth_error_nth _ _ false En). symmetry. apply nth_error_nth. now rewrite <- P2.
        - rewrite nth_overflow by now apply nth_error_None. rewrite nth_overflow; [reflexivity|]. apply nth_error_None. now rewrite <- P2. }
      now rewrite En.
Qed.
Lemma kb_start_ok rows keys closed : length (kx_low (kb_start rows keys closed)) = rows
  /\ forall e, e <> 0 -> nth e (kx_low (kb_start rows keys closed)) false = false.
Proof.
  cbn. split; [rewrite set_nth_len; apply repeat_length|]. intros e He. rewrite nth_set_nth_ne by exact He. apply nth_repeat.
Qed.
Lemma settled_false n : settled (repeat false n) false.
Proof.
  left. split; [reflexivity|]. intros q H. pose proof (six_at_length _ _ _ H) as L. specialize (H 0 ltac:(lia)).
  rewrite repeat_length in L. rewrite (nth_error_nth' _ false) in H by (rewrite repeat_length; lia). rewrite nth_repeat in H. discriminate.
Qed.
