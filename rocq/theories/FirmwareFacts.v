(** Proofs about the firmware loops and the switch matrix (C48, C49). *)
From Verif Require Import Base BaseFacts Output OutputFacts Types Scheduler Reporter DistinctReports
  ReporterFacts SpecReporter Keymap Observed Firmware SpecWrap WrapFacts.
Local Open Scope N_scope.

Section Loops.
Context {R Ctx Ev PKS KS : Type}.
Variable conf : kconf R Ctx Ev PKS KS.
Local Notation km := (keymap R Ctx Ev PKS KS).

Lemma last_cons {A} (x : A) l d : last (x :: l) d = last l x.
Proof.
  revert x d. induction l as [|y l IH]; intros x d; [reflexivity|].
  change (last (x :: y :: l) d) with (last (y :: l) d). now rewrite !IH.
Qed.
Lemma last_app {A} (l l' : list A) d : last (l ++ l') d = last l' (last l d).
Proof. revert d. induction l as [|x l IH]; intros d; [reflexivity|]. cbn [app]. rewrite !last_cons. apply IH. Qed.

Definition blk (w : writes) : bool := match wr_kbd w with KwBlocked => true | _ => false end.

(** One tick of either loop, as far as the backend is concerned. *)
Lemma maybe_tick_spec {Rep} fuel bl (s : firmware R Ctx Ev PKS KS Rep) b :
  fw_ok s = negb bl -> fw_maybe_tick conf fuel s = Ok b ->
  exists outs, run_reporting conf fuel (if bl then [] else [OpTick; OpReport]) (be_km (fw_be s)) = Ok (be_km b, outs)
    /\ be_output b = last outs (be_output (fw_be s))
    /\ outs = (if bl then [] else [be_output b]).
Proof.
  intros Hok H. unfold fw_maybe_tick in H. rewrite Hok in H. destruct bl; cbn [negb] in H.
  - inversion H; subst. exists []. repeat split.
  - unfold be_tick in H. unfold run_reporting. cbn [fold_res report_step fst snd run_op].
    destruct (km_tick conf fuel (be_km (fw_be s))) as [k1| |]; cbn [bind] in *; try discriminate.
    cbn [fst snd]. destruct (km_report_output conf k1) as [[k2 kos]| |]; cbn [bind] in *; try discriminate.
    inversion H; subst. exists [kos]. repeat split.
Qed.

(** *** Embassy *)
Definition rep_of (b : backend R Ctx Ev PKS KS) : report := as_hid_boot_keyboard_report (be_output b).
Lemma embassy_tick_spec fuel w bl (s s' : firmware R Ctx Ev PKS KS report) :
  fw_ok s = negb bl -> embassy_tick conf fuel w s = Ok s' ->
  exists outs codes,
    run_reporting conf fuel (if bl then [] else [OpTick; OpReport]) (be_km (fw_be s)) = Ok (be_km (fw_be s'), outs)
    /\ be_output (fw_be s') = last outs (be_output (fw_be s))
    /\ outs = (if bl then [] else [be_output (fw_be s')])
    /\ fw_ok s' = negb (blk w)
    /\ fw_kbd_sent s' = fw_kbd_sent s ++ (if blk w then [] else [rep_of (fw_be s')])
    /\ pressed_consumer_codes (be_output (fw_be s')) = Ok codes
    /\ (let m := pressed_mouse_output (be_output (fw_be s')) in
        (fw_last_mouse s' = m /\ fw_mouse_sent s' = fw_mouse_sent s ++ [m])
        \/ (fw_last_mouse s' = fw_last_mouse s /\ fw_mouse_sent s' = fw_mouse_sent s
            /\ (wr_mouse w = true -> fw_last_mouse s = m)))
    /\ (let c := embassy_consumer codes in
        (fw_last_consumer s' = c /\ fw_consumer_sent s' = fw_consumer_sent s ++ [c])
        \/ (fw_last_consumer s' = fw_last_consumer s /\ fw_consumer_sent s' = fw_consumer_sent s
            /\ (wr_consumer w = true -> fw_last_consumer s = c))).
Proof.
  intros Hok H. unfold embassy_tick in H.
  destruct (fw_maybe_tick conf fuel s) as [b| |] eqn:Eb; cbn [bind] in H; try discriminate.
  destruct (maybe_tick_spec fuel bl s b Hok Eb) as (outs & Hr & Ho & Hs).
  cbv zeta in H. set (m := pressed_mouse_output (be_output b)) in *.
  match type of H with (let '(_, _) := ?x in _) = _ =>
    replace x with (negb (blk w), fw_kbd_sent s ++ (if blk w then [] else [rep_of b])) in H
      by (unfold blk; destruct (wr_kbd w); cbn; rewrite ?app_nil_r; reflexivity) end.
  destruct (if (negb (mouse_eqb m (fw_last_mouse s)) || negb (mouse_eqb m mouse_none)) && wr_mouse w
            then (m, fw_mouse_sent s ++ [m]) else (fw_last_mouse s, fw_mouse_sent s)) as [lm ms] eqn:Em.
  destruct (pressed_consumer_codes (be_output b)) as [codes| |] eqn:Ec; cbn [bind] in H; try discriminate.
  destruct (if negb (report_eqb (embassy_consumer codes) (fw_last_consumer s)) && wr_consumer w
            then (embassy_consumer codes, fw_consumer_sent s ++ [embassy_consumer codes])
            else (fw_last_consumer s, fw_consumer_sent s)) as [lc cs] eqn:Ecs.
  inversion H; subst s'. clear H. cbn [fw_be fw_ok fw_kbd_sent fw_last_mouse fw_mouse_sent fw_last_consumer fw_consumer_sent].
  exists outs, codes. repeat (split; [first [assumption|reflexivity]|]). split.
  - cbv zeta. destruct ((negb (mouse_eqb m (fw_last_mouse s)) || negb (mouse_eqb m mouse_none)) && wr_mouse w) eqn:Ew;
      inversion Em; subst; [left; auto|right]. repeat split. intros Hw. rewrite Hw, andb_true_r in Ew.
    apply orb_false_iff in Ew as [Ew _]. apply negb_false_iff, mouse_eqb_eq in Ew. now symmetry.
  - cbv zeta. destruct (negb (report_eqb (embassy_consumer codes) (fw_last_consumer s)) && wr_consumer w) eqn:Ew;
      inversion Ecs; subst; [left; auto|right]. repeat split. intros Hw. rewrite Hw, andb_true_r in Ew.
    apply negb_false_iff, report_eqb_eq in Ew. now symmetry.
Qed.

Lemma embassy_event_spec {Rep} fuel ev (s s' : firmware R Ctx Ev PKS KS Rep) :
  fw_event conf fuel ev s = Ok s' ->
  run_reporting conf fuel [OpInput ev] (be_km (fw_be s)) = Ok (be_km (fw_be s'), [])
  /\ be_output (fw_be s') = be_output (fw_be s) /\ fw_ok s' = fw_ok s /\ fw_kbd_sent s' = fw_kbd_sent s
  /\ fw_last_mouse s' = fw_last_mouse s /\ fw_mouse_sent s' = fw_mouse_sent s
  /\ fw_last_consumer s' = fw_last_consumer s /\ fw_consumer_sent s' = fw_consumer_sent s.
Proof.
  intros H. unfold fw_event, be_event in H. unfold run_reporting. cbn [fold_res report_step fst snd run_op].
  destruct (km_handle_input conf fuel ev (be_km (fw_be s))) as [k| |]; cbn in *; try discriminate.
  inversion H; subst. repeat split.
Qed.

Lemma embassy_run_spec fuel ms bl (s s' : firmware R Ctx Ev PKS KS report) :
  fw_ok s = negb bl -> embassy_run conf fuel ms s = Ok s' ->
  exists outs sent,
    run_reporting conf fuel (fw_ops bl ms) (be_km (fw_be s)) = Ok (be_km (fw_be s'), outs)
    /\ be_output (fw_be s') = last outs (be_output (fw_be s))
    /\ fw_ok s' = negb (fw_blocked bl ms)
    /\ fw_kbd_sent s' = fw_kbd_sent s ++ sent
    /\ (if bl then [rep_of (fw_be s)] else []) ++ map as_hid_boot_keyboard_report outs
       = sent ++ (if fw_blocked bl ms then [rep_of (fw_be s')] else []).
Proof.
  revert bl s. unfold embassy_run. induction ms as [|m ms IH]; intros bl s Hok H; cbn [fold_res] in H.
  - inversion H; subst. exists [], []. unfold run_reporting. cbn. rewrite !app_nil_r. repeat split; auto.
  - destruct (embassy_step conf fuel s m) as [s1| |] eqn:E1; cbn [bind] in H; try discriminate.
    destruct m as [ev|w]; cbn [embassy_step fw_ops fw_blocked] in *.
    + apply embassy_event_spec in E1 as (Hr & Ho & Hk & Hs & _).
      destruct (IH bl s1 ltac:(congruence) H) as (outs & sent & Hr' & Ho' & Hk' & Hs' & He).
      exists outs, sent. change (OpInput ev :: fw_ops bl ms) with ([OpInput ev] ++ fw_ops bl ms).
      rewrite run_reporting_app, Hr. cbn [bind]. rewrite Hr'. cbn [bind app].
      rewrite Ho', Ho, Hs', Hs. unfold rep_of in *. rewrite Ho in He. repeat split; auto.
    + destruct (embassy_tick_spec fuel w bl s s1 Hok E1) as (o1 & codes & Hr & Ho & Ho1 & Hk & Hs & _).
      fold (blk w). destruct (IH (blk w) s1 Hk H) as (outs & sent & Hr' & Ho' & Hk' & Hs' & He).
      exists (o1 ++ outs), ((if blk w then [] else [rep_of (fw_be s1)]) ++ sent).
      rewrite run_reporting_app, Hr. cbn [bind]. rewrite Hr'. cbn [bind].
      rewrite last_app, <- Ho, map_app, Hs', Hs, <- !app_assoc.
      repeat (split; [first [reflexivity|assumption]|]). rewrite <- He.
      assert (Hb : bl = true -> rep_of (fw_be s1) = rep_of (fw_be s)).
      { intros ->. subst o1. cbn in Ho. unfold rep_of. now rewrite Ho. }
      subst o1. destruct bl, (blk w); cbn [app map]; rewrite ?Hb by reflexivity; reflexivity.
Qed.

(** *** RTIC *)
Lemma fw_blocked_app bl a b : fw_blocked bl (a ++ b) = fw_blocked (fw_blocked bl a) b.
Proof. revert bl. induction a as [|[ev|w] a IH]; intros bl; cbn; auto. Qed.
Lemma fw_ops_app bl a b : fw_ops bl (a ++ b) = fw_ops bl a ++ fw_ops (fw_blocked bl a) b.
Proof.
  revert bl. induction a as [|[ev|w] a IH]; intros bl; cbn [app fw_ops fw_blocked]; auto.
  - cbn. now rewrite IH.
  - rewrite IH, app_assoc. reflexivity.
Qed.
Lemma skips_snoc_sent {A} p (a s : list A) x : skips p a s -> skips p (a ++ [x]) (s ++ [x]).
Proof. induction 1; cbn; constructor; auto. constructor. Qed.
Lemma skips_snoc_skip {A} p (a s : list A) x : skips p a s -> last (map Some s) p = Some x -> skips p (a ++ [x]) s.
Proof.
  induction 1 as [p|p y a s H IH|y a s H IH]; intros Hl.
  - cbn in *. subst. apply sk_skip. constructor.
  - cbn [map] in Hl. rewrite last_cons in Hl. cbn. constructor. auto.
  - cbn. constructor. auto.
Qed.

Definition dup (w : writes) : bool := match wr_kbd w with KwDuplicate => true | _ => false end.
Lemma rtic_tick_spec fuel w bl (s s' : firmware R Ctx Ev PKS KS (list u8)) :
  fw_ok s = negb bl -> rtic_tick conf fuel w s = Ok s' ->
  exists outs rep codes,
    run_reporting conf fuel (if bl then [] else [OpTick; OpReport]) (be_km (fw_be s)) = Ok (be_km (fw_be s'), outs)
    /\ be_output (fw_be s') = last outs (be_output (fw_be s))
    /\ outs = (if bl then [] else [be_output (fw_be s')])
    /\ fw_ok s' = negb (blk w)
    /\ pressed_key_codes (be_output (fw_be s')) = Ok rep
    /\ fw_kbd_sent s' = fw_kbd_sent s ++ (if blk w || dup w then [] else [rep])
    /\ pressed_consumer_codes (be_output (fw_be s')) = Ok codes
    /\ fw_mouse_sent s' = fw_mouse_sent s ++ (if wr_mouse w then [pressed_mouse_output (be_output (fw_be s'))] else [])
    /\ (let c := rtic_consumer codes in
        (fw_last_consumer s' = c /\ fw_consumer_sent s' = fw_consumer_sent s ++ [c])
        \/ (fw_last_consumer s' = fw_last_consumer s /\ fw_consumer_sent s' = fw_consumer_sent s
            /\ (wr_consumer w = true -> fw_last_consumer s = c))).
Proof.
  intros Hok H. unfold rtic_tick in H.
  destruct (fw_maybe_tick conf fuel s) as [b| |] eqn:Eb; cbn [bind] in H; try discriminate.
  destruct (maybe_tick_spec fuel bl s b Hok Eb) as (outs & Hr & Ho & Hs).
  destruct (pressed_key_codes (be_output b)) as [rep| |] eqn:Er; cbn [bind] in H; try discriminate.
  match type of H with (let '(_, _) := ?x in _) = _ =>
    replace x with (negb (blk w), fw_kbd_sent s ++ (if blk w || dup w then [] else [rep])) in H
      by (unfold blk, dup; destruct (wr_kbd w); cbn; rewrite ?app_nil_r; reflexivity) end.
  destruct (pressed_consumer_codes (be_output b)) as [codes| |] eqn:Ec; cbn [bind] in H; try discriminate.
  destruct (if negb (report_eqb (rtic_consumer codes) (fw_last_consumer s)) && wr_consumer w
            then (rtic_consumer codes, fw_consumer_sent s ++ [rtic_consumer codes])
            else (fw_last_consumer s, fw_consumer_sent s)) as [lc cs] eqn:Ecs.
  inversion H; subst s'. clear H. cbn [fw_be fw_ok fw_kbd_sent fw_last_mouse fw_mouse_sent fw_last_consumer fw_consumer_sent].
  exists outs, rep, codes. repeat (split; [first [assumption|reflexivity]|]). split.
  - destruct (wr_mouse w); rewrite ?app_nil_r; reflexivity.
  - cbv zeta. destruct (negb (report_eqb (rtic_consumer codes) (fw_last_consumer s)) && wr_consumer w) eqn:Ew;
      inversion Ecs; subst; [left; auto|right]. repeat split. intros Hw. rewrite Hw, andb_true_r in Ew.
    apply negb_false_iff, report_eqb_eq in Ew. now symmetry.
Qed.

Lemma rtic_run_snoc fuel ms m (s s' : firmware R Ctx Ev PKS KS (list u8)) :
  rtic_run conf fuel (ms ++ [m]) s = Ok s' ->
  exists s1, rtic_run conf fuel ms s = Ok s1 /\ rtic_step conf fuel s1 m = Ok s'.
Proof.
  unfold rtic_run. rewrite fold_res_app. destruct (fold_res (rtic_step conf fuel) ms s) as [s1| |]; cbn; try discriminate.
  destruct (rtic_step conf fuel s1 m) eqn:E; cbn; intros H; inversion H; subst. exists s1. auto.
Qed.

Lemma rtic_run_spec {P} (pack : list u8 -> P) fuel ms (s s' : firmware R Ctx Ev PKS KS (list u8)) :
  fw_ok s = true -> fw_kbd_sent s = [] -> honest_duplicates conf pack fuel ms s ->
  rtic_run conf fuel ms s = Ok s' ->
  exists outs done pend,
    run_reporting conf fuel (fw_ops false ms) (be_km (fw_be s)) = Ok (be_km (fw_be s'), outs)
    /\ be_output (fw_be s') = last outs (be_output (fw_be s))
    /\ fw_ok s' = negb (fw_blocked false ms)
    /\ Forall2 (fun o c => pressed_key_codes o = Ok c) outs (done ++ pend)
    /\ (if fw_blocked false ms then exists c, pend = [c] /\ pressed_key_codes (be_output (fw_be s')) = Ok c else pend = [])
    /\ skips None (map pack done) (map pack (fw_kbd_sent s')).
Proof.
  revert s'. induction ms as [|m ms IH] using rev_ind; intros s' Hok Hs Hd H.
  - inversion H; subst. exists [], [], []. rewrite Hs. unfold run_reporting. cbn. repeat split; auto. constructor.
  - apply rtic_run_snoc in H as (s1 & H1 & H2).
    assert (Hd1 : honest_duplicates conf pack fuel ms s).
    { intros pre w post a b c Hms. apply (Hd pre w (post ++ [m])). rewrite Hms, <- app_assoc. reflexivity. }
    destruct (IH s1 Hok Hs Hd1 H1) as (outs & done & pend & Hr & Ho & Hk & HF & Hp & Hsk).
    rewrite fw_ops_app, fw_blocked_app. destruct m as [ev|w]; cbn [rtic_step fw_ops fw_blocked] in *.
    + apply embassy_event_spec in H2 as (Hr2 & Ho2 & Hk2 & Hs2 & _).
      exists outs, done, pend. rewrite run_reporting_app, Hr. cbn [bind]. rewrite Hr2. cbn [bind].
      rewrite app_nil_r, Ho2, Hk2, Hs2. repeat split; auto.
    + destruct (rtic_tick_spec fuel w _ s1 s' Hk H2) as (o1 & rep & codes & Hr2 & Ho2 & Ho1 & Hk2 & Hrep & Hs2 & _).
      rewrite run_reporting_app, Hr. cbn [bind]. rewrite app_nil_r, Hr2. cbn [bind]. fold (blk w).
      set (bl := fw_blocked false ms) in *.
      (* the report now being written is the last computed one *)
      assert (HA : exists done', Forall2 (fun o c => pressed_key_codes o = Ok c) (outs ++ o1) (done' ++ [rep])
                    /\ skips None (map pack done') (map pack (fw_kbd_sent s1))).
      { destruct bl.
        - destruct Hp as (c & -> & Hc). subst o1. cbn in Ho2. rewrite Ho2 in Hrep. assert (c = rep) by congruence. subst c.
          exists done. rewrite app_nil_r. auto.
        - subst pend o1. exists done. rewrite app_nil_r in HF. split; [|exact Hsk].
          apply Forall2_app; [exact HF|]. constructor; [exact Hrep|constructor]. }
      destruct HA as (done' & HF' & Hsk'). exists (outs ++ o1).
      destruct (blk w) eqn:Eb; cbn [orb] in Hs2.
      * exists done', [rep]. rewrite app_nil_r in Hs2. rewrite Hs2, last_app, <- Ho.
        repeat (split; [first [reflexivity|assumption]|]). split; [exists rep; auto|exact Hsk'].
      * exists (done' ++ [rep]), []. rewrite app_nil_r, last_app, <- Ho.
        repeat (split; [first [reflexivity|assumption]|]). rewrite map_app. cbn [map].
        destruct (dup w) eqn:Ed; rewrite Hs2.
        -- rewrite app_nil_r. apply skips_snoc_skip; [exact Hsk'|].
           destruct (Hd ms w [] s1 s' rep eq_refl) as (e & c' & He & Hc); auto.
           { unfold dup in Ed. destruct (wr_kbd w); congruence. }
           rewrite He, !map_app. cbn [map]. rewrite last_last. now rewrite Hc.
        -- rewrite map_app. apply skips_snoc_sent. exact Hsk'.
Qed.

(** *** What the host was told last *)
Lemma embassy_mouse_inv fuel ms (s s' : firmware R Ctx Ev PKS KS report) d dc :
  fw_last_mouse s = last (fw_mouse_sent s) d -> fw_last_consumer s = last (fw_consumer_sent s) dc ->
  embassy_run conf fuel ms s = Ok s' ->
  fw_last_mouse s' = last (fw_mouse_sent s') d /\ fw_last_consumer s' = last (fw_consumer_sent s') dc.
Proof.
  intros Hm Hc H. unfold embassy_run in H.
  refine (fold_res_inv (embassy_step conf fuel)
    (fun s => fw_last_mouse s = last (fw_mouse_sent s) d /\ fw_last_consumer s = last (fw_consumer_sent s) dc) ms s s' _ _ H);
    [|auto].
  clear. intros s [ev|w] s' [Hm Hc] _ H; cbn [embassy_step] in H.
  - apply embassy_event_spec in H as (_ & _ & _ & _ & -> & -> & -> & ->). auto.
  - destruct (embassy_tick_spec fuel w (negb (fw_ok s)) s s' (eq_sym (negb_involutive _)) H) as (o & c & _ & _ & _ & _ & _ & _ & Hm' & Hc').
    cbv zeta in *. split.
    + destruct Hm' as [[-> ->]|(-> & -> & _)]; [now rewrite last_last|exact Hm].
    + destruct Hc' as [[-> ->]|(-> & -> & _)]; [now rewrite last_last|exact Hc].
Qed.
Lemma rtic_consumer_inv fuel ms (s s' : firmware R Ctx Ev PKS KS (list u8)) dc :
  fw_last_consumer s = last (fw_consumer_sent s) dc ->
  rtic_run conf fuel ms s = Ok s' -> fw_last_consumer s' = last (fw_consumer_sent s') dc.
Proof.
  intros Hc H. unfold rtic_run in H.
  refine (fold_res_inv (rtic_step conf fuel)
    (fun s => fw_last_consumer s = last (fw_consumer_sent s) dc) ms s s' _ _ H); [|auto].
  clear. intros s [ev|w] s' Hc _ H; cbn [rtic_step] in H.
  - apply embassy_event_spec in H as (_ & _ & _ & _ & _ & _ & -> & ->). auto.
  - destruct (rtic_tick_spec fuel w (negb (fw_ok s)) s s' (eq_sym (negb_involutive _)) H) as (o & r & c & _ & _ & _ & _ & _ & _ & _ & _ & Hc').
    cbv zeta in *. destruct Hc' as [[-> ->]|(-> & -> & _)]; [now rewrite last_last|exact Hc].
Qed.
End Loops.

(** *** The matrix *)
Section MatrixFacts.
Variables rows cols : nat.
Variable closed : nat -> nat -> bool.
Local Notation never := (fun _ : nat => false).
Definition high (m : matrix) : Prop := mx_low m = repeat false rows.

Lemma scan_cols_ok n c todo m acc :
  scan_cols rows closed never n c todo m acc = PinOk (acc ++ map (col_is_low rows closed m) (seq c todo)).
Proof.
  revert n c acc. induction todo as [|t IH]; intros n c acc; cbn [scan_cols seq map].
  - now rewrite app_nil_r.
  - unfold read_col. rewrite IH, <- app_assoc. reflexivity.
Qed.

Lemma set_nth_twice {A} (l : list A) i x y : set_nth (set_nth l i x) i y = set_nth l i y.
Proof. revert i. induction l as [|h l IH]; intros [|i]; cbn; congruence. Qed.
Lemma set_nth_here {A} (a : list A) x y rest : set_nth (a ++ x :: rest) (length a) y = a ++ y :: rest.
Proof. induction a; cbn; congruence. Qed.
Lemma set_nth_repeat {A} (x : A) n i : set_nth (repeat x n) i x = repeat x n.
Proof. revert i. induction n; intros [|i]; cbn; congruence. Qed.
Lemma nth_set_nth {A} (l : list A) i j x d : (i < length l)%nat ->
  nth j (set_nth l i x) d = if (j =? i)%nat then x else nth j l d.
Proof.
  revert i j. induction l as [|h l IH]; intros [|i] [|j] H; cbn in *; try lia; auto. apply IH. lia.
Qed.

Lemma scan_rows_high n r todo m acc : (r + todo = rows)%nat -> high m ->
  scan_rows rows cols closed never n r todo m acc
  = (m, PinOk (acc ++ map (fun r' => map (closed r') (seq 0 cols)) (seq r todo))).
Proof.
  revert n r acc. induction todo as [|t IH]; intros n r acc Hr Hh; cbn [scan_rows seq map].
  - now rewrite app_nil_r.
  - unfold set_row. rewrite scan_cols_ok. cbn [app].
    assert (Hm : mkMatrix (set_nth (mx_low (mkMatrix (set_nth (mx_low m) r true))) r false) = m).
    { cbn [mx_low]. rewrite set_nth_twice. destruct m as [l]. unfold high in Hh. cbn in *. subst. now rewrite set_nth_repeat. }
    rewrite Hm, IH; [|lia|exact Hh]. rewrite <- app_assoc. cbn [app]. do 4 f_equal.
    apply map_ext. intros c. unfold col_is_low. cbn [mx_low]. rewrite Hh.
    apply eq_true_iff_eq. rewrite existsb_exists. split.
    + intros (r' & Hin & Hb). rewrite nth_set_nth in Hb by (rewrite repeat_length; lia).
      destruct (r' =? r)%nat eqn:E; [apply Nat.eqb_eq in E; now subst|]. rewrite nth_repeat in Hb. discriminate.
    + intros Hc. exists r. split; [apply in_seq; lia|]. rewrite nth_set_nth by (rewrite repeat_length; lia).
      now rewrite Nat.eqb_refl.
Qed.

Lemma scan_rows_restores n r todo m acc : (r + todo = rows)%nat ->
  (exists rest, mx_low m = repeat false r ++ rest /\ length rest = todo) ->
  exists m' keys, scan_rows rows cols closed never n r todo m acc = (m', PinOk keys) /\ high m'.
Proof.
  revert n r m acc. induction todo as [|t IH]; intros n r m acc Hr (rest & Hl & Hlen); cbn [scan_rows].
  - destruct rest; [|discriminate]. rewrite app_nil_r in Hl. exists m, acc. split; [reflexivity|].
    unfold high. rewrite Hl. f_equal. lia.
  - unfold set_row. rewrite scan_cols_ok. apply IH; [lia|].
    destruct rest as [|x rest]; [discriminate|]. exists rest. cbn [mx_low]. rewrite set_nth_twice, Hl.
    pose proof (repeat_length false r) as Hrl. rewrite <- Hrl at 2. rewrite set_nth_here. split; [|cbn in Hlen; lia].
    change (false :: rest) with ([false] ++ rest). rewrite app_assoc. f_equal.
    replace (S r) with (r + 1)%nat by lia. now rewrite repeat_app.
Qed.

Lemma clear_rows_ok n r todo m : (r + todo = rows)%nat ->
  (exists rest, mx_low m = repeat false r ++ rest /\ length rest = todo) ->
  exists m', clear_rows never n r todo m = PinOk m' /\ high m'.
Proof.
  revert n r m. induction todo as [|t IH]; intros n r m Hr (rest & Hl & Hlen); cbn [clear_rows].
  - destruct rest; [|discriminate]. rewrite app_nil_r in Hl. exists m. split; [reflexivity|].
    unfold high. rewrite Hl. f_equal. lia.
  - unfold set_row. apply IH; [lia|].
    destruct rest as [|x rest]; [discriminate|]. exists rest. cbn [mx_low]. rewrite Hl.
    pose proof (repeat_length false r) as Hrl. rewrite <- Hrl at 2. rewrite set_nth_here. split; [|cbn in Hlen; lia].
    change (false :: rest) with ([false] ++ rest). rewrite app_assoc. f_equal.
    replace (S r) with (r + 1)%nat by lia. now rewrite repeat_app.
Qed.

Lemma boot_key_ok m : (0 < rows)%nat -> high m -> mx_boot_key rows closed never m = Ok (m, closed 0%nat 0%nat).
Proof.
  intros H0 Hh. unfold mx_boot_key, set_row, read_col.
  assert (Hm : mkMatrix (set_nth (mx_low (mkMatrix (set_nth (mx_low m) 0 true))) 0 false) = m).
  { cbn [mx_low]. rewrite set_nth_twice. destruct m as [l]. unfold high in Hh. cbn in *. subst. now rewrite set_nth_repeat. }
  rewrite Hm. do 2 f_equal. unfold col_is_low. cbn [mx_low]. rewrite Hh.
  apply eq_true_iff_eq. rewrite existsb_exists. split.
  - intros (r' & Hin & Hb). rewrite nth_set_nth in Hb by (rewrite repeat_length; lia).
    destruct (r' =? 0)%nat eqn:E; [apply Nat.eqb_eq in E; now subst|]. rewrite nth_repeat in Hb. discriminate.
  - intros Hc. exists 0%nat. split; [apply in_seq; lia|]. rewrite nth_set_nth by (rewrite repeat_length; lia). exact Hc.
Qed.
End MatrixFacts.

(** A failed scan keeps the number of rows. *)
Lemma set_nth_length' {A} (l : list A) i x : length (set_nth l i x) = length l.
Proof. revert i. induction l; intros [|i]; cbn; auto. Qed.
Lemma scan_rows_length rows cols closed fails n r todo m acc :
  length (mx_low (fst (scan_rows rows cols closed fails n r todo m acc))) = length (mx_low m).
Proof.
  revert n r m acc. induction todo as [|t IH]; intros n r m acc; cbn [scan_rows]; [reflexivity|].
  unfold set_row. destruct (fails n); [reflexivity|].
  destruct (scan_cols _ _ _ _ _ _ _ _); [|cbn; apply set_nth_length'].
  destruct (fails (S n + cols)%nat); [cbn; apply set_nth_length'|].
  rewrite IH. cbn [mx_low]. now rewrite !set_nth_length'.
Qed.

(** *** Coordinates *)
Lemma keymap_index_of_spec indices r c :
  match nth_error indices (N.to_nat r) with
  | None => keymap_index_of indices (LPress r c) = Panic /\ keymap_index_of indices (LRelease r c) = Panic
  | Some row =>
      match nth_error row (N.to_nat c) with
      | None => keymap_index_of indices (LPress r c) = Panic /\ keymap_index_of indices (LRelease r c) = Panic
      | Some o => keymap_index_of indices (LPress r c) = Ok (option_map Press o)
                  /\ keymap_index_of indices (LRelease r c) = Ok (option_map Release o)
      end
  end.
Proof.
  unfold keymap_index_of, index. destruct (nth_error indices (N.to_nat r)) as [row|]; cbn; [|auto].
  destruct (nth_error row (N.to_nat c)); cbn; auto.
Qed.
