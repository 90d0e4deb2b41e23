(** Theorems C06-C08: the HID reporter and distinct reports. *)
From Verif Require Import Base Output Reporter DistinctReports SpecReporter ReporterFacts.
Local Open Scope N_scope.

Definition ex_a := ko_from_key_code 4.
Definition ex_b := ko_from_key_code 5.
Definition ex_c := ko_from_key_code 6.
Definition ex_d := ko_from_key_code_with_modifiers 7 2.

(** C06: after any history, what is reported is a prefix of what is pressed,
    and is not empty if anything is pressed. *)
Theorem C06_reported_is_prefix : forall ops : list rep_op,
  exists rest,
    pressed_after ops = rep_reportable (rep_run ops) ++ rest
    /\ (pressed_after ops <> [] -> rep_reportable (rep_run ops) <> []).
Proof. exact reporter_prefix. Qed.
Print Assumptions C06_reported_is_prefix.

Example C06_example :
  rep_reportable (rep_run [RoUpdate [ex_a; ex_b; ex_c]]) = [ex_a]
  /\ rep_reportable (rep_run [RoUpdate [ex_a; ex_b; ex_c]; RoSent; RoUpdate [ex_b; ex_c; ex_d]]) = [ex_b].
Proof. split; reflexivity. Qed.

(** C07, safety.  The documented "one new key per report" does not hold: the
    first report after a change can contain two new keys. *)
Theorem C07_one_new_per_report_refuted :
  exists ops l,
    count_new (rep_reportable (rep_run ops))
              (rep_reportable (rep_run (ops ++ report_once l))) = 2%nat.
Proof. exists [], [ex_a; ex_b]. reflexivity. Qed.
Print Assumptions C07_one_new_per_report_refuted.

(** Never more than two. *)
Theorem C07_at_most_two_new : forall ops l,
  (count_new (rep_reportable (rep_run ops))
             (rep_reportable (rep_run (ops ++ report_once l))) <= 2)%nat.
Proof.
  exact (fun ops l => eq_ind_r (fun r => (count_new _ (rep_reportable r) <= 2)%nat)
           (report_at_most_two (rep_run ops) l (rep_run_inv ops)) (rep_run_app_gen ops (report_once l))).
Qed.
Print Assumptions C07_at_most_two_new.

(** At most one, provided that fewer outputs went away (since the previous
    report) than were reported; outputs otherwise keep their order and new
    ones are appended.  Missing from the full property: changes in which as
    many outputs go away as were reported, where two can be new. *)
Theorem C07_one_new_per_report_partial : forall ops kept fresh,
  subseq kept (pressed_after ops) ->
  (length (pressed_after ops) - length kept < length (rep_reportable (rep_run ops)))%nat ->
  (count_new (rep_reportable (rep_run ops))
             (rep_reportable (rep_run (ops ++ report_once (kept ++ fresh)))) <= 1)%nat.
Proof.
  intros ops kept fresh. rewrite rep_run_app_gen, <- rp_pressed_run.
  apply report_one_new, rep_run_inv.
Qed.
Print Assumptions C07_one_new_per_report_partial.

(** Two reported keys, one released, two pressed: one new output. *)
Example C07_partial_example :
  let ops := report_once [ex_a; ex_b] in
  subseq [ex_b] (pressed_after ops)
  /\ (length (pressed_after ops) - 1 < length (rep_reportable (rep_run ops)))%nat
  /\ rep_reportable (rep_run (ops ++ report_once ([ex_b] ++ [ex_c; ex_d]))) = [ex_b; ex_c].
Proof.
  cbn. split; [apply sub_skip, sub_keep, sub_nil|]. split; [apply Nat.ltb_lt; reflexivity|reflexivity].
Qed.

(** C07, liveness: if the pressed outputs stay the same for n reports, at
    least one and at least one less than there are outputs, all of them are
    reported. *)
Theorem C07_all_reported : forall ops l n,
  (1 <= n)%nat -> (length l <= S n)%nat ->
  rep_reportable (rep_run (ops ++ report_times n l)) = l.
Proof. exact report_live. Qed.
Print Assumptions C07_all_reported.

Example C07_all_reported_example :
  rep_reportable (rep_run (report_once [ex_d] ++ report_times 3 [ex_a; ex_b; ex_c; ex_d]))
  = [ex_a; ex_b; ex_c; ex_d]
  /\ rep_reportable (rep_run (report_once [ex_d] ++ report_times 2 [ex_a; ex_b; ex_c; ex_d]))
  = [ex_a; ex_b; ex_c].
Proof. split; reflexivity. Qed.

(** C08: exactly the changes are recorded, after the all-zero report. *)
Theorem C08_distinct_reports : forall rs,
  dr_run rs = zero_report :: changes zero_report rs.
Proof. exact dr_run_eq. Qed.
Print Assumptions C08_distinct_reports.

(** ... so adjacent entries differ, *)
Theorem C08_adjacent_differ : forall rs i a b,
  nth_error (dr_run rs) i = Some a -> nth_error (dr_run rs) (S i) = Some b -> a <> b.
Proof.
  exact (fun rs i a b => eq_ind_r (fun l => nth_error l i = Some a -> nth_error l (S i) = Some b -> a <> b)
           (changes_adjacent rs zero_report i a b) (dr_run_eq rs)).
Qed.
Print Assumptions C08_adjacent_differ.

(** ... the last entry is the latest report, *)
Theorem C08_last_is_latest : forall rs, last (dr_run rs) zero_report = last rs zero_report.
Proof.
  intros rs. rewrite dr_run_eq, changes_last. destruct rs; reflexivity.
Qed.
Print Assumptions C08_last_is_latest.

(** ... and every report is present, in order. *)
Theorem C08_every_report_present : forall rs,
  (forall r, In r rs -> In r (dr_run rs)) /\ subseq (tl (dr_run rs)) rs.
Proof.
  exact (fun rs => eq_ind_r (fun l => (forall r, In r rs -> In r l) /\ subseq (tl l) rs)
           (conj (changes_In rs zero_report) (changes_subseq rs zero_report)) (dr_run_eq rs)).
Qed.
Print Assumptions C08_every_report_present.

Example C08_example :
  let p c := [0;0;c;0;0;0;0;0] in
  dr_run [p 0; p 4; p 4; p 5; p 5; p 4] = [p 0; p 4; p 5; p 4].
Proof. reflexivity. Qed.

(** Equality of recorded reports is reflexive, *)
Theorem C08_eq_reflexive : forall rs, dr_eq (dr_run rs) (dr_run rs) = true.
Proof.
  intros rs. apply dr_eq_refl. rewrite dr_run_eq. discriminate.
Qed.
Print Assumptions C08_eq_reflexive.

(** ... but not symmetric. *)
Theorem C08_eq_symmetric_refuted : exists rs rs',
  Forall (fun r => length r = 8%nat) rs /\ Forall (fun r => length r = 8%nat) rs'
  /\ dr_eq (dr_run rs) (dr_run rs') = true /\ dr_eq (dr_run rs') (dr_run rs) = false.
Proof.
  exists [[2;0;5;0;0;0;0;0]; [0;0;0;0;0;0;0;0]; [0;0;4;0;0;0;0;0]; [2;0;4;0;0;0;0;0]; [0;0;4;0;0;0;0;0]],
         [[2;0;5;0;0;0;0;0]; [2;0;4;0;0;0;0;0]; [0;0;4;0;0;0;0;0]].
  split; [repeat constructor|]. split; [repeat constructor|]. split; reflexivity.
Qed.
Print Assumptions C08_eq_symmetric_refuted.
