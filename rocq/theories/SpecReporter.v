(** Specification vocabulary for the HID reporter and distinct reports
    (C06-C08). *)
From Verif Require Import Base Output Reporter DistinctReports.
Local Open Scope N_scope.

(** A history of calls on the reporter. *)
Inductive rep_op :=
| RoUpdate (pressed : list key_output)   (* update *)
| RoSent                                 (* report_sent *)
| RoInit.                                (* init *)
Definition rep_step (r : reporter) (o : rep_op) : reporter :=
  match o with
  | RoUpdate l => rep_update r l
  | RoSent => rep_sent r
  | RoInit => rep_init r
  end.
Definition rep_run (ops : list rep_op) : reporter := fold_left rep_step ops rep_new.

(** What is currently pressed: the argument of the latest update since init. *)
Definition pressed_after (ops : list rep_op) : list key_output :=
  fold_left (fun cur o => match o with RoUpdate l => l | RoSent => cur | RoInit => [] end) ops [].

(** One report, as the keymap makes it: update with the pressed outputs, then
    count the report as sent. *)
Definition report_once (l : list key_output) : list rep_op := [RoUpdate l; RoSent].
Fixpoint report_times (n : nat) (l : list key_output) : list rep_op :=
  match n with O => [] | S n' => report_once l ++ report_times n' l end.

(** [subseq a b]: [a] is obtained from [b] by deleting elements. *)
Inductive subseq {A} : list A -> list A -> Prop :=
| sub_nil l : subseq [] l
| sub_skip x a b : subseq a b -> subseq a (x :: b)
| sub_keep x a b : subseq a b -> subseq (x :: a) (x :: b).

(** Number of outputs in [after] that are not in [before]. *)
Definition count_new (before after : list key_output) : nat :=
  length (filter (fun ko => negb (existsb (ko_eqb ko) before)) after).

(** The sequence with consecutive duplicates removed, given the element before. *)
Fixpoint changes (prev : report) (rs : list report) : list report :=
  match rs with
  | [] => []
  | r :: t => if report_eqb prev r then changes prev t else r :: changes r t
  end.
Definition dr_run (rs : list report) : list report := fold_left dr_update rs dr_new.
