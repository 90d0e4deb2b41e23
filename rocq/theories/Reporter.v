(** HID keyboard reporter.  Models /repo/src/keymap/hid_keyboard_reporter.rs. *)
From Verif Require Import Base Output.
Local Open Scope N_scope.

(** hid_keyboard_reporter.rs 12-15. *)
Record reporter := mkRep { rp_pressed : list key_output; rp_num : u8 }.

(** hid_keyboard_reporter.rs 25-30 [new], 33-36 [init]. *)
Definition rep_new : reporter := mkRep [] 1.
Definition rep_init (r : reporter) : reporter := mkRep [] 1.

(** hid_keyboard_reporter.rs 59-61 and 69-71:
    [if num > 1 { num -= 1 }]. *)
Definition rep_dec (n : u8) : u8 := if 1 <? n then n - 1 else n.

(** hid_keyboard_reporter.rs 52-63: the inner loop over the shared iterator;
    returns the remaining previous outputs and the counter. *)
Fixpoint rep_advance (prev : list key_output) (ko : key_output) (n : u8)
  : list key_output * u8 :=
  match prev with
  | [] => ([], n)
  | p :: t => if ko_eqb p ko then (t, n) else rep_advance t ko (rep_dec n)
  end.

(** hid_keyboard_reporter.rs 51-64: the outer loop. *)
Fixpoint rep_match (prev new : list key_output) (n : u8) : list key_output * u8 :=
  match new with
  | [] => (prev, n)
  | k :: t => let '(prev', n') := rep_advance prev k n in rep_match prev' t n'
  end.

(** hid_keyboard_reporter.rs 39-75 [update]. *)
Definition rep_update (r : reporter) (new : list key_output) : reporter :=
  let '(rest, n) := rep_match (rp_pressed r) new (rp_num r) in
  mkRep new (fold_left (fun n _ => rep_dec n) rest n).

(** hid_keyboard_reporter.rs 78-82 [report_sent]. *)
Definition rep_sent (r : reporter) : reporter :=
  if rp_num r <? N.of_nat (length (rp_pressed r))
  then mkRep (rp_pressed r) (rp_num r + 1) else r.

(** hid_keyboard_reporter.rs 85-91 [reportable_key_outputs]. *)
Definition rep_reportable (r : reporter) : list key_output :=
  firstn (N.to_nat (rp_num r)) (rp_pressed r).
