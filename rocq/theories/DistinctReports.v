(** Distinct reports.  Models /repo/src/keymap/distinct_reports.rs.
    A report [[u8; 8]] is a list of bytes (length 8 for reports produced by
    the keymap). *)
From Verif Require Import Base Output.
Local Open Scope N_scope.

Definition report := list u8.
Fixpoint report_eqb (a b : report) : bool :=
  match a, b with
  | [], [] => true
  | x :: a', y :: b' => (x =? y) && report_eqb a' b'
  | _, _ => false
  end.
Definition zero_report : report := [0;0;0;0;0;0;0;0].

(** distinct_reports.rs 109-111 [new]. *)
Definition dr_new : list report := [zero_report].

(** distinct_reports.rs 114-119 [update]: compares with the last element. *)
Fixpoint dr_last (l : list report) : option report :=
  match l with [] => None | [x] => Some x | _ :: t => dr_last t end.
Definition dr_update (l : list report) (r : report) : list report :=
  match dr_last l with
  | Some last => if report_eqb last r then l else l ++ [r]
  | None => l ++ [r]
  end.

(** distinct_reports.rs 46-104 [eq], transcribed with indices.  [nth _ _ []]
    is guarded by the loop conditions exactly as the Rust indexing is. *)
Definition at_ (l : list report) (i : nat) : report := nth i l [].
Definition r_mod (r : report) : u8 := nth 0 r 0.
Definition r_keys (r : report) : report := skipn 2 r.

(** distinct_reports.rs 63-68: skip zero reports, but not past the last element. *)
Fixpoint skip_zero (fuel : nat) (l : list report) (i : nat) : nat :=
  match fuel with
  | O => i
  | S f => if (i <? length l - 1)%nat && report_eqb (at_ l i) zero_report
           then skip_zero f l (S i) else i
  end.

(** distinct_reports.rs 75-79 / 84-89: the two-reports-for-one special case. *)
Definition two_for_one (l : list report) (i : nat) (other : report) : bool :=
  (0 <? i)%nat && (i <? length l - 1)%nat && report_eqb (at_ l (S i)) other
  && (((r_mod (at_ l (i - 1)) =? r_mod (at_ l i))
       && report_eqb (r_keys (at_ l i)) (r_keys (at_ l (S i))))
      || (report_eqb (r_keys (at_ l (i - 1))) (r_keys (at_ l i))
          && (r_mod (at_ l i) =? r_mod (at_ l (S i))))).

Fixpoint dr_eq_loop (fuel : nat) (a b : list report) (i j : nat) : bool :=
  match fuel with
  | O => false
  | S f =>
      if (i <? length a)%nat && (j <? length b)%nat
      then
        let i := skip_zero (length a) a i in
        let j := skip_zero (length b) b j in
        if report_eqb (at_ a i) (at_ b j) then dr_eq_loop f a b (S i) (S j)
        else if two_for_one a i (at_ b j) then dr_eq_loop f a b (S (S i)) (S j)
        else if two_for_one b j (at_ a i) then dr_eq_loop f a b (S i) (S (S j))
        else false
      else (i =? length a)%nat && (j =? length b)%nat
  end.

Definition dr_eq (a b : list report) : bool :=
  report_eqb (at_ a 0) (at_ b 0) && dr_eq_loop (S (length a)) a b 1 1.
