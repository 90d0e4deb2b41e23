(** Copy-able slices.  Models /repo/src/slice.rs 6-60. *)
From Verif Require Import Base.

(** slice.rs 8-11 [Slice<T, N>]; [None] is an uninitialised element. *)
Record slice (T : Type) := mkSlice { sl_len : nat; sl_data : list (option T) }.
Arguments mkSlice {T} sl_len sl_data.
Arguments sl_len {T} s.
Arguments sl_data {T} s.

(** slice.rs 20-26: the copy loop, with its index. *)
Fixpoint slice_copy {T} (src : list T) (i : nat) (data : list (option T)) : res (list (option T)) :=
  match src with
  | [] => Ok data
  | x :: t => let! d := update_index data i (Some x) in slice_copy t (S i) d
  end.

(** slice.rs 15-28 [from_slice]. *)
Definition slice_from {T} (n : nat) (src : list T) : res (slice T) :=
  if (n <? length src)%nat then Panic
  else let! d := slice_copy src 0 (repeat None n) in Ok (mkSlice (length src) d).

(** slice.rs 31-33 [as_slice]: reads [len] elements from the start of the
    array.  Reading an uninitialised element or past the end of the array
    would be undefined behaviour: [Panic] here stands for it. *)
Fixpoint read_init {T} (len : nat) (data : list (option T)) : res (list T) :=
  match len, data with
  | O, _ => Ok []
  | S n, Some x :: t => let! r := read_init n t in Ok (x :: r)
  | S _, _ => Panic
  end.
Definition slice_as_slice {T} (s : slice T) : res (list T) := read_init (sl_len s) (sl_data s).

(** slice.rs 44-48 [eq]: compares the slices. *)
Fixpoint list_eqb {T} (eqb : T -> T -> bool) (a b : list T) : bool :=
  match a, b with
  | [], [] => true
  | x :: a', y :: b' => eqb x y && list_eqb eqb a' b'
  | _, _ => false
  end.
Definition slice_eq {T} (eqb : T -> T -> bool) (a b : slice T) : res bool :=
  let! x := slice_as_slice a in
  let! y := slice_as_slice b in
  Ok (list_eqb eqb x y).
