(** Result monad, fixed-width integer conventions and fixed-capacity vectors. *)
From Coq Require Export List Arith NArith ZArith Bool Lia.
From Coq Require Import ZifyBool ZifyNat ZifyN.
Export ListNotations.

(** Outcome of running a piece of Rust code.
    [Ok a]   : the code returned [a];
    [Panic]  : the code panicked ([unwrap] on [Err]/[None], index out of
               bounds, [panic!], [todo!], arithmetic check);
    [NoFuel] : the model's recursion bound was reached (not a behaviour of
               the code; excluded by every statement). *)
Inductive res (A : Type) : Type :=
| Ok (a : A)
| Panic
| NoFuel.
Arguments Ok {A} a.
Arguments Panic {A}.
Arguments NoFuel {A}.

Definition bind {A B} (m : res A) (f : A -> res B) : res B :=
  match m with
  | Ok a => f a
  | Panic => Panic
  | NoFuel => NoFuel
  end.

Notation "'let!' x := m 'in' f" := (bind m (fun x => f))
  (at level 200, x pattern, m at level 100, f at level 200).

Definition is_ok {A} (m : res A) : bool :=
  match m with Ok _ => true | _ => false end.

(** The code returned, and the result satisfies [P]. *)
Definition returns {A} (m : res A) (P : A -> Prop) : Prop :=
  match m with Ok a => P a | _ => False end.

(** Rust integer types are [N]; the values modelled stay below the bound
    because they are produced by modelled code from in-range inputs. *)
Definition u8 := N.
Definition u16 := N.
Definition u32 := N.

Definition u32_max : N := 4294967295.

(** Checked [u32] addition: overflow panics (overflow-checks profile).
    A run that never reaches [Panic] here is also a run of the release
    profile, where the addition wraps only on overflow. *)
Definition u32_add (a b : u32) : res u32 :=
  if (a + b <=? u32_max)%N then Ok (a + b)%N else Panic.

(** Checked [u32] subtraction. *)
Definition u32_sub (a b : u32) : res u32 :=
  if (b <=? a)%N then Ok (a - b)%N else Panic.

(** [heapless::Vec::push(..).unwrap()] / [spsc::Queue::enqueue(..).unwrap()]
    on a container of capacity [cap]. *)
Definition push_cap {A} (cap : nat) (l : list A) (x : A) : res (list A) :=
  if (length l <? cap)%nat then Ok (l ++ [x]) else Panic.

(** Pushing several elements one after the other. *)
Fixpoint push_all_cap {A} (cap : nat) (l xs : list A) : res (list A) :=
  match xs with
  | [] => Ok l
  | x :: xs' => let! l' := push_cap cap l x in push_all_cap cap l' xs'
  end.

(** Slice indexing [xs[i]]: out of bounds panics. *)
Definition index {A} (l : list A) (i : nat) : res A :=
  match nth_error l i with Some x => Ok x | None => Panic end.

(** [xs[i] = v] *)
Fixpoint set_nth {A} (l : list A) (i : nat) (v : A) : list A :=
  match l, i with
  | [], _ => []
  | _ :: t, O => v :: t
  | h :: t, S i' => h :: set_nth t i' v
  end.
Definition update_index {A} (l : list A) (i : nat) (v : A) : res (list A) :=
  if (i <? length l)%nat then Ok (set_nth l i v) else Panic.

(** [Option::unwrap] *)
Definition unwrap {A} (o : option A) : res A :=
  match o with Some a => Ok a | None => Panic end.

Definition opt_eqb {A} (eqb : A -> A -> bool) (x y : option A) : bool :=
  match x, y with
  | None, None => true
  | Some a, Some b => eqb a b
  | _, _ => false
  end.

(** Remove the first element satisfying [f] (the
    [iter().position(f).map(|i| v.remove(i))] idiom). *)
Fixpoint remove_first {A} (f : A -> bool) (l : list A) : list A :=
  match l with
  | [] => []
  | x :: t => if f x then t else x :: remove_first f t
  end.

Fixpoint filter_map {A B} (f : A -> option B) (l : list A) : list B :=
  match l with
  | [] => []
  | x :: t => match f x with Some y => y :: filter_map f t | None => filter_map f t end
  end.

(** Monadic fold. *)
Fixpoint fold_res {A S} (f : S -> A -> res S) (l : list A) (s : S) : res S :=
  match l with
  | [] => Ok s
  | x :: t => let! s' := f s x in fold_res f t s'
  end.
