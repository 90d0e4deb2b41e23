(** Vocabulary of C79: a layout used on another keyboard.  [places] lists, for each key of
    the other keyboard, the position of the layout whose key it is, or [None] for no key. *)
From Verif Require Import Base Output Types Keymap Composite SpecKeymap SpecBoard Ncl SpecNcl SpecNclBoard.
Import List.
Local Open Scope N_scope.
Local Open Scope list_scope.

(** What [places] makes of the keys of a layer. *)
Definition taken {A} (nothing : A) (l : list A) (o : option nat) : A :=
  match o with Some i => nth i l nothing | None => nothing end.
(** The key of the other keyboard that position [i] goes to. *)
Fixpoint place (places : list (option nat)) (i : nat) : nat :=
  match places with
  | Some j :: t => if (j =? i)%nat then 0%nat else S (place t i)
  | None :: t => S (place t i)
  | [] => 0%nat
  end.
Definition moved (places : list (option nat)) (i : N) : N := N.of_nat (place places (N.to_nat i)).
(** The key without a function. *)
Definition nothing : ukey macro := UCode 0.
(** The layout on the other keyboard. *)
Definition laid_out (places : list (option nat)) (lo : layout) : layout :=
  mkLayout (map (taken nothing (lo_base lo)) places)
    (map (fun u => map (taken (Some nothing) u) places) (lo_uppers lo))
    (map (fun c => (map (moved places) (fst c), snd c)) (lo_chords lo)).

(** Every layer has as many keys as the keyboard it is written for, and every key of the
    other keyboard is one of them or none. *)
Definition complete_layers (n : nat) (lo : layout) : Prop :=
  length (lo_base lo) = n /\ Forall (fun u => length u = n) (lo_uppers lo).
Definition within (n : nat) (places : list (option nat)) : Prop :=
  forall i, In (Some i) places -> (i < n)%nat.
(** Position [i] goes to exactly one key. *)
Definition once (places : list (option nat)) (i : nat) : Prop :=
  length (filter (fun o => match o with Some j => (j =? i)%nat | None => false end) places) = 1%nat.
Definition chords_kept (places : list (option nat)) (lo : layout) : Prop :=
  Forall (fun c => Forall (fun i => once places (N.to_nat i)) (fst c)) (lo_chords lo).

(** The same inputs on the other keyboard, and the keyboard that they lead to. *)
Definition move_input (places : list (option nat)) (ie : input_event) : input_event :=
  match ie with Press i => Press (moved places i) | Release i => Release (moved places i) | _ => ie end.
Definition move_board (places : list (option nat)) (b : board) : board :=
  mkBoard (map (fun x => match x with inl (i, m) => inl (moved places i, m) | inr ko => inr ko end) (bd_down b)) (bd_on b) (bd_default b).
(** The inputs only name positions that go to one key each. *)
Definition names_placed (places : list (option nat)) (ie : input_event) : Prop :=
  match ie with Press i | Release i => once places (N.to_nat i) | _ => True end.
(** The other keyboard has a key that is different on some layer, if the layout has
    layers. *)
Definition layers_left (places : list (option nat)) (lo : layout) : Prop :=
  lo_uppers lo = [] \/ In None places
  \/ exists i, In (Some i) places /\ transparent (column (lo_uppers lo) i) = false.
(** The input is not of a key of the other keyboard that has no function. *)
Definition has_place (places : list (option nat)) (ie : input_event) : bool :=
  match ie with
  | Press i | Release i => match nth_error places (N.to_nat i) with Some None => false | _ => true end
  | _ => true
  end.
