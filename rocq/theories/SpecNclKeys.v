(** Vocabulary of C80 and C81: layouts with macro keys and with tap-dance keys. *)
From Verif Require Import Base Output Types Automation Layered Composite Ncl NclCodegen SpecKeymap SpecNcl SpecNclBoard.
Import List.
Local Open Scope N_scope.

(** A layout of keys [leaf] on any layers, without chords. *)
Definition layout_of (leaf : ukey macro -> Prop) (lo : layout) : Prop :=
  lo_chords lo = [] /\
  Forall leaf (lo_base lo) /\
  Forall (Forall (fun o => forall k, o = Some k -> leaf k)) (lo_uppers lo) /\
  (* some layer above the base is not transparent everywhere, if there is one *)
  (lo_uppers lo = [] \/
   exists i, (i < length (lo_base lo))%nat /\ transparent (column (lo_uppers lo) i) = false).

(** The keys of C65 and macro keys; those of which all macros are for the press. *)
Definition macro_key (n : nat) (k : ukey macro) : Prop := simple_key n k \/ exists x, k = UMacro x.
Definition press_macro_key (n : nat) (k : ukey macro) : Prop :=
  simple_key n k \/ exists l, k = UMacro (mkMacro l [] []).
(** The keys of C65 and tap-dance keys of up to 256 of them. *)
Definition dance_key (n : nat) (k : ukey macro) : Prop :=
  simple_key n k \/ exists k1 ks, k = UTapDance k1 ks /\ Forall (simple_key n) (k1 :: ks) /\ (length ks <= 255)%nat.
