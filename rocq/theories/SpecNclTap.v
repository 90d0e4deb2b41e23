(** Vocabulary of C69: the keyboard that a layout with tap-hold keys describes,
    without the tables of the generated keymap. *)
From Verif Require Import Base Output Types Keymap SimpleKeys TapHold Sticky Layered Composite Ncl NclCodegen SpecKeymap SpecLayer
  SpecBoard SpecNcl SpecNclBoard SpecTapBoard.
Import List.
Local Open Scope N_scope.

(** The key that a key turns out to be: a tap-hold key is one of its two keys. *)
Inductive turns_out : ukey macro -> option decision -> ukey macro -> Prop :=
| to_itself k : turns_out k None k
| to_tap t h x : x = Hurried \/ x = Tapped -> turns_out (UTapHold t h) (Some x) t
| to_hold t h x : x = Interrupted \/ x = TimedOut -> turns_out (UTapHold t h) (Some x) h.

(** One input, after the inputs [before] and before the inputs [later]: the decision
    taken, the keyboard after it, and the callbacks asked for. *)
Section Run.
Variables (lo : layout) (ir : interrupt_response) (timing : list input_event -> u16 -> decision -> list input_event -> Prop).
Inductive layout_tap_step (before later : list input_event) (b : board) : input_event -> list decision -> board -> list callback -> Prop :=
| lt_press i k x k' m : existsb (this_key i) (bd_down b) = false -> (N.to_nat i < length (lo_base lo))%nat ->
    shows lo (N.to_nat i) (bd_on b) (bd_default b) k -> turns_out k x k' -> key_means k' m ->
    (forall y, x = Some y -> agrees ir timing before i later y) ->
    layout_tap_step before later b (Press i) (match x with Some y => [y] | None => [] end)
      (switch (length (lo_uppers lo)) (at_press m) (set_down b (bd_down b ++ [inl (i, m)]))) (asks m)
| lt_other ie b' : (forall i, ie <> Press i) -> layout_step lo b ie b' -> layout_tap_step before later b ie [] b' [].
(** The inputs [h], before the inputs [later]. *)
Inductive layout_tap_run : list input_event -> list input_event -> list decision -> board -> list callback -> Prop :=
| ltr_start later : layout_tap_run [] later [] board_new []
| ltr_input h ie later xs b cs xs' b' cs' : layout_tap_run h (ie :: later) xs b cs ->
    layout_tap_step h later b ie xs' b' cs' -> layout_tap_run (h ++ [ie]) later (xs ++ xs') b' (cs ++ cs').
End Run.

(** The layouts concerned: those of C65, with tap-hold keys of such keys. *)
Definition tap_key (n : nat) (k : ukey macro) : Prop :=
  simple_key n k \/ exists t h, k = UTapHold t h /\ simple_key n t /\ simple_key n h.
Definition tap_layout (lo : layout) : Prop :=
  lo_chords lo = [] /\
  Forall (tap_key (length (lo_uppers lo))) (lo_base lo) /\
  Forall (Forall (fun o => forall k, o = Some k -> tap_key (length (lo_uppers lo)) k)) (lo_uppers lo) /\
  (* some layer above the base is not transparent everywhere, if there is one *)
  (lo_uppers lo = [] \/
   exists i, (i < length (lo_base lo))%nat /\ transparent (column (lo_uppers lo) i) = false).
