(** Vocabulary of C72: the keyboard that a layout with chords describes, without the
    tables of the generated keymap. *)
From Verif Require Import Base Output Types Keymap SimpleKeys Sticky Layered Chorded Composite Ncl NclCodegen SpecKeymap SpecLayer
  SpecBoard SpecNcl SpecNclBoard SpecTapBoard SpecChord SpecChordBoard.
Import List.
Local Open Scope N_scope.

(** The key at position [i] belongs to some chord. *)
Definition in_chord (lo : layout) (i : u16) : Prop := exists keys k, In (keys, k) (lo_chords lo) /\ In i keys.

(** What the key at position [i] can mean when it is pressed, with what comes of it:
    outside of chords, and on its own, it is the key that the position shows; as the
    first key of a chord it is the key of the chord; as another key of it, nothing. *)
Inductive layout_mean (lo : layout) (on : N -> bool) (default : option N) (i : u16) : option outcome -> meaning -> Prop :=
| lm_key k m : ~ in_chord lo i -> shows lo (N.to_nat i) on default k -> key_means k m ->
    layout_mean lo on default i None m
| lm_own y k m : in_chord lo i -> part y = None -> shows lo (N.to_nat i) on default k -> key_means k m ->
    layout_mean lo on default i (Some y) m
| lm_first y id rest k m : part y = Some id -> nth_error (lo_chords lo) id = Some (i :: rest, k) -> key_means k m ->
    layout_mean lo on default i (Some y) m
| lm_other y id first rest k : part y = Some id -> nth_error (lo_chords lo) id = Some (first :: rest, k) -> first <> i ->
    In i rest -> layout_mean lo on default i (Some y) Nothing.

(** One input, after the inputs [before] and before the inputs [later]: what comes
    of it, the keyboard after it, and the callbacks asked for. *)
Section Run.
Variables (lo : layout) (timing : list input_event -> u16 -> clock -> list input_event -> Prop).
Inductive layout_chord_step (before later : list input_event) (c : cboard) : input_event -> list outcome -> cboard -> list callback -> Prop :=
| lh_press i y m : existsb (this_key i) (bd_down (cb_board c)) = false -> (N.to_nat i < length (lo_base lo))%nat ->
    layout_mean lo (bd_on (cb_board c)) (bd_default (cb_board c)) i y m ->
    (forall z, y = Some z -> suits (map fst (lo_chords lo)) timing before i later c z) ->
    layout_chord_step before later c (Press i) (match y with Some z => [z] | None => [] end)
      (let o := match y with Some z => forms z | None => None end in
       mkCBoard (switch (length (lo_uppers lo)) (at_press m) (set_down (cb_board c) (bd_down (cb_board c) ++ [inl (i, m)])))
                (goes_down o (cb_active c)) (newest o (cb_latest c)))
      (asks m)
| lh_release i b' : layout_step lo (cb_board c) (Release i) b' ->
    layout_chord_step before later c (Release i) []
      (mkCBoard b' (comes_up (map fst (lo_chords lo)) i (cb_active c)) (cb_latest c)) []
| lh_virtual ie b' : (forall i, ie <> Press i /\ ie <> Release i) -> layout_step lo (cb_board c) ie b' ->
    layout_chord_step before later c ie [] (mkCBoard b' (cb_active c) (cb_latest c)) [].
(** The inputs [h], before the inputs [later]. *)
Inductive layout_chord_run : list input_event -> list input_event -> list outcome -> cboard -> list callback -> Prop :=
| lhr_start later : layout_chord_run [] later [] cboard_new []
| lhr_input h ie later ys c cs ys' c' cs' : layout_chord_run h (ie :: later) ys c cs ->
    layout_chord_step h later c ie ys' c' cs' -> layout_chord_run (h ++ [ie]) later (ys ++ ys') c' (cs ++ cs').
End Run.

(** The layouts concerned: those of C65, with chords of such keys. *)
Definition chord_layout (lo : layout) : Prop :=
  Forall (fun c => simple_key (length (lo_uppers lo)) (snd c)) (lo_chords lo) /\
  Forall (simple_key (length (lo_uppers lo))) (lo_base lo) /\
  Forall (Forall (fun o => forall k, o = Some k -> simple_key (length (lo_uppers lo)) k)) (lo_uppers lo) /\
  (* some layer above the base is not transparent everywhere, if there is one *)
  (lo_uppers lo = [] \/
   exists i, (i < length (lo_base lo))%nat /\ transparent (column (lo_uppers lo) i) = false).
