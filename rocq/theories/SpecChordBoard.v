(** Specification vocabulary for keyboards with layers and chords (C71): the
    keyboard of SpecBoard.v, some of whose keys act together. *)
From Verif Require Import Base Output Types Scheduler Keymap SimpleKeys Chorded Layered Composite SpecKeymap SpecPlain SpecLayer SpecTap SpecChord SpecDecide SpecBoard SpecTapBoard.
Local Open Scope N_scope.

(** What comes of the press of a key that belongs to chords. *)
Inductive outcome :=
| Joins (id : nat)            (* the key belongs to a chord that is down: it is part of that chord *)
| Own                         (* the key on its own, at once *)
| Followed (x : option nat)   (* decided by what other keys did, or by its release: a chord, or the key on its own *)
| Elapsed (x : option nat).   (* decided when the time had passed: a chord, or the key on its own *)
(** The chord the key is part of. *)
Definition part (y : outcome) : option nat :=
  match y with Joins id => Some id | Own => None | Followed x | Elapsed x => x end.
(** The chord that goes down. *)
Definition forms (y : outcome) : option nat :=
  match y with Joins _ | Own => None | Followed x | Elapsed x => x end.

Section Chords.
Variables (d : key_data) (chords : list chord).

(** What the key at position [i] can mean when it is pressed, with what comes of
    it: the first key of a chord means what the chord means, the other keys mean
    nothing. *)
Inductive chord_mean (on : N -> bool) (default : option N) (i : u16) : ref -> option outcome -> meaning -> Prop :=
| cm_key r m : means d on default r m -> chord_mean on default i r None m
| cm_own q keys pass y m : chord_member d q keys pass -> part y = None -> means d on default pass m ->
    chord_mean on default i (RChorded q) (Some y) m
| cm_first q keys pass y id rest r m : nth_error (kd_chorded d) (N.to_nat q) = Some (mkChordedKey keys pass) ->
    part y = Some id -> nth_error chords id = Some (i :: rest) ->
    option_map snd (find (fun e => fst e =? N.of_nat id) keys) = Some r -> means d on default r m ->
    chord_mean on default i (RChorded (ChChorded q)) (Some y) m
| cm_other q keys pass y id first rest : nth_error (kd_chorded d) (N.to_nat q) = Some (mkChordedKey keys pass) ->
    part y = Some id -> nth_error chords id = Some (first :: rest) -> first <> i ->
    chord_mean on default i (RChorded (ChChorded q)) (Some y) Nothing
| cm_auxiliary q pass y id : nth_error (kd_chorded_aux d) (N.to_nat q) = Some (mkChordedAux pass) ->
    part y = Some id -> chord_mean on default i (RChorded (ChAuxiliary q)) (Some y) Nothing
| cm_layered q k r y m : nth_error (kd_layered d) (N.to_nat q) = Some k ->
    acts_as k (fun l => on l = true) default r -> chord_mean on default i r y m ->
    chord_mean on default i (RLayered (LyLayered q)) y m.

(** The keyboard, the chords that are down, and the chord that went down last. *)
Record cboard := mkCBoard {
  cb_board : board;
  cb_active : nat -> bool;
  cb_latest : option nat
}.
Definition cboard_new : cboard := mkCBoard board_new (fun _ => false) None.
(** The key [i] belongs to the chord numbered [id]. *)
Definition belongs (id : nat) (i : u16) : bool :=
  match nth_error chords id with Some ch => member i ch | None => false end.
Definition goes_down (o : option nat) (active : nat -> bool) (id : nat) : bool :=
  match o with Some j => if (j =? id)%nat then true else active id | None => active id end.
Definition newest (o latest : option nat) : option nat := match o with Some j => Some j | None => latest end.
Definition comes_up (i : u16) (active : nat -> bool) (id : nat) : bool := if belongs id i then false else active id.
(** The key belongs to the chord that went down last, so need not wait for the keyboard to be idle. *)
Definition of_latest (c : cboard) (i : u16) : Prop := exists id, cb_latest c = Some id /\ belongs id i = true.

(** How time enters: at the press, the keyboard had been idle for too short a time,
    or for long enough; or later, the time had passed when the keymap had seen
    [seen] after the press. *)
Inductive clock := Hasty | Rested | Late.
Section Run.
Variables (n : nat) (refs : list ref).
Variable timing : list input_event -> u16 -> clock -> list input_event -> Prop.

(** What comes of the press of [i] agrees with the chords that are down and with
    the inputs after the press: among the chords the key can become part of
    ([offered], C30), the first of these inputs that decides is as the outcome says
    ([chord_rule], C29), or none of them decides before the time has passed. *)
Definition suits (before : list input_event) (i : u16) (later : list input_event) (c : cboard) (y : outcome) : Prop :=
  let cands := offered chords (cb_active c) i in
  match y with
  | Joins id => option_map fst (find (fun '(id, ch) => cb_active c id && member i ch) (numbered chords)) = Some id
  | Own => in_active chords (cb_active c) i = false /\ (cands = [] \/ ~ of_latest c i /\ timing before i Hasty [])
  | Followed x => in_active chords (cb_active c) i = false /\ cands <> [] /\ (of_latest c i \/ timing before i Rested [])
      /\ exists seen last rest, later = seen ++ last :: rest
         /\ first_decision (chord_rule cands i) [] (map EvInput seen) = None
         /\ chord_rule cands i (map EvInput seen) (EvInput last) = Some x
  | Elapsed x => in_active chords (cb_active c) i = false /\ cands <> [] /\ (of_latest c i \/ timing before i Rested [])
      /\ exists seen rest, later = seen ++ rest
         /\ first_decision (chord_rule cands i) [] (map EvInput seen) = None
         /\ x = best cands i (pressed_in (map EvInput seen))
         /\ timing before i Late seen
  end.

(** One input, after the inputs [before] and before the inputs [later]: what comes
    of it, the keyboard after it, and the callbacks asked for. *)
Inductive chord_step (before later : list input_event) (c : cboard) : input_event -> list outcome -> cboard -> list callback -> Prop :=
| ch_press i r y m : existsb (this_key i) (bd_down (cb_board c)) = false ->
    nth_error refs (N.to_nat i) = Some r -> chord_mean (bd_on (cb_board c)) (bd_default (cb_board c)) i r y m ->
    (forall z, y = Some z -> suits before i later c z) ->
    chord_step before later c (Press i) (match y with Some z => [z] | None => [] end)
      (let o := match y with Some z => forms z | None => None end in
       mkCBoard (switch n (at_press m) (set_down (cb_board c) (bd_down (cb_board c) ++ [inl (i, m)])))
                (goes_down o (cb_active c)) (newest o (cb_latest c)))
      (asks m)
| ch_release i b' : board_step n refs d (cb_board c) (Release i) b' ->
    chord_step before later c (Release i) [] (mkCBoard b' (comes_up i (cb_active c)) (cb_latest c)) []
| ch_virtual ie b' : (forall i, ie <> Press i /\ ie <> Release i) -> board_step n refs d (cb_board c) ie b' ->
    chord_step before later c ie [] (mkCBoard b' (cb_active c) (cb_latest c)) [].

(** The inputs [h], before the inputs [later]. *)
Inductive chord_run : list input_event -> list input_event -> list outcome -> cboard -> list callback -> Prop :=
| cr_start later : chord_run [] later [] cboard_new []
| cr_input h ie later ys c cs ys' c' cs' : chord_run h (ie :: later) ys c cs ->
    chord_step h later c ie ys' c' cs' -> chord_run (h ++ [ie]) later (ys ++ ys') c' (cs ++ cs').
End Run.

(** The keymaps concerned: the keys of C62, keys that belong to chords of these, and
    layered keys of all of these. *)
Inductive chord_board_key (n : nat) : nat -> ref -> Prop :=
| cbk_key h r : board_key n d h r -> chord_board_key n h r
| cbk_chord h q keys pass : chord_member d q keys pass -> board_key n d h pass ->
    (forall id r, In (id, r) keys -> board_key n d h r) -> chord_board_key n (S h) (RChorded q)
| cbk_layered h i k : nth_error (kd_layered d) (N.to_nat i) = Some k -> length (lk_layered k) = n ->
    chord_board_key n h (lk_base k) -> (forall r, In (Some r) (lk_layered k) -> chord_board_key n h r) ->
    chord_board_key n (S h) (RLayered (LyLayered i)).
End Chords.

(** The same keyboard. *)
Definition same_cboard (c1 c2 : cboard) : Prop :=
  same_board (cb_board c1) (cb_board c2) /\ (forall id, cb_active c1 id = cb_active c2 id) /\ cb_latest c1 = cb_latest c2.

(** The timing of a run: the press is taken in some call [o], after the calls [a],
    when the keyboard had been idle for too short a time, or not; and the time has
    passed only at a tick that comes at least the timeout later, when the inputs
    after [seen] were still waiting. *)
Definition chord_timing (conf : kconf ref cctx cev cpks cks) (fuel : nat) (cf : chorded_config) (k0 : ckeymap) (ops : list op)
    (before : list input_event) (i : u16) (x : clock) (seen : list input_event) : Prop :=
  exists a o z, ops = a ++ o :: z /\ taken_by conf fuel k0 a o before i
  /\ match x with
     | Hasty => too_soon (chc_required_idle cf) (idle_seen (a ++ [o]))
     | Rested => ~ too_soon (chc_required_idle cf) (idle_seen (a ++ [o]))
     | Late => exists a' z' k m, ops = a' ++ OpTick :: z' /\ (length a <= length a')%nat
        /\ run_ops conf fuel a' k0 = Ok k /\ (m <= 1)%nat
        /\ let_in conf fuel a' k0 = before ++ Press i :: seen ++ skipn m (km_inq k)
        /\ ck_now (clocks_run a) + chc_timeout cf <= ck_now (clocks_run (a' ++ [OpTick]))
     end.
