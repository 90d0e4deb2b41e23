(** Specification vocabulary for chords (C23, C29, C30, C41). *)
From Verif Require Import Base Output Types Scheduler Keymap Chorded Composite SpecTap.
Local Open Scope N_scope.

(** The configured chords with their numbers. *)
Definition numbered (chords : list chord) : list (nat * chord) := combine (seq 0 (length chords)) chords.
Definition member (i : u16) (ch : chord) : bool := existsb (N.eqb i) ch.

(** *** Active chords
    [active_after chords h id]: chord [id] was resolved in the history [h]
    (latest event first) and none of its keys has been released since. *)
Fixpoint active_after (chords : list chord) (h : list (event cev)) (id : nat) : bool :=
  match h with
  | [] => false
  | EvKey _ (CeChorded (ChordResolved (CrChord j))) :: t =>
      if (N.to_nat j =? id)%nat then true else active_after chords t id
  | EvInput (Release k) :: t =>
      match nth_error chords id with
      | Some ch => if member k ch then false else active_after chords t id
      | None => active_after chords t id
      end
  | _ :: t => active_after chords t id
  end.
(** The key belongs to an active chord. *)
Definition in_active (chords : list chord) (active : nat -> bool) (i : u16) : bool :=
  existsb (fun '(id, ch) => active id && member i ch) (numbered chords).
(** The chords a key can become part of: those it belongs to that have no key in
    common with an active chord. *)
Definition offered (chords : list chord) (active : nat -> bool) (ki : u16) : list (nat * chord) :=
  filter (fun '(id, ch) => member ki ch && forallb (fun j => negb (in_active chords active j)) ch) (numbered chords).

(** *** An undecided chord key
    [cands] are the chords offered to key [ki] when it was pressed; [ps] the keys
    pressed since. *)
Fixpoint pressed_in (h : list (event cev)) : list u16 :=
  match h with
  | [] => []
  | EvInput (Press k) :: t => k :: pressed_in t
  | _ :: t => pressed_in t
  end.
(** Chords that have all the keys pressed so far. *)
Definition possible (cands : list (nat * chord)) (ps : list u16) : list (nat * chord) :=
  filter (fun '(_, ch) => forallb (fun j => member j ch) ps) cands.
(** A chord with all its keys pressed. *)
Definition complete (ki : u16) (ps : list u16) (ch : chord) : bool := forallb (fun j => member j (ki :: ps)) ch.
(** The first possible one that is complete.  (With no other key pressed there is none.) *)
Definition best (cands : list (nat * chord)) (ki : u16) (ps : list u16) : option nat :=
  match ps with
  | [] => None
  | _ => option_map fst (find (fun '(_, ch) => complete ki ps ch) (possible cands ps))
  end.
(** What decides: [Some (Some id)] for chord [id], [Some None] for the key on its own. *)
Definition chord_rule (cands : list (nat * chord)) (ki : u16) (hist : list (event cev)) (ev : event cev)
  : option (option nat) :=
  let ps := pressed_in hist in
  match ev with
  | EvKey _ (CeChorded ChTimeout) => Some (best cands ki ps)
  | EvInput (Release k) => if k =? ki then Some (best cands ki ps) else None
  | EvInput (Press k) =>
      match possible cands (ps ++ [k]) with
      | [] => Some (best cands ki ps)
      | [(id, ch)] => if complete ki (ps ++ [k]) ch then Some (Some id) else None
      | _ => None
      end
  | _ => None
  end.
(** What the key becomes: the first key of the chord acts as the chord, the others
    do nothing. *)
Definition chord_becomes (chords : list chord) (keys : list (chord_id * ref)) (pass : ref) (ki : u16) (x : option nat)
  : option (new_pressed_key ref) :=
  match x with
  | None => Some (NpkKey pass)
  | Some id =>
      match nth_error chords id with
      | Some (first :: _) =>
          if first =? ki then option_map (fun e => NpkKey (snd e)) (find (fun e => fst e =? N.of_nat id) keys)
          else Some NpkNoOp
      | _ => None
      end
  end.
(** A chorded key with its chords, or an auxiliary key, which is never first. *)
Definition chord_member (d : key_data) (r : chorded_ref) (keys : list (chord_id * ref)) (pass : ref) : Prop :=
  match r with
  | ChChorded i => nth_error (kd_chorded d) (N.to_nat i) = Some (mkChordedKey keys pass)
  | ChAuxiliary i => nth_error (kd_chorded_aux d) (N.to_nat i) = Some (mkChordedAux pass) /\ keys = []
  end.
Definition resolution_event (ki : u16) (x : option nat) : sched_event cev :=
  mkSE Immediate (EvKey ki (CeChorded (ChordResolved
    match x with Some id => CrChord (N.of_nat id) | None => CrPassthrough end))).
(** The undecided state of a key that has just been pressed. *)
Definition undecided (ki : u16) (cands : list (nat * chord)) : cpks :=
  PksChorded (mkChPks [ki] (map (fun '(id, ch) => mkChordState id ch false) cands)).

(** *** Pressed keys of the chord context *)
Definition held_step (l : list u16) (ev : event cev) : list u16 :=
  match ev with
  | EvInput (Press i) => if existsb (N.eqb i) l then l else i :: l
  | EvInput (Release i) => filter (fun j => negb (j =? i)) l
  | _ => l
  end.
(** The keys held down after a history. *)
Definition held_keys (h : list (event cev)) : list u16 := fold_left held_step h [].
(** No more keys held than the array has entries, at any time; the last index is reserved. *)
Definition never_full (cap : nat) (h : list (event cev)) : Prop :=
  (forall h1 h2, h = h1 ++ h2 -> (length (held_keys h1) <= cap)%nat) /\ ~ In (EvInput (Press 65535)) h.

(** The key is exempt from the required idle time: it belongs to an active chord
    or to the chord resolved last. *)
Definition exempt (c : chorded_ctx) (ki : u16) : Prop :=
  exists id ch, nth_error (chc_chords (chx_config c)) id = Some ch /\ In ki ch
    /\ (nth id (chx_pressed_chords c) false = true \/ chx_latest c = Some (N.of_nat id)).
