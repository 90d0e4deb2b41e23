(** Specification vocabulary for the C firmware's scanning (C53, C54). *)
From Verif Require Import Base Output Types Split CApi CFirmware.
Local Open Scope N_scope.

(** Every key has at most one switch, and its index is one of [keys]. *)
Definition wiring_ok (rows cols keys : nat) (idx : nat -> nat -> option nat) : Prop :=
  (forall r c i, (r < rows)%nat -> (c < cols)%nat -> idx r c = Some i -> (i < keys)%nat)
  /\ forall r c r' c' i, (r < rows)%nat -> (c < cols)%nat -> (r' < rows)%nat -> (c' < cols)%nat ->
       idx r c = Some i -> idx r' c' = Some i -> r = r' /\ c = c'.

(** [six_at v h p]: from scan number [p] on, six scans in a row read [v]. *)
Definition six_at (v : bool) (h : list bool) (p : nat) : Prop :=
  forall j, (j < 6)%nat -> nth_error h (p + j) = Some v.

(** What a key counts as after its switch was read as [h]: [v] if six scans in a
    row read [v] and no later six the opposite; at the start it counts as up. *)
Definition settled (h : list bool) (v : bool) : Prop :=
  (v = false /\ forall q, ~ six_at true h q)
  \/ exists p, six_at v h p /\ forall q, (p < q)%nat -> ~ six_at (negb v) h q.

(** The readings of key [i] in a list of raw scans. *)
Definition key_readings (raws : list (list bool)) (i : nat) : list bool := map (fun raw => nth i raw false) raws.
(** The readings of the switch at row [r], column [c]. *)
Definition switch_readings (closeds : list (nat -> nat -> bool)) (r c : nat) : list bool :=
  map (fun closed => closed r c) closeds.

(** Feeding raw scans to the debouncer, listing the events of each. *)
Fixpoint debounce_scans (ds : list debounce) (raws : list (list bool)) : list debounce * list (list c_event) :=
  match raws with
  | [] => (ds, [])
  | raw :: t =>
      let '(ds1, evs) := debounce_scan ds raw in
      let '(ds2, rest) := debounce_scans ds1 t in
      (ds2, evs :: rest)
  end.

(** The events of a scan in which key [i] comes to count as [now i] after [before i]:
    one for every key that changed, in the order of the keys. *)
Definition changes (keys : nat) (before now : nat -> bool) : list c_event :=
  flat_map (fun i => if eqb (now i) (before i) then []
                     else [mkCEvent (if now i then CPress else CRelease) (N.of_nat i)]) (seq 0 keys).

(** The events of one key, and whether they alternate beginning with [down]. *)
Definition of_key (i : nat) (evs : list c_event) : list c_event :=
  filter (fun e => ce_value e =? N.of_nat i) evs.
Fixpoint alternates (down : bool) (evs : list c_event) : Prop :=
  match evs with
  | [] => True
  | e :: t => ce_type e = (if down then CPress else CRelease) /\ alternates (negb down) t
  end.
