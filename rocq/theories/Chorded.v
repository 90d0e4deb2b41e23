(** Chords.  Models /repo/src/key/chorded.rs. *)
From Verif Require Import Base Output Types.
Local Open Scope N_scope.

(** chorded.rs 19 [ChordId] is [u8]; 22-45 [ChordIndices] wraps a slice. *)
Definition chord_id := u8.
Definition chord := list u16.

(** chorded.rs 40-42 [has_index]; 45-47 [is_satisfied_by]. *)
Definition mem (i : u16) (l : list u16) : bool := existsb (N.eqb i) l.
Definition has_index (c : chord) (i : u16) : bool := mem i c.
Definition is_satisfied_by (c : chord) (indices : list u16) : bool :=
  forallb (fun i => mem i indices) c.

(** chorded.rs 61-78 [Config], plus the const generics the type is
    instantiated with (composite.rs: MAX_CHORDS 4, MAX_CHORD_SIZE 16,
    MAX_PRESSED_INDICES = 2 * MAX_CHORD_SIZE = 32; keymap-codegen.ncl 364, 414
    generates MAX_CHORD_SIZE = size of the largest chord).  [chords] is a [Slice] of capacity
    [MAX_CHORDS] of slices of capacity [MAX_CHORD_SIZE]. *)
Record chorded_config := mkChConfig {
  chc_timeout : u16;
  chc_chords : list chord;
  chc_required_idle : option u16;
  chc_max_chords : nat;
  chc_max_chord_size : nat;
  chc_max_pressed : nat
}.
(** chorded.rs 96 [DEFAULT_TIMEOUT], 102-111 [Config::new]. *)
Definition chorded_default_timeout : u16 := 200.

(** chorded.rs 122-131 [ChordState]. *)
Record chord_state := mkChordState {
  cs_index : nat;
  cs_chord : chord;
  cs_satisfied : bool
}.

(** chorded.rs 180-192 [Context].  [chx_pressed_indices] lists the [Some]
    entries of the array, which form a sorted prefix. *)
Record chorded_ctx := mkChCtx {
  chx_config : chorded_config;
  chx_pressed_indices : list u16;
  chx_pressed_chords : list bool;
  chx_idle : u32;
  chx_ignore_idle : bool;
  chx_latest : option chord_id
}.
(** chorded.rs 220-231 [from_config]. *)
Definition ch_ctx_new (c : chorded_config) : chorded_ctx :=
  mkChCtx c [] (repeat false (chc_max_chords c)) 0 false None.
(** chorded.rs 234-239 [update_keymap_context]. *)
Definition ch_update_keymap_context (c : chorded_ctx) (idle : u32) : chorded_ctx :=
  mkChCtx (chx_config c) (chx_pressed_indices c) (chx_pressed_chords c) idle
          (chx_ignore_idle c) (chx_latest c).

(** chorded.rs 243-248 [sufficient_idle_time]. *)
Definition sufficient_idle_time (c : chorded_ctx) : bool :=
  (match chc_required_idle (chx_config c) with Some r => r | None => 0 end <=? chx_idle c)
  || chx_ignore_idle c.

(** chorded.rs 250-266 [pressed_chord_with_index]: the first pressed chord
    having the index. *)
Fixpoint find_pressed_chord (chords : list chord) (i : nat) (pressed : list bool) (ki : u16)
  : res (option chord_state) :=
  match pressed with
  | [] => Ok None
  | false :: t => find_pressed_chord chords (S i) t ki
  | true :: t =>
      let! c := index chords i in
      if has_index c ki then Ok (Some (mkChordState i c true))
      else find_pressed_chord chords (S i) t ki
  end.
Definition pressed_chord_with_index (c : chorded_ctx) (ki : u16) : res (option chord_state) :=
  find_pressed_chord (chc_chords (chx_config c)) 0 (chx_pressed_chords c) ki.

(** Insertion into a sorted vector without duplicates
    ([if let Err(pos) = v.binary_search(&i) { v.insert(pos, i) }]). *)
Fixpoint sorted_insert (i : u16) (l : list u16) : list u16 :=
  match l with
  | [] => [i]
  | x :: t => if i =? x then l else if i <? x then i :: l else x :: sorted_insert i t
  end.
(** With a capacity, [insert(..).unwrap()]. *)
Definition insert_cap (cap : nat) (l : list u16) (i : u16) : res (list u16) :=
  if mem i l then Ok l
  else if (length l <? cap)%nat then Ok (sorted_insert i l) else Panic.

(** chorded.rs 269-293 [pressed_chords_indices_span]. *)
Fixpoint span_loop (cap : nat) (chords : list chord) (i : nat) (pressed : list bool) (acc : list u16)
  : res (list u16) :=
  match pressed with
  | [] => Ok acc
  | false :: t => span_loop cap chords (S i) t acc
  | true :: t =>
      let! c := index chords i in
      let! acc' := fold_res (insert_cap cap) c acc in
      span_loop cap chords (S i) t acc'
  end.
Definition pressed_chords_indices_span (c : chorded_ctx) : res (list u16) :=
  span_loop (chc_max_pressed (chx_config c)) (chc_chords (chx_config c)) 0 (chx_pressed_chords c) [].

(** chorded.rs 300-330 [chords_for_keymap_index]; [collect] fits because
    [chords] is a slice of the same capacity. *)
Fixpoint candidate_chords (chords : list chord) (i : nat) (ki : u16) (span : list u16)
  : list chord_state :=
  match chords with
  | [] => []
  | c :: t =>
      if has_index c ki
         && (match span with [] => true | _ => forallb (fun j => negb (mem j span)) c end)
      then mkChordState i c false :: candidate_chords t (S i) ki span
      else candidate_chords t (S i) ki span
  end.
Definition chords_for_keymap_index (c : chorded_ctx) (ki : u16) : res (list chord_state) :=
  let! o := pressed_chord_with_index c ki in
  match o with
  | Some cs => Ok [cs]
  | None =>
      let! span := pressed_chords_indices_span c in
      Ok (candidate_chords (chc_chords (chx_config c)) 0 ki span)
  end.

(** chorded.rs 332-368 [insert_pressed_index], [press_index].  The search
    treats an empty slot as 65535; a full array either drops its largest entry
    or, when the new index is the largest, is indexed out of bounds. *)
Definition press_index (cap : nat) (l : list u16) (i : u16) : res (list u16) :=
  if mem i l then Ok l
  else if (cap =? 0)%nat then Ok l
  else if (length l <? cap)%nat
       then if i =? 65535 then Ok l else Ok (sorted_insert i l)
       else if forallb (fun x => x <? i) l then Panic
            else Ok (removelast (sorted_insert i l)).

(** chorded.rs 346-358 [remove_pressed_index], 370-377 [release_index]. *)
Definition release_index (l : list u16) (i : u16) : list u16 := remove_first (N.eqb i) l.

(** chorded.rs 647-685 [Event], [ChordResolution], [PendingChordState]. *)
Inductive chord_resolution := CrChord (id : chord_id) | CrPassthrough.
Inductive ch_event := ChordResolved (r : chord_resolution) | ChTimeout.
Inductive pending_chord_state := PcResolved (r : chord_resolution) | PcPending (o : option chord_id).

(** chorded.rs 411-418: a release clears every chord having the index.
    (Writing beyond the array cannot happen: the slice has the same capacity.) *)
Fixpoint clear_chords (chords : list chord) (pressed : list bool) (ki : u16) : list bool :=
  match chords, pressed with
  | c :: cs, b :: bs => (if has_index c ki then false else b) :: clear_chords cs bs ki
  | _, _ => pressed
  end.

(** chorded.rs 380-430 [handle_event]; no events are emitted. *)
Definition ch_handle_event (c : chorded_ctx) (ev : event ch_event) : res chorded_ctx :=
  match ev with
  | EvInput (Press ki) =>
      let! pi := press_index (chc_max_pressed (chx_config c)) (chx_pressed_indices c) ki in
      let c1 := mkChCtx (chx_config c) pi (chx_pressed_chords c) (chx_idle c)
                        (chx_ignore_idle c) (chx_latest c) in
      let! span := pressed_chords_indices_span c1 in
      let! ig :=
        if mem ki span then Ok true
        else match chx_latest c1 with
             | Some id => let! ch := index (chc_chords (chx_config c1)) (N.to_nat id) in
                          Ok (has_index ch ki)
             | None => Ok false
             end in
      Ok (mkChCtx (chx_config c1) pi (chx_pressed_chords c1) (chx_idle c1) ig (chx_latest c1))
  | EvInput (Release ki) =>
      Ok (mkChCtx (chx_config c) (release_index (chx_pressed_indices c) ki)
                  (clear_chords (chc_chords (chx_config c)) (chx_pressed_chords c) ki)
                  (chx_idle c) (chx_ignore_idle c) (chx_latest c))
  | EvKey _ (ChordResolved (CrChord id)) =>
      let! pc := update_index (chx_pressed_chords c) (N.to_nat id) true in
      Ok (mkChCtx (chx_config c) (chx_pressed_indices c) pc (chx_idle c)
                  (chx_ignore_idle c) (Some id))
  | _ => Ok c
  end.

(** chorded.rs 745-760 [PendingKeyState].  The order of [pressed_indices] is
    irrelevant (it is only used for membership), so the model appends instead of
    inserting at the binary search position. *)
Record ch_pks := mkChPks {
  chp_pressed : list u16;
  chp_possible : list chord_state
}.

(** chorded.rs 778-790 [new]. *)
Definition ch_pks_new (c : chorded_ctx) (ki : u16) : res ch_pks :=
  let! pi := push_cap (chc_max_chord_size (chx_config c)) [] ki in
  let! poss := chords_for_keymap_index c ki in
  Ok (mkChPks pi poss).

(** [index as u8] *)
Definition as_chord_id (i : nat) : chord_id := N.of_nat i mod 256.

(** chorded.rs 793-797 [satisfied_chord], mapped to its id. *)
Fixpoint first_satisfied (l : list chord_state) : option chord_id :=
  match l with
  | [] => None
  | cs :: t => if cs_satisfied cs then Some (as_chord_id (cs_index cs)) else first_satisfied t
  end.

(** chorded.rs 799-826 [check_resolution]. *)
Definition check_resolution (p : ch_pks) : pending_chord_state :=
  match chp_possible p with
  | [] => PcResolved CrPassthrough
  | [cs] => if cs_satisfied cs then PcResolved (CrChord (as_chord_id (cs_index cs)))
            else PcPending (first_satisfied [cs])
  | l => PcPending (first_satisfied l)
  end.

(** chorded.rs 829-917 [PendingKeyState::handle_event]. *)
Definition chp_satisfied_or_pass (p : ch_pks) : chord_resolution :=
  match first_satisfied (chp_possible p) with
  | Some id => CrChord id
  | None => CrPassthrough
  end.
Definition chp_press (maxsize : nat) (p : ch_pks) (k : u16) : res ch_pks :=
  let! pi := push_cap maxsize (chp_pressed p) k in
  let kept := filter (fun cs => has_index (cs_chord cs) k) (chp_possible p) in
  Ok (mkChPks pi (map (fun cs => mkChordState (cs_index cs) (cs_chord cs)
                                              (is_satisfied_by (cs_chord cs) pi)) kept)).
Definition chp_handle_event (maxsize : nat) (p : ch_pks) (ki : u16) (ev : event ch_event)
  : res (ch_pks * option chord_resolution) :=
  match ev with
  | EvKey _ ChTimeout => Ok (p, Some (chp_satisfied_or_pass p))
  | EvInput (Press k) =>
      let before := first_satisfied (chp_possible p) in
      let! p' := chp_press maxsize p k in
      let r := match check_resolution p' with
               | PcResolved r => Some r
               | PcPending _ => None
               end in
      Ok (p', match r, before with
              | Some CrPassthrough, Some id => Some (CrChord id)
              | _, _ => r
              end)
  | EvInput (Release k) =>
      if k =? ki then Ok (p, Some (chp_satisfied_or_pass p)) else Ok (p, None)
  | _ => Ok (p, None)
  end.

(** chorded.rs 433-450 [Key]; 616-630 [AuxiliaryKey]. *)
Record chorded_key (R : Type) := mkChordedKey { chk_chords : list (chord_id * R); chk_pass : R }.
Arguments mkChordedKey {R}. Arguments chk_chords {R}. Arguments chk_pass {R}.
Record chorded_aux (R : Type) := mkChordedAux { cha_pass : R }.
Arguments mkChordedAux {R}. Arguments cha_pass {R}.

Fixpoint find_chord_key {R} (l : list (chord_id * R)) (id : chord_id) : option R :=
  match l with
  | [] => None
  | (i, r) :: t => if i =? id then Some r else find_chord_key t id
  end.

(** chorded.rs 494-518 and 571-595: the key a resolution means for this key;
    [NpkNoOp] for the members of a chord other than the first. *)
Definition chk_resolve {R} (k : chorded_key R) (c : chorded_ctx) (ki : u16) (r : chord_resolution)
  : res (new_pressed_key R) :=
  match r with
  | CrChord id =>
      let! ch := index (chc_chords (chx_config c)) (N.to_nat id) in
      let! primary := index ch 0 in
      if primary =? ki
      then let! r := unwrap (find_chord_key (chk_chords k) id) in Ok (NpkKey r)
      else Ok NpkNoOp
  | CrPassthrough => Ok (NpkKey (chk_pass k))
  end.
Definition cha_resolve {R} (k : chorded_aux R) (r : chord_resolution) : new_pressed_key R :=
  match r with CrChord _ => NpkNoOp | CrPassthrough => NpkKey (cha_pass k) end.

(** chorded.rs 485-493, 655-663: the resolution at the time of the press. *)
Definition ch_initial_resolution (c : chorded_ctx) (p : ch_pks) : pending_chord_state :=
  if sufficient_idle_time c then check_resolution p else PcResolved CrPassthrough.

(** chorded.rs 532-547, 681-696: otherwise pending, with the timeout scheduled. *)
Definition ch_pending_result {R KS} (c : chorded_ctx) (p : ch_pks) (ki : u16)
  : pressed_key_result R ch_pks KS * key_events ch_event :=
  (PkPending p, [after (chc_timeout (chx_config c)) (EvKey ki ChTimeout)]).

(** chorded.rs 477-548 [Key::new_pressed_key]. *)
Definition chk_new_pressed_key {R KS} (k : chorded_key R) (c : chorded_ctx) (ki : u16)
  : res (pressed_key_result R ch_pks KS * key_events ch_event) :=
  let! p := ch_pks_new c ki in
  match ch_initial_resolution c p with
  | PcResolved r => let! n := chk_resolve k c ki r in Ok (PkNewPressedKey n, [])
  | PcPending _ => Ok (ch_pending_result c p ki)
  end.
(** chorded.rs 647-697 [AuxiliaryKey::new_pressed_key]. *)
Definition cha_new_pressed_key {R KS} (k : chorded_aux R) (c : chorded_ctx) (ki : u16)
  : res (pressed_key_result R ch_pks KS * key_events ch_event) :=
  let! p := ch_pks_new c ki in
  match ch_initial_resolution c p with
  | PcResolved r => Ok (PkNewPressedKey (cha_resolve k r), [])
  | PcPending _ => Ok (ch_pending_result c p ki)
  end.

(** chorded.rs 560-613 [Key::update_pending_state]. *)
Definition chk_update_pending {R} (k : chorded_key R) (p : ch_pks) (ki : u16) (c : chorded_ctx)
    (ev : event ch_event) : res (ch_pks * option (new_pressed_key R) * key_events ch_event) :=
  let! (p', o) := chp_handle_event (chc_max_chord_size (chx_config c)) p ki ev in
  match o with
  | Some r => let! n := chk_resolve k c ki r in
              Ok (p', Some n, [immediate (EvKey ki (ChordResolved r))])
  | None => Ok (p', None, [])
  end.
(** chorded.rs 706-727 [AuxiliaryKey::update_pending_state]. *)
Definition cha_update_pending {R} (k : chorded_aux R) (p : ch_pks) (ki : u16) (c : chorded_ctx)
    (ev : event ch_event) : res (ch_pks * option (new_pressed_key R) * key_events ch_event) :=
  let! (p', o) := chp_handle_event (chc_max_chord_size (chx_config c)) p ki ev in
  match o with
  | Some r => Ok (p', Some (cha_resolve k r), [immediate (EvKey ki (ChordResolved r))])
  | None => Ok (p', None, [])
  end.

(** chorded.rs 10-16 [Ref]; 982-1040 [System]. *)
Inductive chorded_ref := ChChorded (i : u8) | ChAuxiliary (i : u8).
Definition ch_new_pressed_key {R KS} (keys : list (chorded_key R)) (auxs : list (chorded_aux R))
    (ki : u16) (c : chorded_ctx) (r : chorded_ref)
  : res (pressed_key_result R ch_pks KS * key_events ch_event) :=
  match r with
  | ChChorded i => let! k := index keys (N.to_nat i) in chk_new_pressed_key k c ki
  | ChAuxiliary i => let! k := index auxs (N.to_nat i) in cha_new_pressed_key k c ki
  end.
Definition ch_update_pending {R} (keys : list (chorded_key R)) (auxs : list (chorded_aux R))
    (p : ch_pks) (ki : u16) (c : chorded_ctx) (r : chorded_ref) (ev : event ch_event)
  : res (ch_pks * option (new_pressed_key R) * key_events ch_event) :=
  match r with
  | ChChorded i => let! k := index keys (N.to_nat i) in chk_update_pending k p ki c ev
  | ChAuxiliary i => let! k := index auxs (N.to_nat i) in cha_update_pending k p ki c ev
  end.
