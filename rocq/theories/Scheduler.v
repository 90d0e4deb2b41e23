(** Event scheduler.  Models /repo/src/keymap/event_scheduler.rs. *)
From Verif Require Import Base Output Types.
Local Open Scope N_scope.

(** event_scheduler.rs 9-10.  The pending queue is a [heapless::spsc::Queue<_, 32>],
    which holds at most 31 elements. *)
Definition MAX_PENDING_EVENTS : nat := 32.
Definition PENDING_CAPACITY : nat := 31.
Definition MAX_SCHEDULED_EVENTS : nat := 32.

(** event_scheduler.rs 12-17 [ScheduledEvent]. *)
Record sch_entry (E : Type) := mkEntry {
  en_time : u32;
  en_event : event E;
  en_live : bool
}.
Arguments mkEntry {E} en_time en_event en_live.
Arguments en_time {E} s.
Arguments en_event {E} s.
Arguments en_live {E} s.

(** event_scheduler.rs 19-24 [EventScheduler].  [sc_pending] front first;
    [None] is a cancelled event's placeholder. *)
Record scheduler (E : Type) := mkSched {
  sc_pending : list (option (event E));
  sc_scheduled : list (sch_entry E);
  sc_counter : u32
}.
Arguments mkSched {E} sc_pending sc_scheduled sc_counter.
Arguments sc_pending {E} s.
Arguments sc_scheduled {E} s.
Arguments sc_counter {E} s.

(** event_scheduler.rs 27-33 [new]. *)
Definition sched_new {E} : scheduler E := mkSched [] [] 0.

(** event_scheduler.rs 36: [while pending_events.dequeue().flatten().is_some() {}].
    The loop also consumes the element on which it stops. *)
Fixpoint drain_pending {E} (l : list (option (event E))) : list (option (event E)) :=
  match l with
  | [] => []
  | Some _ :: t => drain_pending t
  | None :: t => t
  end.

(** event_scheduler.rs 35-39 [init]. *)
Definition sched_init {E} (s : scheduler E) : scheduler E :=
  mkSched (drain_pending (sc_pending s)) [] 0.

(** event_scheduler.rs 52-54 [enqueue_event]. *)
Definition sched_enqueue {E} (s : scheduler E) (e : event E) : res (scheduler E) :=
  let! p := push_cap PENDING_CAPACITY (sc_pending s) (Some e) in
  Ok (mkSched p (sc_scheduled s) (sc_counter s)).

(** A position function: [binary_search_by(..).unwrap_or_else(|e| e)] applied to
    the times of the scheduled events and the time to insert.  The standard
    library leaves the choice among equal elements open, so the model takes the
    function as a parameter. *)
Definition position_fn := list u32 -> u32 -> nat.

(** [Vec::insert(pos, x)] for [pos <= len]. *)
Definition insert_at {A} (pos : nat) (x : A) (l : list A) : list A :=
  firstn pos l ++ x :: skipn pos l.

(** event_scheduler.rs 56-75 [schedule_after].  [heapless::Vec::insert] fails
    when the vector is full (32) and panics when [pos > len]. *)
Definition sched_after {E} (bs : position_fn) (s : scheduler E) (delay : u32) (e : event E)
  : res (scheduler E) :=
  let! time := u32_add (sc_counter s) delay in
  let pos := bs (map en_time (sc_scheduled s)) time in
  if (length (sc_scheduled s) <? MAX_SCHEDULED_EVENTS)%nat
  then if (pos <=? length (sc_scheduled s))%nat
       then Ok (mkSched (sc_pending s)
                        (insert_at pos (mkEntry time e true) (sc_scheduled s))
                        (sc_counter s))
       else Panic
  else Panic.

(** event_scheduler.rs 41-50 [schedule_event]. *)
Definition sched_event_in {E} (bs : position_fn) (s : scheduler E) (se : sched_event E)
  : res (scheduler E) :=
  match se_schedule se with
  | Immediate => sched_enqueue s (se_event se)
  | After d => sched_after bs s d (se_event se)
  end.

(** Scheduling all of a [KeyEvents] in order
    (keymap.rs, the recurring [for_each(|sch_ev| scheduler.schedule_event(sch_ev))]). *)
Definition sched_all {E} (bs : position_fn) (s : scheduler E) (kes : key_events E)
  : res (scheduler E) :=
  fold_res (sched_event_in bs) kes s.

(** event_scheduler.rs 77-90 [cancel_events_for_keymap_index]. *)
Definition cancel_entry {E} (ki : u16) (en : sch_entry E) : sch_entry E :=
  match en_event en with
  | EvKey i _ => if i =? ki then mkEntry (en_time en) (en_event en) false else en
  | _ => en
  end.
Definition sched_cancel {E} (s : scheduler E) (ki : u16) : scheduler E :=
  mkSched (sc_pending s) (map (cancel_entry ki) (sc_scheduled s)) (sc_counter s).

(** [slice::last] *)
Fixpoint last_opt {A} (l : list A) : option A :=
  match l with
  | [] => None
  | [x] => Some x
  | _ :: t => last_opt t
  end.

(** event_scheduler.rs 92-107 [tick]: at most one scheduled event is popped. *)
Definition sched_tick {E} (s : scheduler E) (delta_ms : u8) : res (scheduler E) :=
  let! c := u32_add (sc_counter s) delta_ms in
  match last_opt (sc_scheduled s) with
  | Some en =>
      if en_time en <=? c
      then let! p := push_cap PENDING_CAPACITY (sc_pending s)
                       (if en_live en then Some (en_event en) else None) in
           Ok (mkSched p (removelast (sc_scheduled s)) c)
      else Ok (mkSched (sc_pending s) (sc_scheduled s) c)
  | None => Ok (mkSched (sc_pending s) (sc_scheduled s) c)
  end.

(** event_scheduler.rs 109-111 [dequeue]: [None] both when the queue is empty
    and when a cancelled placeholder was removed. *)
Definition sched_dequeue {E} (s : scheduler E) : scheduler E * option (event E) :=
  match sc_pending s with
  | [] => (s, None)
  | o :: t => (mkSched t (sc_scheduled s) (sc_counter s), o)
  end.

(** event_scheduler.rs 114-122 [next_event_time]. *)
Definition next_event_time {E} (s : scheduler E) : res (option u32) :=
  match sc_pending s with
  | [] => match last_opt (sc_scheduled s) with
          | Some en => let! d := u32_sub (en_time en) (sc_counter s) in Ok (Some d)
          | None => Ok None
          end
  | _ :: _ => Ok (Some 0)
  end.

(** ** A concrete position function: the loop of [slice::binary_search_by] in
    the Rust standard library (1.82 and later), specialised to the reversed
    comparison of event_scheduler.rs 63.  Used for examples only. *)
Fixpoint bs_loop (fuel : nat) (l : list u32) (t : u32) (size base : nat) : nat :=
  match fuel with
  | O => base
  | S f =>
      if (size <=? 1)%nat then base
      else let half := Nat.div2 size in
           let mid := (base + half)%nat in
           (* cmp == Greater  iff  cmp_time < time *)
           let base' := if nth mid l 0 <? t then base else mid in
           bs_loop f l t (size - half) base'
  end.
Definition bs_std : position_fn := fun l t =>
  match l with
  | [] => O
  | _ => let base := bs_loop (length l) l t (length l) 0 in
         let x := nth base l 0 in
         if x =? t then base
         else if t <? x then S base else base
  end.
