(** Specification vocabulary for the event scheduler (C09-C11, C13). *)
From Coq Require Import Sorted.
From Verif Require Import Base Output Types Scheduler.
Local Open Scope N_scope.

(** What the documentation of [slice::binary_search_by] guarantees about the
    insertion position, for a list in decreasing order. *)
Definition decreasing (l : list u32) : Prop := StronglySorted (fun a b => b <= a) l.
Definition position_ok (bs : position_fn) : Prop :=
  forall l t, decreasing l ->
    (bs l t <= length l)%nat
    /\ Forall (fun x => t <= x) (firstn (bs l t) l)
    /\ Forall (fun x => x <= t) (skipn (bs l t) l).

Section Hist.
Context {E : Type}.

(** A history of calls on the scheduler. *)
Inductive so :=
| SoNow (e : event E)              (* schedule_event, immediate *)
| SoAfter (d : u32) (e : event E)  (* schedule_after *)
| SoCancel (i : u16)               (* cancel_events_for_keymap_index *)
| SoTick (ms : u8)                 (* tick *)
| SoDequeue.                       (* dequeue *)

(** Run a history, collecting what each dequeue returned. *)
Definition so_step (bs : position_fn) (st : scheduler E * list (option (event E))) (o : so)
  : res (scheduler E * list (option (event E))) :=
  let '(s, tr) := st in
  match o with
  | SoNow e => let! s' := sched_enqueue s e in Ok (s', tr)
  | SoAfter d e => let! s' := sched_after bs s d e in Ok (s', tr)
  | SoCancel i => Ok (sched_cancel s i, tr)
  | SoTick ms => let! s' := sched_tick s ms in Ok (s', tr)
  | SoDequeue => let '(s', x) := sched_dequeue s in Ok (s', tr ++ [x])
  end.
Definition so_run_from (bs : position_fn) (ops : list so) (s : scheduler E)
  : res (scheduler E * list (option (event E))) := fold_res (so_step bs) ops (s, []).
Definition so_run (bs : position_fn) (ops : list so)
  : res (scheduler E * list (option (event E))) := so_run_from bs ops sched_new.

(** The events a trace delivered. *)
Definition delivered (tr : list (option (event E))) : list (event E) := filter_map (fun x => x) tr.

(** The clock: total time of the ticks of a history. *)
Fixpoint elapsed (ops : list so) : N :=
  match ops with
  | [] => 0
  | SoTick ms :: t => ms + elapsed t
  | _ :: t => elapsed t
  end.

(** Every event a history asks for. *)
Fixpoint requested (ops : list so) : list (event E) :=
  match ops with
  | [] => []
  | SoNow e :: t => e :: requested t
  | SoAfter _ e :: t => e :: requested t
  | _ :: t => requested t
  end.

(** The delayed events of a history with their due times, the clock being at
    [c] before the history. *)
Fixpoint due_times (c : N) (ops : list so) : list (event E * N) :=
  match ops with
  | [] => []
  | SoAfter d e :: t => (e, c + d) :: due_times c t
  | SoTick ms :: t => due_times (c + ms) t
  | _ :: t => due_times c t
  end.

(** Number of delayed events due by time [t]. *)
Definition due_by (t : N) (ops : list so) : nat :=
  length (filter (fun p => snd p <=? t) (due_times 0 ops)).

(** Number of ticks of a history after which the clock is at least [t], the
    clock being [c] before it. *)
Fixpoint ticks_from (t c : N) (ops : list so) : nat :=
  match ops with
  | [] => 0
  | SoTick ms :: r => (if (t <=? c + ms)%N then 1 else 0) + ticks_from t (c + ms)%N r
  | _ :: r => ticks_from t c r
  end%nat.

(** What is still waiting. *)
Definition waiting (s : scheduler E) : list (event E) :=
  delivered (sc_pending s) ++ map en_event (filter en_live (sc_scheduled s)).

Definition is_key_of (i : u16) (e : event E) : bool :=
  match e with EvKey j _ => j =? i | _ => false end.
End Hist.
Arguments so E : clear implicits.
