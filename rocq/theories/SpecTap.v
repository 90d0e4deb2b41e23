(** Specification vocabulary for undecided keys: tap-hold and tap-dance keys
    (C21-C24). *)
From Verif Require Import Base Output Types Scheduler TapHold TapDance Sticky CapsWord Composite Keymap.
Local Open Scope N_scope.

(** The key pressed last in a history of events. *)
Fixpoint latest_press {E} (hist : list (event E)) : option u16 :=
  match hist with
  | [] => None
  | ev :: t => match latest_press t with
               | Some k => Some k
               | None => match ev with EvInput (Press k) => Some k | _ => None end
               end
  end.
(** How often key [ki] was pressed. *)
Fixpoint presses {E} (ki : u16) (hist : list (event E)) : nat :=
  match hist with
  | [] => O
  | EvInput (Press k) :: t => if k =? ki then S (presses ki t) else presses ki t
  | _ :: t => presses ki t
  end.

(** The first event of [evs] that decides, given the rule [decide] that looks at
    the history so far and the event; with the events left. *)
Fixpoint first_decision {E D} (decide : list (event E) -> event E -> option D)
    (hist evs : list (event E)) : option (D * list (event E)) :=
  match evs with
  | [] => None
  | ev :: t => match decide hist ev with
               | Some d => Some (d, t)
               | None => first_decision decide (hist ++ [ev]) t
               end
  end.

(** *** Tap-hold: what decides, from the documentation of the key *)
Inductive tap_or_hold := IsTap | IsHold.
Definition tap_hold_rule (ir : interrupt_response) (ki : u16) (hist : list (event cev)) (ev : event cev)
  : option tap_or_hold :=
  match ev with
  | EvKey _ (CeTapHold TapHoldTimeout) => Some IsHold
  | EvInput (Release k) =>
      if k =? ki then Some IsTap
      else match ir, latest_press hist with
           | IrHoldOnKeyTap, Some k' => if k =? k' then Some IsHold else None
           | _, _ => None
           end
  | EvInput (Press _) => match ir with IrHoldOnKeyPress => Some IsHold | _ => None end
  | _ => None
  end.

(** The key it then acts as. *)
Definition tap_hold_key (key : taphold_key ref) (x : tap_or_hold) : ref :=
  match x with IsTap => th_tap key | IsHold => th_hold key end.

(** *** Tap-dance with [n] definitions: which definition is selected. *)
Definition tap_dance_rule (n : nat) (ki : u16) (hist : list (event cev)) (ev : event cev) : option nat :=
  let count := presses ki (hist ++ [ev]) in
  match ev with
  | EvKey k (CeTapDance (NextPressTimeout m)) =>
      if (k =? ki) && (m =? N.of_nat count) then Some count
      else if (n - 1 <=? count)%nat then Some (n - 1)%nat else None
  | EvKey _ (CeTapHold _ | CeLayered _ | CeSticky _ | CeChorded _ | CeCapsWord _ | CeAutomation _) => None
  | _ => if (n - 1 <=? count)%nat then Some (n - 1)%nat else None
  end.

(** The timers a tap-dance key starts while it is fed [evs], having been re-pressed
    [n] times before: the [n]-th re-press starts timer number [n]. *)
Fixpoint dance_timers (timeout : u16) (ki : u16) (n : nat) (evs : list (event cev)) : key_events cev :=
  match evs with
  | [] => []
  | EvInput (Press k) :: t =>
      if k =? ki
      then mkSE (After timeout) (EvKey ki (CeTapDance (NextPressTimeout (N.of_nat (S n)))))
           :: dance_timers timeout ki (S n) t
      else dance_timers timeout ki n t
  | _ :: t => dance_timers timeout ki n t
  end.

(** Feeding events to an undecided key of the composite system until it is
    decided: the key it becomes and the events left, or the undecided state; with
    the events it emits.  The context may be a different one at each event. *)
Inductive fed :=
| Undecided (p : cpks)
| Became (n : new_pressed_key ref) (rest : list (event cev)).
Fixpoint feed (d : key_data) (ki : u16) (r : ref) (p : cpks) (evs : list (cctx * event cev))
  : res (fed * key_events cev) :=
  match evs with
  | [] => Ok (Undecided p, [])
  | (c, ev) :: t =>
      let! (p', n, kes) := c_update_pending d p ki c r ev in
      match n with
      | Some n' => Ok (Became n' (map snd t), kes)
      | None => let! (f, kes') := feed d ki r p' t in Ok (f, kes ++ kes')
      end
  end.

(** *** Idle time
    Without calls that advance time by themselves ([C42] expresses those by ticks). *)
Definition basic_op (o : op) : Prop :=
  match o with OpInputAfter _ _ | OpTickToNext => False | _ => True end.
(** Milliseconds per tick, time since the last input, and the latter as it was
    at the start of the last tick. *)
Definition idle_clock := (N * N * N)%type.
Definition idle_step (s : idle_clock) (o : op) : idle_clock :=
  let '(ms, idle, seen) := s in
  match o with
  | OpInput _ => (ms, 0, seen)
  | OpTick => (ms, idle + ms, idle)
  | OpInit => (1, 0, seen)
  | OpSetMs m => (m, idle, seen)
  | _ => s
  end.
Definition idle_seen (ops : list op) : N :=
  let '(_, _, seen) := fold_left idle_step ops (1, 0, 0) in seen.

(** Required idle time not yet reached. *)
Definition too_soon (required : option u16) (idle : N) : Prop :=
  exists r, required = Some r /\ idle < r.

(** Ticks needed for a duration: at least one. *)
Definition ticks_of (ms : N) (delta : N) : nat := if delta =? 0 then 1%nat else N.to_nat (delta / ms).

(** *** A keymap at rest: nothing pressed, undecided, waiting or scheduled, no
    input since the last tick, caps word off and no sticky modifiers. *)
Definition at_rest (k : ckeymap) : Prop :=
  km_pending k = None /\ km_pressed k = [] /\ km_inq k = [] /\ km_delay k = 0
  /\ sc_pending (km_sched k) = [] /\ sc_scheduled (km_sched k) = []
  /\ cwx_active (cx_caps_word (km_ctx k)) = false /\ stx_active (cx_sticky (km_ctx k)) = [].
