(** Specification vocabulary for the keymap (C12-C20, C39, C40). *)
From Verif Require Import Base Output Types Scheduler Keymap.
Local Open Scope N_scope.

(** Physical inputs are presses and releases of keys of the keyboard. *)
Definition physical (ie : input_event) : bool :=
  match ie with Press _ | Release _ => true | _ => false end.

Section Spec.
Context {R Ctx Ev PKS KS : Type}.
Implicit Type sys : system R Ctx Ev PKS KS.
Implicit Type conf : kconf R Ctx Ev PKS KS.
Local Notation km := (keymap R Ctx Ev PKS KS).

(** *** Assumptions on key systems *)

(** Every event the key system asks the keymap to deliver satisfies [P]. *)
Definition emits_only sys (P : event Ev -> Prop) : Prop :=
  let ok := Forall (fun se => P (se_event se)) in
  (forall i c r x kes, sys_new_pressed_key sys i c r = Ok (x, kes) -> ok kes)
  /\ (forall p i c r ev x kes, sys_update_pending_state sys p i c r ev = Ok (x, kes) -> ok kes)
  /\ (forall s r c i ev x kes, sys_update_state sys s r c i ev = Ok (x, kes) -> ok kes)
  /\ (forall c ev x kes, sys_ctx_handle_event sys c ev = Ok (x, kes) -> ok kes).

(** Not a press or release of a physical key. *)
Definition not_physical (ev : event Ev) : Prop :=
  match ev with EvInput ie => physical ie = false | _ => True end.
(** Not an input of any kind. *)
Definition not_input (ev : event Ev) : Prop :=
  match ev with EvInput _ => False | _ => True end.

(** No key of the keymap is ever undecided when pressed: [plain] is a set of
    keys that contains the keymap's keys and the keys they stand for, and no key
    in it is undecided. *)
Definition all_plain conf (plain : R -> Prop) : Prop :=
  Forall plain (kc_refs conf)
  /\ (forall i c r p kes, plain r -> sys_new_pressed_key (kc_sys conf) i c r <> Ok (PkPending p, kes))
  /\ (forall i c r r' kes, plain r ->
        sys_new_pressed_key (kc_sys conf) i c r = Ok (PkNewPressedKey (NpkKey r'), kes) -> plain r').
Definition never_pending conf : Prop := exists plain, all_plain conf plain.

(** A key that was undecided becomes a decided key at once: there is a set of
    keys, containing every key an undecided key can become, none of which is
    undecided when it takes effect. *)
Definition decides_at_once sys : Prop :=
  exists safe : R -> Prop,
    (forall p i c r ev p' r' kes,
        sys_update_pending_state sys p i c r ev = Ok (p', Some (NpkKey r'), kes) -> safe r')
    /\ (forall i c r p kes, safe r -> sys_new_pressed_key sys i c r <> Ok (PkPending p, kes))
    /\ (forall i c r r' kes, safe r ->
          sys_new_pressed_key sys i c r = Ok (PkNewPressedKey (NpkKey r'), kes) -> safe r').

(** *** The state as seen from outside *)

(** The physical keys currently pressed, and the virtual keys. *)
Definition pressed_index (pi : pressed_input R KS) : list u16 :=
  match pi with PiKey i _ _ => [i] | PiVirtual _ => [] end.
Definition pressed_keys_of (k : km) : list u16 := flat_map pressed_index (km_pressed k).

(** What is pressed, without the evolving key states. *)
Definition shape_of (pi : pressed_input R KS) : (u16 * R) + key_output :=
  match pi with PiKey i r _ => inl (i, r) | PiVirtual ko => inr ko end.
Definition pressed_shape (k : km) : list ((u16 * R) + key_output) := map shape_of (km_pressed k).

(** What an input other than a press does to what is pressed: a release removes
    the entry of that key, a virtual press adds a virtual key at the end, and a
    virtual release removes the first equal virtual key. *)
Definition shape_step (l : list ((u16 * R) + key_output)) (ie : input_event) : list ((u16 * R) + key_output) :=
  match ie with
  | Press _ => l
  | Release i => remove_first (fun s => match s with inl (j, _) => i =? j | inr _ => false end) l
  | VirtualKeyPress ko => l ++ [inr ko]
  | VirtualKeyRelease ko => remove_first (fun s => match s with inl _ => false | inr ko' => ko_eqb ko ko' end) l
  end.

(** *** Watching a keymap: the same key system, with a context that also
    records every event it is given. *)
Definition watch_sys sys : system R (Ctx * list (event Ev)) Ev PKS KS :=
  mkSystem _ _ _ _ _
    (fun i c r => sys_new_pressed_key sys i (fst c) r)
    (fun p i c r ev => sys_update_pending_state sys p i (fst c) r ev)
    (fun s r c i ev => sys_update_state sys s r (fst c) i ev)
    (sys_key_output sys)
    (fun c ev => let! (x, kes) := sys_ctx_handle_event sys (fst c) ev in
                 Ok ((x, snd c ++ [ev]), kes))
    (fun c t idle => (sys_ctx_set_keymap_context sys (fst c) t idle, snd c))
    (sys_no_op sys).
Definition watch conf : kconf R (Ctx * list (event Ev)) Ev PKS KS :=
  mkConf (kc_refs conf) (watch_sys (kc_sys conf)) (kc_pos conf) (kc_debug conf).
Definition seen (k : keymap R (Ctx * list (event Ev)) Ev PKS KS) : list (event Ev) := snd (km_ctx k).
Definition forget (k : keymap R (Ctx * list (event Ev)) Ev PKS KS) : km :=
  mkKM (fst (km_ctx k)) (km_pressed k) (km_sched k) (km_ms_per_tick k) (km_idle k) (km_rep k)
       (km_pending k) (km_inq k) (km_delay k) (km_callbacks k) (km_calls k).

(** The physical inputs and the callbacks among the events seen. *)
Definition physical_of (ev : event Ev) : option input_event :=
  match ev with EvInput ie => if physical ie then Some ie else None | _ => None end.
Definition input_of (ev : event Ev) : option input_event :=
  match ev with EvInput ie => Some ie | _ => None end.
Definition callback_of (ev : event Ev) : option callback :=
  match ev with EvKeymap (KmCallback cb) => Some cb | _ => None end.
End Spec.

(** Outcome of a call, with the result mapped. *)
Definition res_map {A B} (f : A -> B) (m : res A) : res B :=
  match m with Ok a => Ok (f a) | Panic => Panic | NoFuel => NoFuel end.

(** *** The input queue (C14) *)

(** Inputs processed so far, inputs waiting, and whether an input was already
    processed since the last tick. *)
Record queue := mkQueue { q_done : list input_event; q_waiting : list input_event; q_busy : bool }.
Definition queue_new : queue := mkQueue [] [] false.
Definition queue_take (q : queue) : queue :=
  match q_waiting q with
  | [] => q
  | x :: w => mkQueue (q_done q ++ [x]) w true
  end.
Definition queue_input (q : queue) (ev : input_event) : queue :=
  if (length (q_waiting q) <? 31)%nat then
    let q' := mkQueue (q_done q) (q_waiting q ++ [ev]) (q_busy q) in
    if q_busy q then q' else queue_take q'
  else q.
Definition queue_tick (q : queue) : queue :=
  let q' := if q_busy q then q else queue_take q in
  mkQueue (q_done q') (q_waiting q') false.
(** The calls that do not advance time or reset. *)
Definition simple_op (o : op) : bool :=
  match o with OpInput _ | OpTick | OpReport | OpSetMs _ | OpSetCallback _ _ => true | _ => false end.
Definition queue_step (q : queue) (o : op) : queue :=
  match o with OpInput ev => queue_input q ev | OpTick => queue_tick q | _ => q end.
Definition queue_run (ops : list op) : queue := fold_left queue_step ops queue_new.
(** The inputs accepted by a history: all but those arriving at a full queue. *)
Fixpoint accepted_from (q : queue) (ops : list op) : list input_event :=
  match ops with
  | [] => []
  | o :: t =>
      (match o with
       | OpInput ev => if (length (q_waiting q) <? 31)%nat then [ev] else []
       | _ => [] end) ++ accepted_from (queue_step q o) t
  end.
Definition accepted (ops : list op) : list input_event := accepted_from queue_new ops.

(** *** Callbacks (C18) *)

(** The function registered for [cb] by a history: the last one. *)
Fixpoint registered_in (ops : list op) (cb : callback) (cur : option callback_fn) : option callback_fn :=
  match ops with
  | [] => cur
  | OpSetCallback c f :: t => registered_in t cb (if callback_eqb c cb then Some f else cur)
  | _ :: t => registered_in t cb cur
  end.
Definition registered (ops : list op) (cb : callback) : option callback_fn := registered_in ops cb None.
(** The functions that a list of handled events should call. *)
Definition calls_for {Ev} (ops : list op) (l : list (event Ev)) : list callback_fn :=
  filter_map (registered ops) (filter_map callback_of l).

(** *** Time until the next scheduled event (C13) *)
Definition minimum (l : list N) : option N :=
  match l with [] => None | x :: t => Some (fold_left N.min t x) end.
Definition time_until_next {R Ctx Ev PKS KS} (k : keymap R Ctx Ev PKS KS) : option N :=
  minimum (map (fun en => en_time en - sc_counter (km_sched k)) (sc_scheduled (km_sched k))).
Definition none_overdue {R Ctx Ev PKS KS} (k : keymap R Ctx Ev PKS KS) : Prop :=
  forall en, In en (sc_scheduled (km_sched k)) -> sc_counter (km_sched k) < en_time en.

(** *** Time (C20) *)
(** [ck_now]: scheduler clock; [ck_idle]: idle time; [ck_ms]: ms per tick. *)
Record clocks := mkClocks { ck_now : N; ck_idle : N; ck_ms : N }.
Definition clocks_new : clocks := mkClocks 0 0 1.
Definition clocks_step (c : clocks) (o : op) : clocks :=
  match o with
  | OpTick => mkClocks (ck_now c + ck_ms c) (ck_idle c + ck_ms c) (ck_ms c)
  | OpInput _ => mkClocks (ck_now c) 0 (ck_ms c)
  | OpInputAfter d _ =>
      let n := if d =? 0 then 1 else d / ck_ms c in
      mkClocks (ck_now c + n * ck_ms c) 0 (ck_ms c)
  | OpSetMs ms => mkClocks (ck_now c) (ck_idle c) ms
  | OpInit => clocks_new
  | _ => c
  end.
Definition clocks_run (ops : list op) : clocks := fold_left clocks_step ops clocks_new.
Definition timed_op (o : op) : bool := match o with OpTickToNext => false | _ => true end.
