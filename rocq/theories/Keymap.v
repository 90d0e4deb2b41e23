(** The keymap state machine, for an arbitrary key system.
    Models /repo/src/key.rs 178-262 (traits) and /repo/src/keymap.rs 148-793. *)
From Verif Require Import Base Output Types Scheduler Reporter.
Local Open Scope N_scope.

(** keymap.rs 35, 38.  A [heapless::spsc::Queue<_, 32>] holds 31 elements. *)
Definition INPUT_QUEUE_CAPACITY : nat := 31.
Definition INPUT_QUEUE_TICK_DELAY : u8 := 1.
(** keymap.rs 247: [callbacks: LinearMap<_, _, 2>]. *)
Definition CALLBACKS_CAPACITY : nat := 2.

(** key.rs 178-245 [System], 251-262 [Context], keymap.rs 208-211
    [SetKeymapContext], and [From<NoOpKeyState>] for key states.
    A function of the real trait which can panic returns [res] here;
    [&mut] arguments are returned. *)
Record system (R Ctx Ev PKS KS : Type) := mkSystem {
  sys_new_pressed_key : u16 -> Ctx -> R -> res (pressed_key_result R PKS KS * key_events Ev);
  sys_update_pending_state :
    PKS -> u16 -> Ctx -> R -> event Ev -> res (PKS * option (new_pressed_key R) * key_events Ev);
  sys_update_state : KS -> R -> Ctx -> u16 -> event Ev -> res (KS * key_events Ev);
  sys_key_output : R -> KS -> res (option key_output);
  sys_ctx_handle_event : Ctx -> event Ev -> res (Ctx * key_events Ev);
  sys_ctx_set_keymap_context : Ctx -> u32 -> u32 -> Ctx;
  sys_no_op : KS
}.
Arguments sys_new_pressed_key {R Ctx Ev PKS KS}.
Arguments sys_update_pending_state {R Ctx Ev PKS KS}.
Arguments sys_update_state {R Ctx Ev PKS KS}.
Arguments sys_key_output {R Ctx Ev PKS KS}.
Arguments sys_ctx_handle_event {R Ctx Ev PKS KS}.
Arguments sys_ctx_set_keymap_context {R Ctx Ev PKS KS}.
Arguments sys_no_op {R Ctx Ev PKS KS}.

(** keymap.rs 148-154 [PendingState]. *)
Record pending_state (R Ev PKS : Type) := mkPending {
  pd_index : u16;
  pd_ref : R;
  pd_state : PKS;
  pd_queued : list (event Ev)
}.
Arguments mkPending {R Ev PKS}.
Arguments pd_index {R Ev PKS}.
Arguments pd_ref {R Ev PKS}.
Arguments pd_state {R Ev PKS}.
Arguments pd_queued {R Ev PKS}.

(** keymap.rs 226-232 [CallbackFunction]: functions are opaque; a number names
    the function registered. *)
Definition callback_fn := N.

(** The immutable part of the keymap (keymap.rs 236-237 [key_refs],
    [key_system]), the insertion position function of the scheduler, and
    whether debug assertions are compiled in. *)
Record kconf (R Ctx Ev PKS KS : Type) := mkConf {
  kc_refs : list R;
  kc_sys : system R Ctx Ev PKS KS;
  kc_pos : position_fn;
  kc_debug : bool
}.
Arguments mkConf {R Ctx Ev PKS KS}.
Arguments kc_refs {R Ctx Ev PKS KS}.
Arguments kc_sys {R Ctx Ev PKS KS}.
Arguments kc_pos {R Ctx Ev PKS KS}.
Arguments kc_debug {R Ctx Ev PKS KS}.

(** keymap.rs 235-248 [Keymap].  [km_calls] is a ghost log of the callback
    functions invoked, oldest first. *)
Record keymap (R Ctx Ev PKS KS : Type) := mkKM {
  km_ctx : Ctx;
  km_pressed : list (pressed_input R KS);
  km_sched : scheduler Ev;
  km_ms_per_tick : u8;
  km_idle : u32;
  km_rep : reporter;
  km_pending : option (pending_state R Ev PKS);
  km_inq : list input_event;
  km_delay : u8;
  km_callbacks : list (callback * callback_fn);
  km_calls : list callback_fn
}.
Arguments mkKM {R Ctx Ev PKS KS}.
Arguments km_ctx {R Ctx Ev PKS KS}.
Arguments km_pressed {R Ctx Ev PKS KS}.
Arguments km_sched {R Ctx Ev PKS KS}.
Arguments km_ms_per_tick {R Ctx Ev PKS KS}.
Arguments km_idle {R Ctx Ev PKS KS}.
Arguments km_rep {R Ctx Ev PKS KS}.
Arguments km_pending {R Ctx Ev PKS KS}.
Arguments km_inq {R Ctx Ev PKS KS}.
Arguments km_delay {R Ctx Ev PKS KS}.
Arguments km_callbacks {R Ctx Ev PKS KS}.
Arguments km_calls {R Ctx Ev PKS KS}.

Section Keymap.
Context {R Ctx Ev PKS KS : Type}.
Variable conf : kconf R Ctx Ev PKS KS.

Local Notation km := (keymap R Ctx Ev PKS KS).
Local Notation sys := (kc_sys conf).
Local Notation pos := (kc_pos conf).

(** Field updates. *)
Definition set_ctx (k : km) (x : Ctx) : km :=
  mkKM x (km_pressed k) (km_sched k) (km_ms_per_tick k) (km_idle k) (km_rep k)
       (km_pending k) (km_inq k) (km_delay k) (km_callbacks k) (km_calls k).
Definition set_pressed (k : km) (x : list (pressed_input R KS)) : km :=
  mkKM (km_ctx k) x (km_sched k) (km_ms_per_tick k) (km_idle k) (km_rep k)
       (km_pending k) (km_inq k) (km_delay k) (km_callbacks k) (km_calls k).
Definition set_sched (k : km) (x : scheduler Ev) : km :=
  mkKM (km_ctx k) (km_pressed k) x (km_ms_per_tick k) (km_idle k) (km_rep k)
       (km_pending k) (km_inq k) (km_delay k) (km_callbacks k) (km_calls k).
Definition set_ms_per_tick (k : km) (x : u8) : km :=
  mkKM (km_ctx k) (km_pressed k) (km_sched k) x (km_idle k) (km_rep k)
       (km_pending k) (km_inq k) (km_delay k) (km_callbacks k) (km_calls k).
Definition set_idle (k : km) (x : u32) : km :=
  mkKM (km_ctx k) (km_pressed k) (km_sched k) (km_ms_per_tick k) x (km_rep k)
       (km_pending k) (km_inq k) (km_delay k) (km_callbacks k) (km_calls k).
Definition set_rep (k : km) (x : reporter) : km :=
  mkKM (km_ctx k) (km_pressed k) (km_sched k) (km_ms_per_tick k) (km_idle k) x
       (km_pending k) (km_inq k) (km_delay k) (km_callbacks k) (km_calls k).
Definition set_pending (k : km) (x : option (pending_state R Ev PKS)) : km :=
  mkKM (km_ctx k) (km_pressed k) (km_sched k) (km_ms_per_tick k) (km_idle k) (km_rep k)
       x (km_inq k) (km_delay k) (km_callbacks k) (km_calls k).
Definition set_inq (k : km) (x : list input_event) : km :=
  mkKM (km_ctx k) (km_pressed k) (km_sched k) (km_ms_per_tick k) (km_idle k) (km_rep k)
       (km_pending k) x (km_delay k) (km_callbacks k) (km_calls k).
Definition set_delay (k : km) (x : u8) : km :=
  mkKM (km_ctx k) (km_pressed k) (km_sched k) (km_ms_per_tick k) (km_idle k) (km_rep k)
       (km_pending k) (km_inq k) x (km_callbacks k) (km_calls k).
Definition set_callbacks (k : km) (x : list (callback * callback_fn)) : km :=
  mkKM (km_ctx k) (km_pressed k) (km_sched k) (km_ms_per_tick k) (km_idle k) (km_rep k)
       (km_pending k) (km_inq k) (km_delay k) x (km_calls k).
Definition set_calls (k : km) (x : list callback_fn) : km :=
  mkKM (km_ctx k) (km_pressed k) (km_sched k) (km_ms_per_tick k) (km_idle k) (km_rep k)
       (km_pending k) (km_inq k) (km_delay k) (km_callbacks k) x.

(** keymap.rs 286-301 [new]. *)
Definition km_new (ctx : Ctx) : km :=
  mkKM ctx [] sched_new 1 0 rep_new None [] 0 [] [].

(** keymap.rs 304-315 [init]: the context and the callbacks are not touched. *)
Definition km_init (k : km) : km :=
  mkKM (km_ctx k) [] (sched_init (km_sched k)) 1 0 (rep_init (km_rep k))
       None [] 0 (km_callbacks k) (km_calls k).

(** [LinearMap::insert] (heapless): replaces the value of an equal key,
    otherwise pushes; [Err] when full. *)
Fixpoint lm_replace (l : list (callback * callback_fn)) (c : callback) (f : callback_fn)
  : option (list (callback * callback_fn)) :=
  match l with
  | [] => None
  | (c', f') :: t =>
      if callback_eqb c' c then Some ((c', f) :: t)
      else match lm_replace t c f with Some t' => Some ((c', f') :: t') | None => None end
  end.
Definition lm_insert (l : list (callback * callback_fn)) (c : callback) (f : callback_fn)
  : res (list (callback * callback_fn)) :=
  match lm_replace l c f with
  | Some l' => Ok l'
  | None => push_cap CALLBACKS_CAPACITY l (c, f)
  end.
(** [LinearMap::get]. *)
Fixpoint lm_get (l : list (callback * callback_fn)) (c : callback) : option callback_fn :=
  match l with
  | [] => None
  | (c', f) :: t => if callback_eqb c' c then Some f else lm_get t c
  end.

(** keymap.rs 320-337 [set_callback], [set_callback_extern]. *)
Definition km_set_callback (k : km) (c : callback) (f : callback_fn) : res km :=
  let! l := lm_insert (km_callbacks k) c f in Ok (set_callbacks k l).

(** keymap.rs 340-342 [set_ms_per_tick]. *)
Definition km_set_ms_per_tick (k : km) (ms : u8) : km := set_ms_per_tick k ms.

(** keymap.rs 442-449 [has_pressed_input_with_keymap_index]. *)
Definition pi_has_index (i : u16) (pi : pressed_input R KS) : bool :=
  match pi with PiKey ki _ _ => i =? ki | PiVirtual _ => false end.
Definition has_pressed (k : km) (i : u16) : bool := existsb (pi_has_index i) (km_pressed k).

(** Scheduling a [KeyEvents]. *)
Definition schedule_all (k : km) (kes : key_events Ev) : res km :=
  let! s := sched_all pos (km_sched k) kes in Ok (set_sched k s).

(** keymap.rs 526-540 and 661-674: update every pressed key, scheduling the
    events it emits. *)
Fixpoint update_pressed_list (ctx : Ctx) (ev : event Ev)
    (pis : list (pressed_input R KS)) (s : scheduler Ev)
  : res (list (pressed_input R KS) * scheduler Ev) :=
  match pis with
  | [] => Ok ([], s)
  | PiVirtual ko :: t =>
      let! (t', s') := update_pressed_list ctx ev t s in Ok (PiVirtual ko :: t', s')
  | PiKey i r ks :: t =>
      let! (ks', kes) := sys_update_state sys ks r ctx i ev in
      let! s1 := sched_all pos s kes in
      let! (t', s') := update_pressed_list ctx ev t s1 in
      Ok (PiKey i r ks' :: t', s')
  end.
Definition update_pressed (k : km) (ev : event Ev) : res km :=
  let! (pis, s) := update_pressed_list (km_ctx k) ev (km_pressed k) (km_sched k) in
  Ok (set_sched (set_pressed k pis) s).

(** keymap.rs 542-545 and 677-680: update the context, scheduling its events. *)
Definition update_context (k : km) (ev : event Ev) : res km :=
  let! (ctx, kes) := sys_ctx_handle_event sys (km_ctx k) ev in
  schedule_all (set_ctx k ctx) kes.

(** keymap.rs 647-657: invoke the registered callback, if any. *)
Definition run_callback (k : km) (ev : event Ev) : km :=
  match ev with
  | EvKeymap (KmCallback cb) =>
      match lm_get (km_callbacks k) cb with
      | Some f => set_calls k (km_calls k ++ [f])
      | None => k
      end
  | _ => k
  end.

(** keymap.rs 377-393: is the queued event one of the pending key itself? *)
Definition is_own_event (i : u16) (ev : event Ev) : bool :=
  match ev with
  | EvInput (Press j) => j =? i
  | EvInput (Release j) => j =? i
  | EvKey j _ => j =? i
  | _ => false
  end.

(** keymap.rs 395-405: re-queue the events that were queued behind a pending
    key; [i] is the delay used for the (non input) scheduled ones. *)
Fixpoint requeue (evs : list (event Ev)) (i : u32) (q : list input_event) (s : scheduler Ev)
  : res (list input_event * scheduler Ev) :=
  match evs with
  | [] => Ok (q, s)
  | EvInput ie :: t =>
      let! q' := push_cap INPUT_QUEUE_CAPACITY q ie in requeue t i q' s
  | ev :: t =>
      let! s' := sched_after pos s i ev in requeue t (i + 1) q s'
  end.

Definition last_list {A} (l : list A) : list A :=
  match last_opt l with Some x => [x] | None => [] end.

(** The mutually recursive part of the keymap.  A [job] names one of the
    mutually recursive functions (or the head of one of their loops) together
    with its arguments; [exec] runs it with bounded recursion. *)
Inductive job :=
| JHandlePending                         (* handle_pending_events *)
| JHandleEvent (ev : event Ev)           (* handle_event *)
| JProcessInput (ie : input_event)       (* process_input *)
| JPressLoop (i : u16) (r : R)           (* loop of process_input, keymap.rs 553-607 *)
| JUpdatePending (ev : event Ev)         (* update_pending_state *)
| JPendingLoop (n : new_pressed_key R)   (* loop of update_pending_state, keymap.rs 473-518 *)
| JResolve (ks : KS).                    (* resolve_pending_key_state *)

Section Steps.
(** The recursive calls. *)
Variable rec : job -> km -> res km.

(** keymap.rs 688-693 [handle_pending_events]. *)
Definition step_handle_pending (k : km) : res km :=
  let '(s, o) := sched_dequeue (km_sched k) in
  match o with
  | None => Ok (set_sched k s)
  | Some ev =>
      let! k1 := rec (JHandleEvent ev) (set_sched k s) in
      rec JHandlePending k1
  end.

(** keymap.rs 646-686 [handle_event]. *)
Definition step_handle_event (ev : event Ev) (k : km) : res km :=
  let k0 := run_callback k ev in
  let! k1 := rec (JUpdatePending ev) k0 in
  let! k2 := update_pressed k1 ev in
  let! k3 := update_context k2 ev in
  match ev with
  | EvInput ie => rec (JProcessInput ie) k3
  | _ => Ok k3
  end.

(** keymap.rs 411-418 and 577-586: emit the output of a resolved key state. *)
Definition emit_resolved (i : u16) (r : R) (ks : KS) (k : km) : res km :=
  let! o := sys_key_output sys r ks in
  match o with
  | Some ko => rec (JHandleEvent (EvKeymap (KmResolvedKeyOutput i ko))) k
  | None => Ok k
  end.

(** keymap.rs 553-607: the loop of [process_input] on a press. *)
Definition step_press_loop (i : u16) (r : R) (k : km) : res km :=
  let! (pkr, kes) := sys_new_pressed_key sys i (km_ctx k) r in
  let! k1 := schedule_all k kes in
  match pkr with
  | PkResolved ks =>
      let! p := push_cap MAX_PRESSED_KEYS (km_pressed k1) (PiKey i r ks) in
      emit_resolved i r ks (set_pressed k1 p)
  | PkNewPressedKey (NpkKey r') => rec (JPressLoop i r') k1
  | PkNewPressedKey NpkNoOp =>
      let! p := push_cap MAX_PRESSED_KEYS (km_pressed k1) (PiKey i r (sys_no_op sys)) in
      Ok (set_pressed k1 p)
  | PkPending pks => Ok (set_pending k1 (Some (mkPending i r pks [])))
  end.

(** keymap.rs 547-638: the dispatch of [process_input] on the event. *)
Definition step_input_dispatch (ie : input_event) (k : km) : res km :=
  match ie with
  | Press i =>
      if has_pressed k i then Ok k
      else let! r := index (kc_refs conf) (N.to_nat i) in rec (JPressLoop i r) k
  | Release i => Ok (set_pressed k (remove_first (pi_has_index i) (km_pressed k)))
  | VirtualKeyPress ko =>
      let! p := push_cap MAX_PRESSED_KEYS (km_pressed k) (PiVirtual ko) in
      Ok (set_pressed k p)
  | VirtualKeyRelease ko =>
      Ok (set_pressed k (remove_first
            (fun pi => match pi with PiVirtual ko' => ko_eqb ko ko' | PiKey _ _ _ => false end)
            (km_pressed k)))
  end.

(** keymap.rs 522-642 [process_input]. *)
Definition step_process_input (ie : input_event) (k : km) : res km :=
  let! k1 :=
    match km_pending k with
    | Some p =>
        let! q := push_cap MAX_PRESSED_KEYS (pd_queued p) (EvInput ie) in
        rec (JUpdatePending (EvInput ie))
            (set_pending k (Some (mkPending (pd_index p) (pd_ref p) (pd_state p) q)))
    | None =>
        let! k1 := update_pressed k (EvInput ie) in
        let! k2 := update_context k1 (EvInput ie) in
        step_input_dispatch ie k2
    end in
  rec JHandlePending k1.

(** keymap.rs 451-472: [update_pending_state] up to its loop. *)
Definition step_update_pending (ev : event Ev) (k : km) : res km :=
  match km_pending k with
  | None => Ok k
  | Some p =>
      let! (pks', maybe_npk, kes) :=
        sys_update_pending_state sys (pd_state p) (pd_index p) (km_ctx k) (pd_ref p) ev in
      let! k1 := schedule_all
                   (set_pending k (Some (mkPending (pd_index p) (pd_ref p) pks' (pd_queued p)))) kes in
      match maybe_npk with
      | None => Ok k1
      | Some npk => rec (JPendingLoop npk) k1
      end
  end.

(** keymap.rs 505-516: the pending key became another pending key; its queued
    inputs are popped (last first) into the input queue, followed by what the
    input queue held. *)
Definition input_of_event (ev : event Ev) : option input_event :=
  match ev with EvInput ie => Some ie | _ => None end.
Definition requeue_reversed (queued : list (event Ev)) (inq : list input_event)
  : res (list input_event) :=
  let! q := push_all_cap INPUT_QUEUE_CAPACITY [] (filter_map input_of_event (rev queued)) in
  push_all_cap INPUT_QUEUE_CAPACITY q inq.

(** keymap.rs 473-518: the loop of [update_pending_state]. *)
Definition step_pending_loop (npk : new_pressed_key R) (k : km) : res km :=
  match km_pending k with
  | None => Ok k
  | Some p =>
      match npk with
      | NpkNoOp => rec (JResolve (sys_no_op sys)) k
      | NpkKey r =>
          let! (pkr, kes) := sys_new_pressed_key sys (pd_index p) (km_ctx k) r in
          let! k1 := schedule_all
                       (set_pending k (Some (mkPending (pd_index p) r (pd_state p) (pd_queued p)))) kes in
          match pkr with
          | PkResolved ks => rec (JResolve ks) k1
          | PkNewPressedKey (NpkKey r') => rec (JPendingLoop (NpkKey r')) k1
          | PkNewPressedKey NpkNoOp => rec (JResolve (sys_no_op sys)) k1
          | PkPending pks =>
              let! q := requeue_reversed (pd_queued p) (km_inq k1) in
              Ok (set_inq (set_pending k1 (Some (mkPending (pd_index p) r pks []))) q)
          end
      end
  end.

(** keymap.rs 346-421 [resolve_pending_key_state]. *)
Definition step_resolve (ks : KS) (k : km) : res km :=
  match km_pending k with
  | None => Ok k
  | Some p =>
      let i := pd_index p in
      let k1 := set_sched (set_pending k None) (sched_cancel (km_sched k) i) in
      let! pr := push_cap MAX_PRESSED_KEYS (km_pressed k1) (PiKey i (pd_ref p) ks) in
      let k2 := set_pressed k1 pr in
      let own := filter (is_own_event i) (pd_queued p) in
      let others := filter (fun ev => negb (is_own_event i ev)) (pd_queued p) in
      let! (q, s) := requeue (others ++ last_list own) 1 [] (km_sched k2) in
      let! q' := push_all_cap INPUT_QUEUE_CAPACITY q (km_inq k2) in
      let! k3 := rec JHandlePending (set_inq (set_sched k2 s) q') in
      emit_resolved i (pd_ref p) ks k3
  end.

Definition step (j : job) (k : km) : res km :=
  match j with
  | JHandlePending => step_handle_pending k
  | JHandleEvent ev => step_handle_event ev k
  | JProcessInput ie => step_process_input ie k
  | JPressLoop i r => step_press_loop i r k
  | JUpdatePending ev => step_update_pending ev k
  | JPendingLoop n => step_pending_loop n k
  | JResolve ks => step_resolve ks k
  end.
End Steps.

Fixpoint exec (fuel : nat) (j : job) (k : km) : res km :=
  match fuel with
  | O => NoFuel
  | S f => step (exec f) j k
  end.

(** keymap.rs 426-440 [handle_input]. *)
Definition km_handle_input (fuel : nat) (ev : input_event) (k : km) : res km :=
  let k0 := set_idle k 0 in
  if (length (km_inq k0) <? INPUT_QUEUE_CAPACITY)%nat
  then
    let k1 := set_inq k0 (km_inq k0 ++ [ev]) in
    if km_delay k1 =? 0
    then match km_inq k1 with
         | [] => Panic
         | ie :: q =>
             let! k2 := exec fuel (JProcessInput ie) (set_inq k1 q) in
             Ok (set_delay k2 INPUT_QUEUE_TICK_DELAY)
         end
    else Ok k1
  else Ok k0.

(** keymap.rs 696-718 [tick]. *)
Definition km_tick (fuel : nat) (k : km) : res km :=
  let k0 := set_ctx k (sys_ctx_set_keymap_context sys (km_ctx k)
                         (sc_counter (km_sched k)) (km_idle k)) in
  let! k1 :=
    match km_inq k0 with
    | ie :: q =>
        if km_delay k0 =? 0
        then let! k1 := exec fuel (JProcessInput ie) (set_inq k0 q) in
             Ok (set_delay k1 INPUT_QUEUE_TICK_DELAY)
        else Ok k0
    | [] => Ok k0
    end in
  let k2 := if 0 <? km_delay k1 then set_delay k1 (km_delay k1 - 1) else k1 in
  let! s := sched_tick (km_sched k2) (km_ms_per_tick k2) in
  let! k3 := exec fuel JHandlePending (set_sched k2 s) in
  let! idle := u32_add (km_idle k3) (km_ms_per_tick k3) in
  Ok (set_idle k3 idle).

(** keymap.rs 721-730 [pressed_keys]; the Vec has the capacity of
    [pressed_inputs], so [collect] cannot overflow. *)
Fixpoint outputs_of (pis : list (pressed_input R KS)) : res (list key_output) :=
  match pis with
  | [] => Ok []
  | PiVirtual ko :: t => let! r := outputs_of t in Ok (ko :: r)
  | PiKey _ kr ks :: t =>
      let! o := sys_key_output sys kr ks in
      let! r := outputs_of t in
      Ok (match o with Some ko => ko :: r | None => r end)
  end.
Definition km_pressed_keys (k : km) : res (list key_output) := outputs_of (km_pressed k).

(** keymap.rs 732-740 [tick_by]; the division panics when [ms_per_tick] is 0. *)
Fixpoint tick_n (fuel : nat) (n : nat) (k : km) : res km :=
  match n with
  | O => Ok k
  | S n' => let! k1 := km_tick fuel k in tick_n fuel n' k1
  end.
Definition km_tick_by (fuel : nat) (delta : u32) (k : km) : res km :=
  if delta =? 0 then km_tick fuel k
  else if km_ms_per_tick k =? 0 then Panic
  else tick_n fuel (N.to_nat (delta / km_ms_per_tick k)) k.

(** keymap.rs 748-754 [handle_input_after_time]. *)
Definition km_handle_input_after_time (fuel : nat) (delta : u32) (ev : input_event) (k : km)
  : res (km * option u32) :=
  let! k1 := km_tick_by fuel delta k in
  let! k2 := km_handle_input fuel ev k1 in
  let! t := next_event_time (km_sched k2) in
  match t with
  | Some t' => if (t' =? 0) && kc_debug conf then Panic else Ok (k2, t)
  | None => Ok (k2, t)
  end.

(** keymap.rs 761-768 [tick_to_next_scheduled_event]. *)
Definition km_tick_to_next (fuel : nat) (k : km) : res (km * option u32) :=
  let! t := next_event_time (km_sched k) in
  match t with
  | Some d =>
      let! k1 := km_tick_by fuel d k in
      let! t' := next_event_time (km_sched k1) in
      Ok (k1, t')
  | None => Ok (k, None)
  end.

(** keymap.rs 771-776 [report_output]. *)
Definition km_report_output (k : km) : res (km * list key_output) :=
  let! kos := km_pressed_keys k in
  let r := rep_sent (rep_update (km_rep k) kos) in
  Ok (set_rep k r, rep_reportable r).

(** keymap.rs 780-782 [boot_keyboard_report]. *)
Definition km_boot_keyboard_report (k : km) : res (list u8) :=
  let! kos := km_pressed_keys k in Ok (as_hid_boot_keyboard_report kos).

(** keymap.rs 785-787 [requires_polling], 790-794 [has_scheduled_events]. *)
Definition nonempty {A} (l : list A) : bool := match l with [] => false | _ => true end.
Definition km_requires_polling (k : km) : bool :=
  nonempty (sc_pending (km_sched k)) || nonempty (km_inq k).
Definition km_has_scheduled_events (k : km) : bool :=
  nonempty (sc_pending (km_sched k)) || nonempty (sc_scheduled (km_sched k))
  || nonempty (km_inq k).

(** The public operations of the keymap, as data. *)
Inductive op :=
| OpInput (ev : input_event)                       (* handle_input *)
| OpTick                                           (* tick *)
| OpInputAfter (delta : u32) (ev : input_event)    (* handle_input_after_time *)
| OpTickToNext                                     (* tick_to_next_scheduled_event *)
| OpReport                                         (* report_output *)
| OpInit                                           (* init *)
| OpSetMs (ms : u8)                                (* set_ms_per_tick *)
| OpSetCallback (c : callback) (f : callback_fn).  (* set_callback(_extern) *)

Definition run_op (fuel : nat) (k : km) (o : op) : res km :=
  match o with
  | OpInput ev => km_handle_input fuel ev k
  | OpTick => km_tick fuel k
  | OpInputAfter d ev =>
      let! (k', t) := km_handle_input_after_time fuel d ev k in Ok k'
  | OpTickToNext => let! (k', t) := km_tick_to_next fuel k in Ok k'
  | OpReport => let! (k', r) := km_report_output k in Ok k'
  | OpInit => Ok (km_init k)
  | OpSetMs ms => Ok (km_set_ms_per_tick k ms)
  | OpSetCallback c f => km_set_callback k c f
  end.
Definition run_ops (fuel : nat) (ops : list op) (k : km) : res km :=
  fold_res (run_op fuel) ops k.

End Keymap.
Arguments job R Ev KS : clear implicits.
