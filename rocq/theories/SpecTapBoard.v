(** Specification vocabulary for keyboards with layers and tap-hold keys (C68):
    the keyboard of SpecBoard.v, whose tap-hold keys are each time they are
    pressed one of two keys. *)
From Verif Require Import Base Output Types Scheduler Keymap SimpleKeys TapHold Layered Composite SpecKeymap SpecPlain SpecLayer SpecTap SpecDecide SpecBoard.
Local Open Scope N_scope.

(** How the press of a tap-hold key came to be a tap or a hold. *)
Inductive decision :=
| Hurried        (* a tap, because the keyboard had not been idle for long enough *)
| Tapped         (* a tap, because the key was released *)
| Interrupted    (* a hold, because of what another key did *)
| TimedOut.      (* a hold, because the time passed *)
Definition picks (k : taphold_key ref) (x : decision) : ref :=
  match x with Hurried | Tapped => th_tap k | Interrupted | TimedOut => th_hold k end.

(** What a key can mean when it is pressed, with the decision it takes: a tap-hold
    key means what the key it is decided to be means. *)
Inductive may_mean (d : key_data) (on : N -> bool) (default : option N) : ref -> option decision -> meaning -> Prop :=
| mm_key r m : means d on default r m -> may_mean d on default r None m
| mm_tap_hold i k x m : nth_error (kd_tap_hold d) (N.to_nat i) = Some k ->
    means d on default (picks k x) m -> may_mean d on default (RTapHold i) (Some x) m
| mm_layered i k r x m : nth_error (kd_layered d) (N.to_nat i) = Some k ->
    acts_as k (fun l => on l = true) default r -> may_mean d on default r x m ->
    may_mean d on default (RLayered (LyLayered i)) x m.

Definition asks (m : meaning) : list callback := match m with Calls cb => [cb] | _ => [] end.

Section Run.
Variables (n : nat) (refs : list ref) (d : key_data) (ir : interrupt_response).
(** [timing before i x seen]: as far as time is concerned, the key [i], pressed
    after the inputs [before], can have been decided as [x] when the keymap had
    seen the inputs [seen] after the press. *)
Variable timing : list input_event -> u16 -> decision -> list input_event -> Prop.

(** A decision agrees with the inputs after the press: the first of them that
    decides (C21) is as the decision says, or none of them decides before the time
    has passed. *)
Definition agrees (before : list input_event) (i : u16) (later : list input_event) (x : decision) : Prop :=
  match x with
  | Hurried => timing before i Hurried []
  | Tapped | Interrupted => exists seen last rest, later = seen ++ last :: rest
      /\ first_decision (tap_hold_rule ir i) [] (map EvInput seen) = None
      /\ tap_hold_rule ir i (map EvInput seen) (EvInput last) = Some (match x with Tapped => IsTap | _ => IsHold end)
      /\ timing before i x (seen ++ [last])
  | TimedOut => exists seen rest, later = seen ++ rest
      /\ first_decision (tap_hold_rule ir i) [] (map EvInput seen) = None
      /\ timing before i TimedOut seen
  end.

(** One input, after the inputs [before] and before the inputs [later]: the
    decision taken, the keyboard after it, and the callbacks asked for. *)
Inductive tap_step (before later : list input_event) (b : board) : input_event -> list decision -> board -> list callback -> Prop :=
| ts_press i r x m : existsb (this_key i) (bd_down b) = false ->
    nth_error refs (N.to_nat i) = Some r -> may_mean d (bd_on b) (bd_default b) r x m ->
    (forall y, x = Some y -> agrees before i later y) ->
    tap_step before later b (Press i) (match x with Some y => [y] | None => [] end)
      (switch n (at_press m) (set_down b (bd_down b ++ [inl (i, m)]))) (asks m)
| ts_other ie b' : (forall i, ie <> Press i) -> board_step n refs d b ie b' -> tap_step before later b ie [] b' [].

(** The inputs [h], before the inputs [later]. *)
Inductive tap_run : list input_event -> list input_event -> list decision -> board -> list callback -> Prop :=
| tr_start later : tap_run [] later [] board_new []
| tr_input h ie later xs b cs xs' b' cs' : tap_run h (ie :: later) xs b cs ->
    tap_step h later b ie xs' b' cs' -> tap_run (h ++ [ie]) later (xs ++ xs') b' (cs ++ cs').
End Run.

(** The keymaps concerned: the keys of C62 and tap-hold keys of these, and layered
    keys of all of these. *)
Inductive tap_board_key (n : nat) (d : key_data) : nat -> ref -> Prop :=
| tb_key h r : board_key n d h r -> tap_board_key n d h r
| tb_tap_hold h i k : nth_error (kd_tap_hold d) (N.to_nat i) = Some k ->
    board_key n d h (th_tap k) -> board_key n d h (th_hold k) -> tap_board_key n d (S h) (RTapHold i)
| tb_layered h i k : nth_error (kd_layered d) (N.to_nat i) = Some k -> length (lk_layered k) = n ->
    tap_board_key n d h (lk_base k) -> (forall r, In (Some r) (lk_layered k) -> tap_board_key n d h r) ->
    tap_board_key n d (S h) (RLayered (LyLayered i)).

(** The inputs among the calls. *)
Definition inputs (ops : list op) : list input_event := filter_map (fun o => match o with OpInput ie => Some ie | _ => None end) ops.
(** The inputs among the calls that were not dropped for want of room in the queue. *)
Fixpoint let_in {R Ctx Ev PKS KS} (conf : kconf R Ctx Ev PKS KS) (fuel : nat) (ops : list op) (k : keymap R Ctx Ev PKS KS)
  : list input_event :=
  match ops with
  | [] => []
  | o :: t =>
      match o with OpInput ie => if (length (km_inq k) <? 31)%nat then [ie] else [] | _ => [] end
      ++ match run_op conf fuel k o with Ok k' => let_in conf fuel t k' | _ => [] end
  end.

(** No key is pressed that is down already: keyboards report presses and releases in turn. *)
Definition in_turn (h : list input_event) : Prop :=
  forall before i later, h = before ++ Press i :: later -> existsb (is_key i) (down_after before) = false.

(** The call [o], after the calls [a], takes the press of [i] from the head of the
    queue while no key is undecided; [before] are the inputs before it. *)
Definition taken_by (conf : kconf ref cctx cev cpks cks) (fuel : nat) (k0 : ckeymap) (a : list op) (o : op) (before : list input_event) (i : u16) : Prop :=
  exists k1 k2 w, run_ops conf fuel a k0 = Ok k1 /\ run_op conf fuel k1 o = Ok k2 /\ undecided k1 = None
  /\ let_in conf fuel (a ++ [o]) k0 = before ++ Press i :: w
  /\ km_inq k1 ++ let_in conf fuel [o] k1 = Press i :: w /\ km_inq k2 = w.
(** The timing of a run: the press is taken in some call [o], after the calls [a];
    the keyboard had been idle for too short a time at that moment, or not; and the
    time has passed only at a tick that comes at least the timeout later, when the
    inputs after [seen] were still waiting. *)
Definition run_timing (conf : kconf ref cctx cev cpks cks) (fuel : nat) (cf : taphold_config) (k0 : ckeymap) (ops : list op)
    (before : list input_event) (i : u16) (x : decision) (seen : list input_event) : Prop :=
  exists a o z, ops = a ++ o :: z /\ taken_by conf fuel k0 a o before i
  /\ (x = Hurried <-> too_soon (thc_required_idle cf) (idle_seen (a ++ [o])))
  /\ (x = TimedOut ->
      exists a' z' k m, ops = a' ++ OpTick :: z' /\ (length a <= length a')%nat
        /\ run_ops conf fuel a' k0 = Ok k /\ (m <= 1)%nat
        /\ let_in conf fuel a' k0 = before ++ Press i :: seen ++ skipn m (km_inq k)
        /\ ck_now (clocks_run a) + thc_timeout cf <= ck_now (clocks_run (a' ++ [OpTick]))).
(** At 32 different times, none of them longer ago than the timeout, a press was taken
    that was not too soon. *)
Definition crowded (conf : kconf ref cctx cev cpks cks) (fuel : nat) (cf : taphold_config) (k0 : ckeymap) (ops : list op) : Prop :=
  exists times : list N, length times = 32%nat /\ NoDup times
  /\ forall t, In t times -> ck_now (clocks_run ops) <= t + thc_timeout cf
     /\ exists a o z before i, ops = a ++ o :: z /\ ck_now (clocks_run a) = t /\ taken_by conf fuel k0 a o before i
          /\ ~ too_soon (thc_required_idle cf) (idle_seen (a ++ [o])).
(** The inputs that wait behind an undecided key. *)
Definition behind (k : ckeymap) : nat := match km_pending k with Some p => length (pd_queued p) + length (km_inq k) | None => 0 end.
(** The length of a tick is not zero, and is only set before the first tick. *)
Definition one_pace (ops : list op) : Prop :=
  forall a ms z, ops = a ++ OpSetMs ms :: z -> 0 < ms /\ ck_now (clocks_run a) = 0.
