(** Specification vocabulary for keyboards with layers and macro keys (C77): the
    keyboard of SpecBoard.v, with keys that start macros, which are played one
    instruction at a time, driven by the calls of the firmware. *)
From Verif Require Import Base Output Types Scheduler Keymap SimpleKeys Layered Automation Composite SpecKeymap SpecKinds SpecPlain SpecLayer SpecBoard SpecTapBoard SpecMacro SpecDanceBoard.
Local Open Scope N_scope.

(** The key [r] is, under the layers, this macro key. *)
Inductive runs (d : key_data) (on : N -> bool) (default : option N) : ref -> automation_key -> Prop :=
| runs_key q a : nth_error (kd_automation d) (N.to_nat q) = Some a -> runs d on default (RAutomation q) a
| runs_layered i k r a : nth_error (kd_layered d) (N.to_nat i) = Some k ->
    acts_as k (fun l => on l = true) default r -> runs d on default r a ->
    runs d on default (RLayered (LyLayered i)) a.

(** What is to happen later: a tapped key goes up; the next instruction is played; the
    last instruction of a macro is over.  The key is the one for which it happens. *)
Inductive alarm := AlRelease (ko : key_output) | AlNext (i : u16) | AlDone (i : u16).

(** The keyboard: the keys that are down and the layers, where a macro key is down
    without effect and the keys pressed by macros are virtual keys; the macro keys that
    are down; the macros with instructions left (SpecMacro.v); what is to happen, and
    when; the callbacks asked for so far. *)
Record desk := mkDesk {
  dk_board : board;
  dk_macros : list (u16 * automation_key);
  dk_queue : waiting;
  dk_alarms : list (N * alarm);
  dk_calls : list callback
}.
(** With the inputs that wait to be taken; whether it is too soon to take the next. *)
Record playing := mkPlaying { pl_desk : desk; pl_waiting : list input_event; pl_busy : bool }.
Definition desk_new : desk := mkDesk board_new [] [] [] [].
Definition playing_new : playing := mkPlaying desk_new [] false.

(** What an instruction does at once. *)
Definition performs (i : instruction) (b : board) : board :=
  match i with
  | InPress ko | InTap ko => set_down b (bd_down b ++ [inr ko])
  | InRelease ko => set_down b (remove_first (this_virtual ko) (bd_down b))
  | InNoOp | InWait _ => b
  end.

Section Machine.
Variables (n : nat) (refs : list ref) (d : key_data) (cf : automation_config).

(** What it leads to: a tapped key goes up after the duration of an instruction; after
    the same time, or the time to wait, the next instruction follows, or the macro is
    over; in that case the first instruction of the next macro, if there is one,
    follows after the duration of an instruction. *)
Definition leads_to (now : N) (ki : u16) (i : instruction) (last more : bool) : list (N * alarm) :=
  match i with InTap ko => [(now + auc_duration cf, AlRelease ko)] | _ => [] end
  ++ [(now + match i with InWait t => t | _ => auc_duration cf end, if last then AlDone ki else AlNext ki)]
  ++ (if last && more then [(now + auc_duration cf, AlNext ki)] else []).

(** The player is asked to do something for the key [ki]. *)
Definition ask (now : N) (ki : u16) (rq : request) (k : desk) : desk :=
  match player (dk_queue k) rq with
  | (q, None) => mkDesk (dk_board k) (dk_macros k) q (dk_alarms k) (dk_calls k)
  | (q, Some (i, last, more)) =>
      mkDesk (performs i (dk_board k)) (dk_macros k) q (dk_alarms k ++ leads_to now ki i last more) (dk_calls k)
  end.
(** A macro is over: the one for holding the key is started if the key is still down. *)
Definition done (now : N) (ki : u16) (k : desk) : desk :=
  match find (fun p => fst p =? ki) (dk_macros k) with
  | Some (_, a) => ask now ki (RqStart (macro_of cf (ak_while_pressed a))) k
  | None => k
  end.
Definition ring (now : N) (al : alarm) (k : desk) : desk :=
  match al with
  | AlRelease ko => mkDesk (performs (InRelease ko) (dk_board k)) (dk_macros k) (dk_queue k) (dk_alarms k) (dk_calls k)
  | AlNext ki => ask now ki RqNext k
  | AlDone ki => done now ki k
  end.

(** A macro key goes down: the macro for its press is started; if it has none, it is as
    if that were over. *)
Definition macro_down (now : N) (i : u16) (a : automation_key) (k : desk) : desk :=
  let k1 := mkDesk (set_down (dk_board k) (bd_down (dk_board k) ++ [inl (i, Nothing)]))
                   (dk_macros k ++ [(i, a)]) (dk_queue k) (dk_alarms k) (dk_calls k) in
  match macro_of cf (ak_on_press a) with
  | [] => done now i k1
  | m => ask now i (RqStart m) k1
  end.
(** A macro key goes up: the macro for its release is started. *)
Definition macro_up (now : N) (i : u16) (a : automation_key) (k : desk) : desk :=
  ask now i (RqStart (macro_of cf (ak_on_release a)))
    (mkDesk (set_down (dk_board k) (remove_first (this_key i) (bd_down (dk_board k))))
            (filter (fun p => negb (fst p =? i)) (dk_macros k)) (dk_queue k) (dk_alarms k) (dk_calls k)).

(** One input, at the time [now]. *)
Inductive desk_input (now : N) (k : desk) : input_event -> desk -> Prop :=
| di_key ie b' cs : (forall i a, ie = Release i -> ~ In (i, a) (dk_macros k)) ->
    board_step n refs d (dk_board k) ie b' -> step_calls refs d (dk_board k) ie cs ->
    desk_input now k ie (mkDesk b' (dk_macros k) (dk_queue k) (dk_alarms k) (dk_calls k ++ cs))
| di_press i r a : existsb (this_key i) (bd_down (dk_board k)) = false ->
    nth_error refs (N.to_nat i) = Some r -> runs d (bd_on (dk_board k)) (bd_default (dk_board k)) r a ->
    desk_input now k (Press i) (macro_down now i a k)
| di_release i a : In (i, a) (dk_macros k) -> desk_input now k (Release i) (macro_up now i a k).

(** The first of the waiting inputs is taken, unless it is too soon. *)
Inductive picks_up (now : N) (s : playing) : playing -> Prop :=
| pu_busy : pl_busy s = true -> picks_up now s s
| pu_nothing : pl_waiting s = [] -> picks_up now s s
| pu_input x w k' : pl_busy s = false -> pl_waiting s = x :: w -> desk_input now (pl_desk s) x k' ->
    picks_up now s (mkPlaying k' w true).

(** One of the things that are due happens: one that is due earliest. *)
Inductive rings (now : N) (s : playing) : playing -> Prop :=
| rings_not : (forall t al, In (t, al) (dk_alarms (pl_desk s)) -> now < t) -> rings now s s
| rings_one t al l1 l2 : dk_alarms (pl_desk s) = l1 ++ (t, al) :: l2 -> t <= now ->
    (forall t' al', In (t', al') (l1 ++ l2) -> t <= t') ->
    rings now s (mkPlaying (ring now al (mkDesk (dk_board (pl_desk s)) (dk_macros (pl_desk s)) (dk_queue (pl_desk s)) (l1 ++ l2) (dk_calls (pl_desk s))))
                           (pl_waiting s) (pl_busy s)).

Definition hears (s : playing) (x : input_event) : playing := mkPlaying (pl_desk s) (pl_waiting s ++ [x]) (pl_busy s).
Definition rests (s : playing) : playing := mkPlaying (pl_desk s) (pl_waiting s) false.

(** One call, after the calls [before]. *)
Inductive play_call (before : list op) (s : playing) : op -> playing -> Prop :=
| pc_full x : (31 <= length (pl_waiting s))%nat -> play_call before s (OpInput x) s
| pc_input x s' : (length (pl_waiting s) < 31)%nat -> picks_up (now_after before) (hears s x) s' -> play_call before s (OpInput x) s'
| pc_tick s1 s2 : picks_up (now_after before) s s1 -> rings (now_after (before ++ [OpTick])) (rests s1) s2 -> play_call before s OpTick s2
| pc_report : play_call before s OpReport s
| pc_set_ms ms : play_call before s (OpSetMs ms) s.
Inductive play_run : list op -> playing -> Prop :=
| plr_start : play_run [] playing_new
| plr_call ops s o s' : play_run ops s -> play_call ops s o s' -> play_run (ops ++ [o]) s'.

(** The keymaps concerned: the keys of [board_key], macro keys whose macros are in the
    table of instructions, and layered keys of these. *)
Inductive macro_board_key : nat -> ref -> Prop :=
| mbk_key h r : board_key n d h r -> macro_board_key h r
| mbk_macro h q a : nth_error (kd_automation d) (N.to_nat q) = Some a ->
    exec_in_range cf (ak_on_press a) -> exec_in_range cf (ak_while_pressed a) -> exec_in_range cf (ak_on_release a) ->
    macro_board_key h (RAutomation q)
| mbk_layered h i k : nth_error (kd_layered d) (N.to_nat i) = Some k -> length (lk_layered k) = n ->
    macro_board_key h (lk_base k) -> (forall r, In (Some r) (lk_layered k) -> macro_board_key h r) ->
    macro_board_key (S h) (RLayered (LyLayered i)).
End Machine.

(** *** What is said of them *)
(** The steps that are to be taken next. *)
Definition is_next (al : alarm) : bool := match al with AlNext _ => true | _ => false end.
Definition nexts (l : list (N * alarm)) : nat := length (filter (fun p => is_next (snd p)) l).

Fixpoint sum (l : list N) : N := match l with [] => 0 | x :: t => x + sum t end.

(** At most how many ticks a macro and what it leads to can take. *)
Definition pause (cf : automation_config) (i : instruction) : N := match i with InWait t => t | _ => auc_duration cf end.
Definition cost (cf : automation_config) (i : instruction) : N := pause cf i + 2 * auc_duration cf + 3.
Definition mcost (cf : automation_config) (m : macro) : N := sum (map (cost cf) m).

(** No macro is started because a key is held. *)
Definition holds_nothing (refs : list ref) (d : key_data) (cf : automation_config) (s : playing) : Prop :=
  Forall (fun p => macro_of cf (ak_while_pressed (snd p)) = []) (dk_macros (pl_desk s))
  /\ (pl_waiting s = [] \/ forall r on default a, In r refs -> runs d on default r a -> macro_of cf (ak_while_pressed a) = []).

(** The keys that macros, or the caller, hold down; those that are to go up. *)
Definition virtuals (l : list (u16 * meaning + key_output)) : list key_output := filter_map (fun x => match x with inl _ => None | inr ko => Some ko end) l.
Definition releases (l : list (N * alarm)) : list key_output := filter_map (fun p => match snd p with AlRelease ko => Some ko | _ => None end) l.
(** An instruction that leaves no key down. *)
Definition leaves_no_key (i : instruction) : Prop := match i with InPress _ | InRelease _ => False | _ => True end.
Definition is_virtual_input (x : input_event) : Prop := match x with VirtualKeyPress _ | VirtualKeyRelease _ => True | _ => False end.
