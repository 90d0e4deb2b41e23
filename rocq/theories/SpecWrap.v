(** Specification vocabulary for the wrappers around the keymap and the firmware
    loops (C47-C49): calls on a wrapper, the keymap calls they stand for, and
    what the keymap's reports were. *)
From Verif Require Import Base Output Types Scheduler Reporter DistinctReports Keymap Observed Firmware.
Local Open Scope N_scope.

Section Wrap.
Context {R Ctx Ev PKS KS : Type}.
Variable conf : kconf R Ctx Ev PKS KS.
Local Notation km := (keymap R Ctx Ev PKS KS).

(** Run keymap calls, and collect what each [report_output] call returned. *)
Definition report_step (fuel : nat) (s : km * list (list key_output)) (o : op)
  : res (km * list (list key_output)) :=
  match o with
  | OpReport => let! (k, outs) := km_report_output conf (fst s) in Ok (k, snd s ++ [outs])
  | _ => let! k := run_op conf fuel (fst s) o in Ok (k, snd s)
  end.
Definition run_reporting (fuel : nat) (ops : list op) (k : km) : res (km * list (list key_output)) :=
  fold_res (report_step fuel) ops (k, []).

(** Two keymaps that differ at most in what their reporter remembers. *)
Definition same_but_reporter (k k' : km) : Prop := set_rep k rep_new = set_rep k' rep_new.
Definition is_report (o : op) : bool := match o with OpReport => true | _ => false end.

(** *** The observed keymaps of the tests *)
Inductive obs_call :=
| ObInput (ev : input_event)                       (* handle_input *)
| ObTick                                           (* tick *)
| ObInputAfter (delta : u32) (ev : input_event)    (* handle_input_after_time *)
| ObTickToNext.                                    (* tick_to_next_scheduled_event *)
Definition obs_step (fuel : nat) (o : observed R Ctx Ev PKS KS) (c : obs_call)
  : res (observed R Ctx Ev PKS KS) :=
  match c with
  | ObInput ev => obs_handle_input conf fuel ev o
  | ObTick => obs_tick conf fuel o
  | ObInputAfter d ev => let! (o', t) := obs_handle_input_after_time conf fuel d ev o in Ok o'
  | ObTickToNext => let! (o', t) := obs_tick_to_next conf fuel o in Ok o'
  end.
Definition obs_run (fuel : nat) (cs : list obs_call) (o : observed R Ctx Ev PKS KS)
  : res (observed R Ctx Ev PKS KS) := fold_res (obs_step fuel) cs o.
(** The keymap calls it makes: the input is followed by one tick, and a report
    is taken after every step. *)
Definition obs_ops (c : obs_call) : list op :=
  match c with
  | ObInput ev => [OpInput ev; OpReport; OpTick; OpReport]
  | ObTick => [OpTick; OpReport]
  | ObInputAfter d ev => [OpInputAfter d ev; OpReport; OpTick; OpReport]
  | ObTickToNext => [OpTickToNext; OpReport]
  end.

(** *** The keyboard backend *)
Inductive be_call := BeEvent (ev : input_event) | BeTick.
Definition be_step (fuel : nat) (s : backend R Ctx Ev PKS KS * list bool) (c : be_call)
  : res (backend R Ctx Ev PKS KS * list bool) :=
  match c with
  | BeEvent ev => let! b := be_event conf fuel ev (fst s) in Ok (b, snd s)
  | BeTick => let! (b, changed) := be_tick conf fuel (fst s) in Ok (b, snd s ++ [changed])
  end.
(** Run calls on the backend and collect what [tick] returned. *)
Definition be_run (fuel : nat) (cs : list be_call) (b : backend R Ctx Ev PKS KS)
  : res (backend R Ctx Ev PKS KS * list bool) := fold_res (be_step fuel) cs (b, []).
Definition be_ops (c : be_call) : list op :=
  match c with BeEvent ev => [OpInput ev] | BeTick => [OpTick; OpReport] end.
(** [changed prev outs flags]: [flags] tells for each output whether it differs
    from the one before it, the first being compared with [prev]. *)
Inductive changed : list key_output -> list (list key_output) -> list bool -> Prop :=
| chg_nil prev : changed prev [] []
| chg_same prev outs flags : changed prev outs flags -> changed prev (prev :: outs) (false :: flags)
| chg_diff prev o outs flags : o <> prev -> changed o outs flags -> changed prev (o :: outs) (true :: flags).

(** *** The firmware loops *)

(** The keymap calls of a sequence of messages: [blocked] tells whether the last
    keyboard report could not be written.  While it is, ticks do nothing. *)
Fixpoint fw_ops (blocked : bool) (ms : list message) : list op :=
  match ms with
  | [] => []
  | MsgEvent ev :: t => OpInput ev :: fw_ops blocked t
  | MsgTick w :: t =>
      (if blocked then [] else [OpTick; OpReport])
      ++ fw_ops (match wr_kbd w with KwBlocked => true | _ => false end) t
  end.
(** Is the last keyboard report still to be written? *)
Fixpoint fw_blocked (blocked : bool) (ms : list message) : bool :=
  match ms with
  | [] => blocked
  | MsgEvent _ :: t => fw_blocked blocked t
  | MsgTick w :: t => fw_blocked (match wr_kbd w with KwBlocked => true | _ => false end) t
  end.
End Wrap.

(** [skips prev all sent]: [sent] is [all] without some of the elements that
    equal the one before them ([prev] comes before the first). *)
Inductive skips {A} : option A -> list A -> list A -> Prop :=
| sk_nil p : skips p [] []
| sk_sent p x all sent : skips (Some x) all sent -> skips p (x :: all) (x :: sent)
| sk_skip x all sent : skips (Some x) all sent -> skips (Some x) (x :: all) sent.

Section Duplicates.
Context {R Ctx Ev PKS KS P : Type}.
Variable conf : kconf R Ctx Ev PKS KS.
(** A keyboard write is refused as a duplicate only when the report it would
    send equals the last report that was sent; [pack] builds the report from the
    key codes. *)
Definition honest_duplicates (pack : list u8 -> P) (fuel : nat) (ms : list message)
    (s : firmware R Ctx Ev PKS KS (list u8)) : Prop :=
  forall pre w post s1 s2 codes,
    ms = pre ++ MsgTick w :: post -> wr_kbd w = KwDuplicate ->
    rtic_run conf fuel pre s = Ok s1 -> rtic_tick conf fuel w s1 = Ok s2 ->
    pressed_key_codes (be_output (fw_be s2)) = Ok codes ->
    exists earlier codes', fw_kbd_sent s1 = earlier ++ [codes'] /\ pack codes' = pack codes.
End Duplicates.

(** The keys held down according to the messages: those pressed and not released
    since. *)
Definition held_step (h : list u16) (m : message) : list u16 :=
  match m with
  | MsgEvent (Press i) => i :: h
  | MsgEvent (Release i) => filter (fun j => negb (j =? i)) h
  | _ => h
  end.
Definition held_keys (ms : list message) : list u16 := fold_left held_step ms [].
(** A tick all of whose writes succeed, and one whose keyboard write fails. *)
Definition good_tick : message := MsgTick (mkWrites KwOk true true).
Definition blocked_tick : message := MsgTick (mkWrites KwBlocked true true).
