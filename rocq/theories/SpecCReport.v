(** Specification vocabulary for the reports of the C firmware (C57). *)
From Verif Require Import Base Output Types Split Scheduler Keymap CApi CReport.
Local Open Scope N_scope.

(** The reports that differ from the one before; the first from [last]. *)
Fixpoint news (last : list u8) (l : list (list u8)) : list (list u8) :=
  match l with
  | [] => []
  | x :: t => if list_eq_dec N.eq_dec x last then news last t else x :: news x t
  end.

(** What a channel carries of a report, and its length. *)
Definition part (c : chan) (r : c_report) : list u8 :=
  match c with ChKb => cr_keyboard r | ChCon => cr_consumer r | ChMouse => mouse_pack (cr_mouse r) end.
Definition part_len (c : chan) : nat := match c with ChKb => 8%nat | _ => 4%nat end.

Section Spec.
Context {R Ctx Ev PKS KS : Type}.
Variable conf : kconf R Ctx Ev PKS KS.
Variable fuel : nat.
Local Notation km := (keymap R Ctx Ev PKS KS).
Local Notation rloop := (@rloop R Ctx Ev PKS KS).

(** What the host should have received of a channel so far. *)
Definition due (c : chan) (s : rloop) : list (list u8) :=
  news (repeat 0 (part_len c)) (map (part c) (rl_made s)).
Definition received (c : chan) (s : rloop) : list (list u8) := ch_host (rl_chan s c).

(** The steps that do no harm: a timer interrupt unless the main loop is in the
    middle of remembering a report as sent; the host taking a packet unless
    [USBFS_Endp_DataUp] is between enabling the endpoint and marking it busy; a bus
    reset if no packet is on its way. *)
Definition rl_calm (s : rloop) (a : rl_step) : Prop :=
  match a with
  | RlTimer _ => match rl_at s with Some (_, StCopy _) => False | _ => True end
  | RlHost c => rl_at s <> Some (c, StBusy)
  | RlReset => (forall c, ch_ack (rl_chan s c) = false) /\ rl_at s = None
  | RlMain | RlEnumerate => True
  end.
Fixpoint rl_all_calm (l : list rl_step) (s : rloop) : Prop :=
  match l with
  | [] => True
  | a :: t => rl_calm s a /\ match rl_do conf fuel s a with Ok s' => rl_all_calm t s' | _ => True end
  end.
(** The same, but bus resets at any time. *)
Fixpoint rl_calm_but_resets (l : list rl_step) (s : rloop) : Prop :=
  match l with
  | [] => True
  | a :: t => (a = RlReset \/ rl_calm s a) /\ match rl_do conf fuel s a with Ok s' => rl_calm_but_resets t s' | _ => True end
  end.

(** The keymap alone: the reports of its ticks. *)
Fixpoint plain_calls (l : list c_call) (k : km) : res (km * list c_report) :=
  match l with
  | [] => Ok (k, [])
  | CallEvent e :: t => let! k1 := keymap_register_input_event conf fuel e k in plain_calls t k1
  | CallTick :: t =>
      let! (k1, r) := keymap_tick conf fuel k in
      let! (k2, rs) := plain_calls t k1 in
      Ok (k2, r :: rs)
  end.
Definition call_events (l : list c_call) : list c_event :=
  filter_map (fun c => match c with CallEvent e => Some e | CallTick => None end) l.
Definition scanned (l : list rl_step) : list c_event :=
  flat_map (fun a => match a with RlTimer evs => evs | _ => [] end) l.
End Spec.
