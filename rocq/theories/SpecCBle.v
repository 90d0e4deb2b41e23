(** Specification vocabulary for the Bluetooth keyboard (C58-C61). *)
From Verif Require Import Base Output Types Split Scheduler Keymap CApi CFirmware SpecCFirmware CReport CBle.
Local Open Scope N_scope.

(** Whether each key is down in a scan. *)
Definition down_in (raw : list bool) (i : nat) : bool := nth i raw false.
(** How many keys are down in a scan. *)
Definition keys_down (raw : list bool) : nat := count_occ Bool.bool_dec raw true.
(** The events of successive scans: those of the keys that changed since the last one. *)
Fixpoint scan_events (keys : nat) (before : list bool) (raws : list (list bool)) : list c_event :=
  match raws with
  | [] => []
  | raw :: t => changes keys (down_in before) (down_in raw) ++ scan_events keys raw t
  end.

(** Every scan reads [keys] switches. *)
Definition reads_keys (keys : nat) (l : list bl_step) : Prop :=
  forall raw ok, In (BlTask raw ok) l -> length raw = keys.
(** Every report succeeds. *)
Definition all_succeed (l : list bl_step) : Prop := forall raw ok, In (BlTask raw ok) l -> ok = true.
(** The units of time in a schedule. *)
Definition units (l : list bl_step) : nat :=
  length (filter (fun a => match a with BlUnit => true | _ => false end) l).

Definition ble_events (calls : list ble_call) : list c_event :=
  filter_map (fun c => match c with BcAfter _ e | BcEvent e => Some e | BcNext | BcTick => None end) calls.

Section Spec.
Context {R Ctx Ev PKS KS : Type}.
Variable conf : kconf R Ctx Ev PKS KS.
Variable fuel : nat.
Local Notation km := (keymap R Ctx Ev PKS KS).
Local Notation ble := (@ble R Ctx Ev PKS KS).

(** The keymap alone, and the reports it returns. *)
Definition ble_call_plain (c : ble_call) (k : km) : res (km * list c_report) :=
  match c with
  | BcAfter d e => let! (k1, r, _) := keymap_register_input_after_ms conf fuel d e k in Ok (k1, [r])
  | BcEvent e => let! k1 := keymap_register_input_event conf fuel e k in Ok (k1, [])
  | BcNext => let! (k1, r, _) := keymap_next_event_timeout conf fuel k in Ok (k1, [r])
  | BcTick => let! (k1, r) := keymap_tick conf fuel k in Ok (k1, [r])
  end.
Fixpoint ble_plain (l : list ble_call) (k : km) : res (km * list c_report) :=
  match l with
  | [] => Ok (k, [])
  | c :: t =>
      let! (k1, r1) := ble_call_plain c k in
      let! (k2, r2) := ble_plain t k1 in
      Ok (k2, r1 ++ r2)
  end.

(** An event is set or a timer will set it. *)
Definition due_evt (e : ble_evt) (s : ble) : Prop := bl_set s e = true \/ bl_timer s e <> None.
(** The firmware will scan the keys. *)
Definition will_scan (s : ble) : Prop := due_evt EvWake s \/ due_evt EvScan s \/ due_evt EvTick s.

(** Events are handled before more time passes. *)
Definition idle_task (s : ble) : Prop := forall e, bl_set s e = false.
Fixpoint bl_prompt (l : list bl_step) (s : ble) : Prop :=
  match l with
  | [] => True
  | a :: t => (a = BlUnit -> idle_task s) /\ match bl_do conf fuel s a with Ok s' => bl_prompt t s' | _ => True end
  end.

(** What was given to the host of one kind of report, and what it received. *)
Definition offered (c : chan) (s : ble) : list (list u8) :=
  filter_map (fun x => if chan_eqb (fst (fst x)) c then Some (snd (fst x)) else None) (bl_sent s).
Definition delivered (c : chan) (s : ble) : list (list u8) :=
  filter_map (fun x => if chan_eqb (fst (fst x)) c && snd x then Some (snd (fst x)) else None) (bl_sent s).
(** The report the host last received, and the one it should have. *)
Definition host_has (c : chan) (s : ble) : list u8 := last (delivered c s) (ble_part c report_zero).
Definition host_should (c : chan) (s : ble) : list u8 := ble_part c (last (bl_made s) report_zero).
End Spec.

(** [sampled made sent]: each element sent is the latest made at that time. *)
Inductive sampled {A} : list A -> list A -> Prop :=
| SaNil : sampled [] []
| SaMake m s r : sampled m s -> sampled (m ++ [r]) s
| SaSend m s r : sampled (m ++ [r]) s -> sampled (m ++ [r]) (s ++ [r]).
