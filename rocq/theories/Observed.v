(** Wrappers around the keymap.
    Models /repo/src/keymap/observed_keymap.rs 12-87,
    /repo/src/keymap/observed_eb_keymap.rs 12-111 and
    /repo/keyberon-smart-keyboard/src/input/smart_keymap.rs 13-81. *)
From Verif Require Import Base Output Types Scheduler Reporter DistinctReports Keymap.
Local Open Scope N_scope.

Section Observed.
Context {R Ctx Ev PKS KS : Type}.
Variable conf : kconf R Ctx Ev PKS KS.
Local Notation km := (keymap R Ctx Ev PKS KS).

(** observed_keymap.rs 13-16 [ObservedKeymap]. *)
Record observed := mkObs { ob_km : km; ob_reports : list report }.

(** observed_keymap.rs 29-34 [new]. *)
Definition obs_new (k : km) : observed := mkObs k dr_new.

(** observed_keymap.rs 44: record the report of [report_output]. *)
Definition obs_update (k : km) (d : list report) : res observed :=
  let! (k', kos) := km_report_output conf k in
  Ok (mkObs k' (dr_update d (as_hid_boot_keyboard_report kos))).

(** observed_keymap.rs 53-61 [tick]; observed_eb_keymap.rs 102-110. *)
Definition obs_tick (fuel : nat) (o : observed) : res observed :=
  let! k := km_tick conf fuel (ob_km o) in obs_update k (ob_reports o).

(** observed_keymap.rs 37-50 [handle_input]: [INPUT_QUEUE_TICK_DELAY] is 1. *)
Definition obs_handle_input (fuel : nat) (ev : input_event) (o : observed) : res observed :=
  let! k := km_handle_input conf fuel ev (ob_km o) in
  let! o1 := obs_update k (ob_reports o) in
  obs_tick fuel o1.

(** observed_keymap.rs 64-68 [boot_keyboard_report]. *)
Definition obs_boot_keyboard_report (o : observed) : res (list u8) :=
  km_boot_keyboard_report conf (ob_km o).

(** observed_keymap.rs 76-86 [tick_until_no_scheduled_events]; [n] bounds the
    number of iterations. *)
Fixpoint obs_tick_until (fuel n : nat) (o : observed) : res observed :=
  if km_has_scheduled_events (ob_km o)
  then match n with
       | O => NoFuel
       | S n' => let! o1 := obs_tick fuel o in obs_tick_until fuel n' o1
       end
  else Ok o.

(** observed_eb_keymap.rs 37-53 [handle_input_after_time]. *)
Definition obs_handle_input_after_time (fuel : nat) (delta : u32) (ev : input_event) (o : observed)
  : res (observed * option u32) :=
  let! (k, nxt) := km_handle_input_after_time conf fuel delta ev (ob_km o) in
  let! o1 := obs_update k (ob_reports o) in
  let! o2 := obs_tick fuel o1 in
  Ok (o2, nxt).

(** observed_eb_keymap.rs 56-67 [tick_to_next_scheduled_event]. *)
Definition obs_tick_to_next (fuel : nat) (o : observed) : res (observed * option u32) :=
  let! (k, nxt) := km_tick_to_next conf fuel (ob_km o) in
  let! o1 := obs_update k (ob_reports o) in
  Ok (o1, nxt).

(** keyberon-smart-keyboard smart_keymap.rs 13-16 [KeyboardBackend]. *)
Record backend := mkBackend { be_km : km; be_output : list key_output }.

(** smart_keymap.rs 25-30 [new_with_keymap]; [KeymapOutput::default] is empty. *)
Definition be_new (k : km) : backend := mkBackend k [].

(** smart_keymap.rs 33-42 [set_callbacks]. *)
Definition be_set_callbacks (b : backend) (reset boot : option callback_fn) : res backend :=
  let! k1 := match reset with Some f => km_set_callback (be_km b) CbReset f | None => Ok (be_km b) end in
  let! k2 := match boot with Some f => km_set_callback k1 CbResetToBootloader f | None => Ok k1 end in
  Ok (mkBackend k2 (be_output b)).

(** smart_keymap.rs 45-47 [event]. *)
Definition be_event (fuel : nat) (ev : input_event) (b : backend) : res backend :=
  let! k := km_handle_input conf fuel ev (be_km b) in Ok (mkBackend k (be_output b)).

(** Derived [PartialEq] of [KeymapOutput]. *)
Fixpoint outputs_eqb (a b : list key_output) : bool :=
  match a, b with
  | [], [] => true
  | x :: a', y :: b' => ko_eqb x y && outputs_eqb a' b'
  | _, _ => false
  end.

(** smart_keymap.rs 54-62 [tick]. *)
Definition be_tick (fuel : nat) (b : backend) : res (backend * bool) :=
  let! k := km_tick conf fuel (be_km b) in
  let! (k', kos) := km_report_output conf k in
  Ok (mkBackend k' kos, negb (outputs_eqb (be_output b) kos)).
End Observed.
Arguments observed R Ctx Ev PKS KS : clear implicits.
Arguments backend R Ctx Ev PKS KS : clear implicits.

(** keyberon [layout::Event]: row and column of a press or release. *)
Inductive layout_event := LPress (r c : u8) | LRelease (r c : u8).

(** smart_keymap.rs 71-81 [keymap_index_of]. *)
Definition keymap_index_of (indices : list (list (option u16))) (ev : layout_event)
  : res (option input_event) :=
  match ev with
  | LPress r c =>
      let! row := index indices (N.to_nat r) in
      let! o := index row (N.to_nat c) in
      Ok (option_map Press o)
  | LRelease r c =>
      let! row := index indices (N.to_nat r) in
      let! o := index row (N.to_nat c) in
      Ok (option_map Release o)
  end.
