(** Input and key events.
    Models /repo/src/input.rs, /repo/src/key.rs 36-250 and 650-810,
    /repo/src/keymap.rs 157-224. *)
From Verif Require Import Base Output.
Local Open Scope N_scope.

(** input.rs 9-30 [Event]. *)
Inductive input_event :=
| Press (keymap_index : u16)
| Release (keymap_index : u16)
| VirtualKeyPress (ko : key_output)
| VirtualKeyRelease (ko : key_output).

(** keymap.rs 158-171 [BluetoothProfileCommand]. *)
Inductive bt_command :=
| BtDisconnect | BtClear | BtClearAll | BtPrevious | BtNext | BtSelect (i : u8).

(** keymap.rs 175-184 [KeymapCallback]. *)
Inductive callback :=
| CbReset
| CbResetToBootloader
| CbBluetooth (c : bt_command)
| CbCustom (a b : u8).

(** Derived [PartialEq]. *)
Definition bt_eqb (a b : bt_command) : bool :=
  match a, b with
  | BtDisconnect, BtDisconnect | BtClear, BtClear | BtClearAll, BtClearAll
  | BtPrevious, BtPrevious | BtNext, BtNext => true
  | BtSelect x, BtSelect y => x =? y
  | _, _ => false
  end.
Definition callback_eqb (a b : callback) : bool :=
  match a, b with
  | CbReset, CbReset => true
  | CbResetToBootloader, CbResetToBootloader => true
  | CbBluetooth x, CbBluetooth y => bt_eqb x y
  | CbCustom x1 x2, CbCustom y1 y2 => (x1 =? y1) && (x2 =? y2)
  | _, _ => false
  end.

(** keymap.rs 214-224 [KeymapEvent]. *)
Inductive keymap_event :=
| KmCallback (cb : callback)
| KmResolvedKeyOutput (keymap_index : u16) (ko : key_output).

(** key.rs 690-703 [Event<T>]. *)
Inductive event (E : Type) :=
| EvInput (ie : input_event)
| EvKey (keymap_index : u16) (ke : E)
| EvKeymap (k : keymap_event).
Arguments EvInput {E} ie.
Arguments EvKey {E} keymap_index ke.
Arguments EvKeymap {E} k.

(** key.rs 716-729 [map_key_event]. *)
Definition map_event {A B} (f : A -> B) (e : event A) : event B :=
  match e with
  | EvInput ie => EvInput ie
  | EvKey i k => EvKey i (f k)
  | EvKeymap k => EvKeymap k
  end.

(** key.rs 737-755 [try_into_key_event]: [None] is [UnmappableEvent]. *)
Definition try_event {A B} (f : A -> option B) (e : event A) : option (event B) :=
  match e with
  | EvInput ie => Some (EvInput ie)
  | EvKey i k => match f k with Some k' => Some (EvKey i k') | None => None end
  | EvKeymap k => Some (EvKeymap k)
  end.

(** key.rs 766-773 [Schedule], 776-782 [ScheduledEvent]. *)
Inductive schedule := Immediate | After (delay : u16).
Record sched_event (E : Type) := mkSE { se_schedule : schedule; se_event : event E }.
Arguments mkSE {E} se_schedule se_event.
Arguments se_schedule {E} s.
Arguments se_event {E} s.

Definition immediate {E} (e : event E) : sched_event E := mkSE Immediate e.
Definition after {E} (d : u16) (e : event E) : sched_event E := mkSE (After d) e.
(** key.rs 802-807 [map_scheduled_event]. *)
Definition map_sched {A B} (f : A -> B) (s : sched_event A) : sched_event B :=
  mkSE (se_schedule s) (map_event f (se_event s)).

(** key.rs 36: [MAX_KEY_EVENTS]. *)
Definition MAX_KEY_EVENTS : nat := 4.

(** key.rs 39-97 [KeyEvents]: a Vec of capacity 4. *)
Definition key_events (E : Type) := list (sched_event E).
(** key.rs 59-61 [schedule_event], 69-71 [add_event]: push and unwrap. *)
Definition ke_add {E} (l : key_events E) (s : sched_event E) : res (key_events E) :=
  push_cap MAX_KEY_EVENTS l s.
(** key.rs 64-66 [extend]: pushes one by one and unwraps. *)
Definition ke_extend {E} (l xs : key_events E) : res (key_events E) :=
  push_all_cap MAX_KEY_EVENTS l xs.
(** key.rs 74-96 [map_events], [into_events]. *)
Definition ke_map {A B} (f : A -> B) (l : key_events A) : key_events B :=
  map (map_sched f) l.

(** key.rs 110-115 [NewPressedKey]. *)
Inductive new_pressed_key (R : Type) := NpkKey (r : R) | NpkNoOp.
Arguments NpkKey {R} r.
Arguments NpkNoOp {R}.

(** key.rs 139-146 [PressedKeyResult]. *)
Inductive pressed_key_result (R PKS KS : Type) :=
| PkPending (pks : PKS)
| PkNewPressedKey (n : new_pressed_key R)
| PkResolved (ks : KS).
Arguments PkPending {R PKS KS} pks.
Arguments PkNewPressedKey {R PKS KS} n.
Arguments PkResolved {R PKS KS} ks.

(** input.rs 33-70 [PressedKey], [PressedInput]. *)
Inductive pressed_input (R KS : Type) :=
| PiKey (keymap_index : u16) (key_ref : R) (ks : KS)
| PiVirtual (ko : key_output).
Arguments PiKey {R KS} keymap_index key_ref ks.
Arguments PiVirtual {R KS} ko.
