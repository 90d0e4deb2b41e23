(** The C interface.  Models /repo/smart_keymap/src/lib.rs 39-466, for the
    global keymap as an explicit state. *)
From Verif Require Import Base Output Types Scheduler Reporter Keymap Split.
Local Open Scope N_scope.

(** lib.rs 59-68 [KeymapInputEventType], 74-79 [KeymapInputEvent]. *)
Inductive c_event_type := CPress | CRelease | CVirtualPress | CVirtualRelease.
Record c_event := mkCEvent { ce_type : c_event_type; ce_value : u16 }.

(** lib.rs 81-100; [value as u8] truncates. *)
Definition event_of_c (e : c_event) : input_event :=
  match ce_type e with
  | CPress => Press (ce_value e)
  | CRelease => Release (ce_value e)
  | CVirtualPress => VirtualKeyPress (ko_from_key_code (ce_value e mod 256))
  | CVirtualRelease => VirtualKeyRelease (ko_from_key_code (ce_value e mod 256))
  end.

(** lib.rs 102-123; [todo!()] panics. *)
Definition c_of_event (e : input_event) : res c_event :=
  match e with
  | Press i => Ok (mkCEvent CPress i)
  | Release i => Ok (mkCEvent CRelease i)
  | VirtualKeyPress _ => Panic
  | VirtualKeyRelease _ => Panic
  end.

(** lib.rs 49-55, 153-163 [KeymapHidReport]. *)
Definition KEYMAP_HID_REPORT_CUSTOM_LEN : nat := 6.
Definition KEYMAP_HID_REPORT_CONSUMER_LEN : nat := 4.
Record c_report := mkCReport {
  cr_keyboard : list u8;
  cr_custom : list u8;
  cr_consumer : list u8;
  cr_mouse : mouse_output
}.

(** lib.rs 170-178: zero the array, then copy at most its length. *)
Definition fill_prefix (n : nat) (codes : list u8) : list u8 :=
  firstn n codes ++ repeat 0 (n - length (firstn n codes)).

(** lib.rs 165-182 [update_from_keymap_output].  The previous contents are
    overwritten entirely (the keyboard array has the length of the report). *)
Definition c_update (kos : list key_output) : res c_report :=
  let! custom := pressed_custom_codes kos in
  let! consumer := pressed_consumer_codes kos in
  Ok (mkCReport (as_hid_boot_keyboard_report kos)
                (fill_prefix KEYMAP_HID_REPORT_CUSTOM_LEN custom)
                (fill_prefix KEYMAP_HID_REPORT_CONSUMER_LEN consumer)
                (pressed_mouse_output kos)).

(** lib.rs 187-210 and 212-248 [BluetoothProfileCommand] and its conversion. *)
Inductive c_bt_command :=
| CBtDisconnect | CBtClear | CBtClearAll | CBtPrevious | CBtNext
| CBtSelect0 | CBtSelect1 | CBtSelect2 | CBtSelect3 | CBtSelect4 | CBtSelect5.
Definition bt_of_c (c : c_bt_command) : bt_command :=
  match c with
  | CBtDisconnect => BtDisconnect
  | CBtClear => BtClear
  | CBtClearAll => BtClearAll
  | CBtPrevious => BtPrevious
  | CBtNext => BtNext
  | CBtSelect0 => BtSelect 0
  | CBtSelect1 => BtSelect 1
  | CBtSelect2 => BtSelect 2
  | CBtSelect3 => BtSelect 3
  | CBtSelect4 => BtSelect 4
  | CBtSelect5 => BtSelect 5
  end.

Section CApi.
Context {R Ctx Ev PKS KS : Type}.
Variable conf : kconf R Ctx Ev PKS KS.
Local Notation km := (keymap R Ctx Ev PKS KS).

(** lib.rs 255-259, 264-268. *)
Definition keymap_init (k : km) : km := km_init k.
Definition keymap_set_ms_per_tick (k : km) (ms : u8) : km := km_set_ms_per_tick k ms.

(** lib.rs 273-277. *)
Definition keymap_register_input_event (fuel : nat) (e : c_event) (k : km) : res km :=
  km_handle_input conf fuel (event_of_c e) k.
(** lib.rs 282-287, 292-297. *)
Definition keymap_register_input_keypress (fuel : nat) (i : u16) (k : km) : res km :=
  keymap_register_input_event fuel (mkCEvent CPress i) k.
Definition keymap_register_input_keyrelease (fuel : nat) (i : u16) (k : km) : res km :=
  keymap_register_input_event fuel (mkCEvent CRelease i) k.

(** lib.rs 312-320 [keymap_tick]. *)
Definition keymap_tick (fuel : nat) (k : km) : res (km * c_report) :=
  let! k1 := km_tick conf fuel k in
  let! (k2, kos) := km_report_output conf k1 in
  let! r := c_update kos in
  Ok (k2, r).

(** lib.rs 345-349, 370-374: the debug assertion and the returned number. *)
Definition c_timeout (o : option u32) : res u32 :=
  match o with
  | Some t => if (t =? 0) && kc_debug conf then Panic else Ok t
  | None => Ok 0
  end.

(** lib.rs 333-351 [keymap_register_input_after_ms]. *)
Definition keymap_register_input_after_ms (fuel : nat) (delta : u32) (e : c_event) (k : km)
  : res (km * c_report * u32) :=
  let! (k1, nxt) := km_handle_input_after_time conf fuel delta (event_of_c e) k in
  let! (k2, kos) := km_report_output conf k1 in
  let! r := c_update kos in
  let! t := c_timeout nxt in
  Ok (k2, r, t).

(** lib.rs 362-376 [keymap_next_event_timeout]. *)
Definition keymap_next_event_timeout (fuel : nat) (k : km) : res (km * c_report * u32) :=
  let! (k1, nxt) := km_tick_to_next conf fuel k in
  let! (k2, kos) := km_report_output conf k1 in
  let! r := c_update kos in
  let! t := c_timeout nxt in
  Ok (k2, r, t).

(** lib.rs 385-387 [keymap_requires_polling]. *)
Definition keymap_requires_polling (k : km) : bool := km_requires_polling k.

(** lib.rs 44-46, 396-411 [keymap_register_callback]. *)
Definition keymap_register_callback (k : km) (id : u8) (f : callback_fn) : res km :=
  if id =? 0 then km_set_callback k CbReset f
  else if id =? 1 then km_set_callback k CbResetToBootloader f
  else Ok k.
(** lib.rs 416-425 [keymap_register_custom_callback]. *)
Definition keymap_register_custom_callback (k : km) (a b : u8) (f : callback_fn) : res km :=
  km_set_callback k (CbCustom a b) f.
(** lib.rs 430-438 [keymap_register_bluetooth_callback]. *)
Definition keymap_register_bluetooth_callback (k : km) (c : c_bt_command) (f : callback_fn) : res km :=
  km_set_callback k (CbBluetooth (bt_of_c c)) f.
End CApi.

(** lib.rs 442-448 [keymap_serialize_event]. *)
Definition keymap_serialize_event (e : c_event) : res (list u8) := serialize (event_of_c e).

(** lib.rs 453-466 [keymap_message_buffer_receive_byte]; the returned option is
    the [*event] written together with [true], [None] is [false]. *)
Definition keymap_message_buffer_receive_byte (buf : list u8) (b : u8)
  : list u8 * res (option c_event) :=
  let '(buf', r) := receive_byte buf b in
  (buf',
   let! o := r in
   match o with
   | Some ev => let! e := c_of_event ev in Ok (Some e)
   | None => Ok None
   end).
