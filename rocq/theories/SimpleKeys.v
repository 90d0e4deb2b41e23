(** Keys that resolve immediately.
    Models /repo/src/key/keyboard.rs, consumer.rs, custom.rs, mouse.rs and
    callback.rs.  Their contexts, events and key states carry no data; their
    [update_state] does nothing (callback keys never reach it), and their
    [update_pending_state] is never called. *)
From Verif Require Import Base Output Types.
Local Open Scope N_scope.

(** keyboard.rs 16-25 [Ref]; 32-38 [Key]. *)
Inductive keyboard_ref :=
| KbKeyCode (kc : u8)
| KbModifiers (m : u8)
| KbKeyCodeAndModifier (idx : u8).
Record keyboard_key := mkKeyboardKey { kk_code : u8; kk_mods : modifiers }.

(** keyboard.rs 149-169 [key_output]: always an output; the data table is
    indexed for keys with modifiers. *)
Definition keyboard_output (keys : list keyboard_key) (r : keyboard_ref) : res key_output :=
  match r with
  | KbKeyCode kc => Ok (ko_from_key_code kc)
  | KbModifiers m => Ok (ko_from_key_modifiers (mods_from_byte m))
  | KbKeyCodeAndModifier i =>
      let! k := index keys (N.to_nat i) in
      Ok (ko_from_key_code_with_modifiers (kk_code k) (kk_mods k))
  end.

(** consumer.rs [Ref::UsageCode], [key_output]; custom.rs [Ref], [key_output]. *)
Inductive consumer_ref := CnUsageCode (uc : u8).
Definition consumer_output (r : consumer_ref) : key_output :=
  match r with CnUsageCode uc => ko_from_consumer_code uc end.
Inductive custom_ref := CsCode (c : u8).
Definition custom_output (r : custom_ref) : key_output :=
  match r with CsCode c => ko_from_custom_code c end.

(** mouse.rs [Ref]. *)
Inductive mouse_ref :=
| MsButton (b : u8)
| MsCursorUp | MsCursorDown | MsCursorLeft | MsCursorRight
| MsWheelUp | MsWheelDown | MsWheelLeft | MsWheelRight.

(** mouse.rs: [MOVE_AMOUNT] is 5 and the scroll amount 1; a button [b] is the
    bit [1 << (b - 1)]: [b = 0] underflows and [b > 8] overflows the shift. *)
Definition mouse_key_output (r : mouse_ref) : res key_output :=
  match r with
  | MsButton b =>
      if (b =? 0) || (8 <? b) then Panic
      else Ok (ko_from_mouse_output (mkMouse (N.shiftl 1 (b - 1)) 0 0 0 0))
  | MsCursorUp => Ok (ko_from_mouse_output (mkMouse 0 0 (-5) 0 0))
  | MsCursorDown => Ok (ko_from_mouse_output (mkMouse 0 0 5 0 0))
  | MsCursorLeft => Ok (ko_from_mouse_output (mkMouse 0 (-5) 0 0 0))
  | MsCursorRight => Ok (ko_from_mouse_output (mkMouse 0 5 0 0 0))
  | MsWheelUp => Ok (ko_from_mouse_output (mkMouse 0 0 0 1 0))
  | MsWheelDown => Ok (ko_from_mouse_output (mkMouse 0 0 0 (-1) 0))
  | MsWheelLeft => Ok (ko_from_mouse_output (mkMouse 0 0 0 0 (-1)))
  | MsWheelRight => Ok (ko_from_mouse_output (mkMouse 0 0 0 0 1))
  end.

(** callback.rs 71-85 [new_pressed_key]: a no-op key plus an immediate callback
    event; [E] is the event type, no callback key event is ever emitted. *)
Definition callback_new_pressed_key {R PKS KS E} (keys : list callback) (i : u8)
  : res (pressed_key_result R PKS KS * key_events E) :=
  let! cb := index keys (N.to_nat i) in
  Ok (PkNewPressedKey NpkNoOp, [immediate (EvKeymap (KmCallback cb))]).
