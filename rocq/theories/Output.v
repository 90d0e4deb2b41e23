(** Key outputs, HID reports.
    Models /repo/src/key.rs (KeyboardModifiers, KeyUsage, KeyOutput,
    MouseOutput) and /repo/src/keymap.rs lines 33-146 (KeymapOutput). *)
From Verif Require Import Base.
Local Open Scope N_scope.

(** ** Keyboard modifiers: key.rs 253-433.  [KeyboardModifiers(u8)]. *)

(** key.rs 308-322: [LEFT_CTRL_U8 .. RIGHT_GUI_U8]. *)
Definition LEFT_CTRL_U8 : u8 := 0x01.
Definition LEFT_SHIFT_U8 : u8 := 0x02.
Definition LEFT_ALT_U8 : u8 := 0x04.
Definition LEFT_GUI_U8 : u8 := 0x08.
Definition RIGHT_CTRL_U8 : u8 := 0x10.
Definition RIGHT_SHIFT_U8 : u8 := 0x20.
Definition RIGHT_ALT_U8 : u8 := 0x40.
Definition RIGHT_GUI_U8 : u8 := 0x80.

(** [KeyboardModifiers] is a newtype of [u8]; [from_byte] (key.rs 330) is the
    identity on the byte. *)
Definition modifiers := u8.
(** key.rs 325 [new], 354 [NONE]. *)
Definition mods_new : modifiers := 0.
Definition mods_from_byte (b : u8) : modifiers := b.

(** key.rs 337-349 [from_key_code]. *)
Definition mods_from_key_code (kc : u8) : option modifiers :=
  if kc =? 0xE0 then Some LEFT_CTRL_U8
  else if kc =? 0xE1 then Some LEFT_SHIFT_U8
  else if kc =? 0xE2 then Some LEFT_ALT_U8
  else if kc =? 0xE3 then Some LEFT_GUI_U8
  else if kc =? 0xE4 then Some RIGHT_CTRL_U8
  else if kc =? 0xE5 then Some RIGHT_SHIFT_U8
  else if kc =? 0xE6 then Some RIGHT_ALT_U8
  else if kc =? 0xE7 then Some RIGHT_GUI_U8
  else None.

(** key.rs 381-383 [is_modifier_key_code]. *)
Definition is_modifier_key_code (kc : u8) : bool := (0xE0 <=? kc) && (kc <=? 0xE7).

(** key.rs 386-415 [as_key_codes]; at most 8 pushes into a Vec of capacity 8. *)
Definition as_key_codes (m : modifiers) : list u8 :=
  (if negb (N.land m LEFT_CTRL_U8 =? 0) then [0xE0] else [])
  ++ (if negb (N.land m LEFT_SHIFT_U8 =? 0) then [0xE1] else [])
  ++ (if negb (N.land m LEFT_ALT_U8 =? 0) then [0xE2] else [])
  ++ (if negb (N.land m LEFT_GUI_U8 =? 0) then [0xE3] else [])
  ++ (if negb (N.land m RIGHT_CTRL_U8 =? 0) then [0xE4] else [])
  ++ (if negb (N.land m RIGHT_SHIFT_U8 =? 0) then [0xE5] else [])
  ++ (if negb (N.land m RIGHT_ALT_U8 =? 0) then [0xE6] else [])
  ++ (if negb (N.land m RIGHT_GUI_U8 =? 0) then [0xE7] else []).

(** key.rs 418-422 [as_byte]. *)
Definition as_byte (m : modifiers) : u8 :=
  fold_left (fun acc kc => N.lor acc (N.shiftl 1 (kc - 0xE0))) (as_key_codes m) 0.

(** key.rs 425-427 [union]. *)
Definition mods_union (a b : modifiers) : modifiers := N.lor a b.

(** key.rs 430-432 [has_modifiers]. *)
Definition has_modifiers (a b : modifiers) : bool := negb (N.land a b =? 0).

(** ** Mouse output: key.rs 607-643.  [i8] fields are [Z]. *)
Record mouse_output := mkMouse {
  mo_buttons : u8;
  mo_x : Z;
  mo_y : Z;
  mo_vscroll : Z;
  mo_hscroll : Z
}.

(** key.rs 624-630 [NO_OUTPUT]. *)
Definition mouse_none : mouse_output := mkMouse 0 0 0 0 0.

(** [i8::saturating_add]. *)
Definition i8_sat_add (a b : Z) : Z :=
  if (127 <? a + b)%Z then 127%Z
  else if (a + b <? -128)%Z then (-128)%Z
  else (a + b)%Z.

(** key.rs 633-643 [combine]. *)
Definition mouse_combine (a b : mouse_output) : mouse_output :=
  mkMouse (N.lor (mo_buttons a) (mo_buttons b))
          (i8_sat_add (mo_x a) (mo_x b))
          (i8_sat_add (mo_y a) (mo_y b))
          (i8_sat_add (mo_vscroll a) (mo_vscroll b))
          (i8_sat_add (mo_hscroll a) (mo_hscroll b)).

(** ** Key usage and key output: key.rs 437-605. *)
Inductive key_usage :=
| Keyboard (kc : u8)
| Consumer (uc : u8)
| Custom (cc : u8)
| Mouse (mo : mouse_output).

Record key_output := mkKO { ko_usage : key_usage; ko_mods : modifiers }.

(** key.rs 493 [KeyOutput::NO_OUTPUT]. *)
Definition ko_none : key_output := mkKO (Keyboard 0) mods_new.

(** key.rs 535-547 [from_key_code]. *)
Definition ko_from_key_code (kc : u8) : key_output :=
  match mods_from_key_code kc with
  | Some m => mkKO (Keyboard 0) m
  | None => mkKO (Keyboard kc) mods_new
  end.

(** key.rs 550-562 [from_key_code_with_modifiers]. *)
Definition ko_from_key_code_with_modifiers (kc : u8) (m : modifiers) : key_output :=
  let ko := ko_from_key_code kc in
  mkKO (ko_usage ko) (mods_union (ko_mods ko) m).

(** key.rs 565-570 [from_key_modifiers]. *)
Definition ko_from_key_modifiers (m : modifiers) : key_output := mkKO (Keyboard 0) m.

(** key.rs 573-594 [from_consumer_code], [from_custom_code], [from_mouse_output]. *)
Definition ko_from_consumer_code (c : u8) : key_output := mkKO (Consumer c) mods_new.
Definition ko_from_custom_code (c : u8) : key_output := mkKO (Custom c) mods_new.
Definition ko_from_mouse_output (m : mouse_output) : key_output := mkKO (Mouse m) mods_new.

(** key.rs 499-506 [from_usage]. *)
Definition ko_from_usage (u : key_usage) : key_output :=
  match u with
  | Keyboard kc => ko_from_key_code kc
  | Consumer c => ko_from_consumer_code c
  | Custom c => ko_from_custom_code c
  | Mouse m => ko_from_mouse_output m
  end.

(** key.rs 509-532 [from_usage_with_modifiers]. *)
Definition ko_from_usage_with_modifiers (u : key_usage) (m : modifiers) : key_output :=
  match u with
  | Keyboard kc =>
      match mods_from_key_code kc with
      | Some um => mkKO (Keyboard 0) (mods_union um m)
      | None => mkKO (Keyboard kc) m
      end
  | _ => mkKO u m
  end.

(** Derived [PartialEq] of MouseOutput, KeyUsage, KeyOutput. *)
Definition mouse_eqb (a b : mouse_output) : bool :=
  (mo_buttons a =? mo_buttons b) && (mo_x a =? mo_x b)%Z && (mo_y a =? mo_y b)%Z
  && (mo_vscroll a =? mo_vscroll b)%Z && (mo_hscroll a =? mo_hscroll b)%Z.
Definition usage_eqb (a b : key_usage) : bool :=
  match a, b with
  | Keyboard x, Keyboard y => x =? y
  | Consumer x, Consumer y => x =? y
  | Custom x, Custom y => x =? y
  | Mouse x, Mouse y => mouse_eqb x y
  | _, _ => false
  end.
Definition ko_eqb (a b : key_output) : bool :=
  usage_eqb (ko_usage a) (ko_usage b) && (ko_mods a =? ko_mods b).

(** ** KeymapOutput: keymap.rs 41-146.
    [KeymapOutput] wraps a [heapless::Vec<KeyOutput, 16>]; here a list. *)

(** keymap.rs 33. *)
Definition MAX_PRESSED_KEYS : nat := 16.

(** keymap.rs 64-69 and 89-94: the fold of [union] over all outputs. *)
Definition union_mods (kos : list key_output) : modifiers :=
  fold_left (fun acc ko => mods_union acc (ko_mods ko)) kos mods_new.

(** keymap.rs 76-79, 98-103: [flat_map] selecting keyboard codes. *)
Definition keyboard_code (ko : key_output) : option u8 :=
  match ko_usage ko with Keyboard kc => Some kc | _ => None end.
Definition consumer_code (ko : key_output) : option u8 :=
  match ko_usage ko with Consumer c => Some c | _ => None end.
Definition custom_code (ko : key_output) : option u8 :=
  match ko_usage ko with Custom c => Some c | _ => None end.
Definition mouse_usage (ko : key_output) : option mouse_output :=
  match ko_usage ko with Mouse m => Some m | _ => None end.

(** keymap.rs 61-83 [pressed_key_codes]: [extend] on a Vec of capacity 24
    panics when full. *)
Definition pressed_key_codes (kos : list key_output) : res (list u8) :=
  let! r := push_all_cap 24 [] (as_key_codes (union_mods kos)) in
  push_all_cap 24 r (filter_map keyboard_code kos).

(** keymap.rs 106-110: writing the first six codes into the zeroed array:
    [report[i + 2] = key_code]. *)
Fixpoint fill6 (n : nat) (codes : list u8) : list u8 :=
  match n with
  | O => []
  | S n' => match codes with
            | [] => 0 :: fill6 n' []
            | c :: t => c :: fill6 n' t
            end
  end.

(** keymap.rs 86-112 [as_hid_boot_keyboard_report]. *)
Definition as_hid_boot_keyboard_report (kos : list key_output) : list u8 :=
  as_byte (union_mods kos) :: 0
  :: fill6 6 (filter (fun kc => negb (kc =? 0)) (filter_map keyboard_code kos)).

(** keymap.rs 115-123 [pressed_consumer_codes]; 126-134 [pressed_custom_codes]:
    [collect] into a Vec of capacity 24 panics when full. *)
Definition pressed_consumer_codes (kos : list key_output) : res (list u8) :=
  push_all_cap 24 [] (filter_map consumer_code kos).
Definition pressed_custom_codes (kos : list key_output) : res (list u8) :=
  push_all_cap 24 [] (filter_map custom_code kos).

(** keymap.rs 137-145 [pressed_mouse_output]. *)
Definition pressed_mouse_output (kos : list key_output) : mouse_output :=
  fold_left mouse_combine (filter_map mouse_usage kos) mouse_none.
