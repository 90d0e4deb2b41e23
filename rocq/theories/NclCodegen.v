(** From keymap.json to the generated keymap.  Models
    /repo/ncl/keymap-codegen.ncl and the files
    /repo/ncl/smart_keys/*/keymap-codegen.ncl.

    The code prints Rust expressions ([rust_expr]) and, for the tests, JSON
    ([json]); both are texts of the same values.  The model builds the values
    themselves: references, key data and the configuration of Composite.v.  A
    text that rustc rejects (a literal outside its type, an unknown variant) is
    [Panic], and so is a [const fn] that panics. *)
From Coq Require Import String.
From Verif Require Import Base Output Types SimpleKeys TapHold TapDance Sticky Layered Automation Chorded
  Composite Ncl.
Import List.
Local Open Scope string_scope.
Local Open Scope N_scope.
Local Open Scope list_scope.

(** Literals of type [u8], [u16], [u32], and of type [i8] (not negative here). *)
Definition lit (bound : N) (n : N) : res N := if n <=? bound then Ok n else Panic.
Definition lit8 (v : val) : res N := let! n := as_num v in lit 255 n.
Definition lit16 (v : val) : res N := let! n := as_num v in lit 65535 n.
Definition lit32 (v : val) : res N := let! n := as_num v in lit 4294967295 n.
Definition lit_i8 (v : val) : res Z := let! n := as_num v in let! n := lit 127 n in Ok (Z.of_N n).

(** ** Validators of keymap.json *)

(** keymap-codegen.ncl 248-266: the modules. *)
Inductive jmod :=
| JAutomation | JCallback | JCapsWord | JAux | JChorded | JConsumer | JCustom
| JKeyboard | JMouse | JLayered | JLayerMod | JSticky | JTapDance | JTapHold.
Definition codegen_modules : list jmod :=
  [JAutomation; JCallback; JCapsWord; JAux; JChorded; JConsumer; JCustom;
   JKeyboard; JMouse; JLayered; JLayerMod; JSticky; JTapDance; JTapHold].

(** smart_keys/callback/keymap-codegen.ncl 18-52. *)
Definition callback_json_valid : vtor :=
  record_of (has_exact_fields ["keymap_callback"])
    [("keymap_callback",
      any_of [is_string;
              record_of (has_exact_fields ["Bluetooth"])
                [("Bluetooth",
                  any_of [equals_string "Clear"; equals_string "ClearAll"; equals_string "Disconnect";
                          equals_string "Next"; equals_string "Previous";
                          record_of (has_exact_fields ["Select"]) [("Select", is_number)]])];
              record_of (has_exact_fields ["Custom"]) [("Custom", is_array)]])].

(** smart_keys/automation/keymap-codegen.ncl 75-86, 103-110. *)
Definition automation_json_valid : vtor :=
  record_of (has_exact_fields ["automation_instructions"])
    [("automation_instructions",
      record_of (has_only_fields ["on_press"; "while_pressed"; "on_release"])
        [("on_press", execution_valid); ("while_pressed", execution_valid);
         ("on_release", execution_valid)])].

(** smart_keys/layered/keymap-codegen.ncl 89-102 (the field [Default] has no
    validator). *)
Definition layer_modifier_fields : list string := ["Default"; "Hold"; "Sticky"; "SetActiveLayers"; "Toggle"].
Definition layer_modifier_json_valid : vtor :=
  record_of (fun r => has_any_field_of layer_modifier_fields r && has_only_fields layer_modifier_fields r)
    [("Hold", is_number); ("Toggle", is_number); ("Sticky", is_number); ("SetActiveLayers", is_number)].

(** The [json_validator] of each module; [rec] is [smart_key.json_validator].
    Caps word 18-23, chorded 25-33 and 128-134, consumer 16-23, custom 18-24,
    keyboard 50-61, mouse 16-30, layered 186-199, sticky 22-31, tap_dance 26-32,
    tap_hold 63-70. *)
Definition module_json_valid (rec : vtor) (m : jmod) : vtor :=
  match m with
  | JAutomation => automation_json_valid
  | JCallback => callback_json_valid
  | JCapsWord => equals_string "ToggleCapsWord"
  | JAux => record_of (has_exact_fields ["passthrough"]) [("passthrough", rec)]
  | JChorded =>
      record_of (has_exact_fields ["chords"; "passthrough"])
        [("chords", array_of (tuple_of [is_number; rec])); ("passthrough", rec)]
  | JConsumer => record_of (has_exact_fields ["consumer_code"]) [("consumer_code", is_number)]
  | JCustom => record_of (has_exact_fields ["custom"]) [("custom", is_number)]
  | JKeyboard =>
      record_of (fun r => has_any_field_of ["key_code"; "modifiers"] r
                          && has_only_fields ["key_code"; "modifiers"] r)
        [("key_code", is_number); ("modifiers", is_number)]
  | JMouse =>
      record_of (has_exact_fields ["mouse"])
        [("mouse", any_of [is_string; record_of (has_exact_fields ["Button"]) [("Button", is_number)]])]
  | JLayered =>
      record_of (has_exact_fields ["base"; "layered"])
        [("base", rec); ("layered", array_of (any_of [is_null; rec]))]
  | JLayerMod => layer_modifier_json_valid
  | JSticky => record_of (has_exact_fields ["sticky_modifiers"]) [("sticky_modifiers", is_number)]
  | JTapDance => record_of (has_exact_fields ["definitions"]) [("definitions", array_of rec)]
  | JTapHold => record_of (has_exact_fields ["tap"; "hold"]) [("tap", rec); ("hold", rec)]
  end.

(** keymap-codegen.ncl 268-272. *)
Fixpoint json_valid (fuel : nat) : vtor := fun v =>
  match fuel with
  | O => NoFuel
  | S f => any_of (map (module_json_valid (json_valid f)) codegen_modules) v
  end.

(** ** Codegen values *)

(** The values that [codegen_values] returns, with their nested values; the
    Rust types that they carry are left out.  Keys without nested keys keep
    their JSON. *)
Inductive cv :=
| CvLeaf (m : jmod) (json : val)
| CvTapHold (tap hold : cv)
| CvTapDance (definitions : list cv)
| CvLayered (base : cv) (layered : list (option cv))
| CvChorded (chords : list (val * cv)) (passthrough : cv)
| CvAux (passthrough : cv).

Fixpoint filter_jmods (is_json : jmod -> res bool) (ms : list jmod) : res (list jmod) :=
  match ms with
  | [] => Ok []
  | m :: ms' =>
      let! b := is_json m in
      let! l := filter_jmods is_json ms' in
      Ok (if b then m :: l else l)
  end.

(** The [codegen_values] of each module; [rec] is [smart_key.codegen_values].
    Chorded 39-60 and 138-151, layered 203-229, tap_dance 36-50, tap_hold 74-90. *)
Definition module_codegen_values (rec : val -> res cv) (m : jmod) (v : val) : res cv :=
  match m with
  | JAux =>
      match only "passthrough" v with
      | Some p => let! p := rec p in Ok (CvAux p)
      | None => Panic
      end
  | JChorded =>
      match only2 "chords" "passthrough" v with
      | Some (cs, p) =>
          let! l := as_array cs in
          let! cs := map_res (fun e => match e with
                                       | VArr [i; k] => let! c := rec k in Ok (i, c)
                                       | _ => Panic
                                       end) l in
          let! p := rec p in
          Ok (CvChorded cs p)
      | None => Panic
      end
  | JLayered =>
      match only2 "base" "layered" v with
      | Some (b, ls) =>
          let! b := rec b in
          let! l := as_array ls in
          let! l := map_res (fun k => match k with
                                      | VNull => Ok None
                                      | _ => let! c := rec k in Ok (Some c)
                                      end) l in
          Ok (CvLayered b l)
      | None => Panic
      end
  | JTapDance =>
      match only "definitions" v with
      | Some ds => let! l := as_array ds in
                   let! l := map_res rec l in
                   Ok (CvTapDance l)
      | None => Panic
      end
  | JTapHold =>
      match only2 "tap" "hold" v with
      | Some (t, h) => let! h := rec h in let! t := rec t in Ok (CvTapHold t h)
      | None => Panic
      end
  | _ => Ok (CvLeaf m v)
  end.

(** keymap-codegen.ncl 274-280 [codegen_values]: exactly one module must accept
    the key. *)
Fixpoint codegen_values (fuel : nat) (v : val) : res cv :=
  match fuel with
  | O => NoFuel
  | S f =>
      let! l := filter_jmods (fun m => module_json_valid (json_valid f) m v) codegen_modules in
      match l with
      | [m] => module_codegen_values (codegen_values f) m v
      | _ => Panic
      end
  end.

(** ** Leaves *)

(** The closed pattern [{ f, g, h }]. *)
Definition only3 (f g h : string) (v : val) : option (val * val * val) :=
  match v with
  | VRec fs =>
      match length fs, get f fs, get g fs, get h fs with
      | 3%nat, Some x, Some y, Some z => Some (x, y, z)
      | _, _, _, _ => None
      end
  | _ => None
  end.

(** smart_keys/automation/keymap-codegen.ncl 68-72, 90-95, 126-133. *)
Definition execution_expr (v : val) : res execution :=
  match only2 "start" "length" v with
  | Some (s, l) => let! s := lit16 s in let! l := lit16 l in Ok (mkExec s l)
  | None => Panic
  end.
Definition automation_expr (v : val) : res automation_key :=
  match only "automation_instructions" v with
  | Some ki =>
      match only3 "on_press" "while_pressed" "on_release" ki with
      | Some (p, w, r) =>
          let! p := execution_expr p in
          let! w := execution_expr w in
          let! r := execution_expr r in
          Ok (mkAutoKey p w r)
      | None => Panic
      end
  | None => Panic
  end.

(** keymap-codegen.ncl 92-111 [mouse_output.rust_expr]: it reads the fields of
    the JSON, not of the record completed with defaults, so each must be there. *)
Definition field (f : string) (v : val) : res val :=
  match v with
  | VRec fs => match get f fs with Some x => Ok x | None => Panic end
  | _ => Panic
  end.
Definition mouse_output_expr (v : val) : res mouse_output :=
  let! b := field "pressed_buttons" v in let! b := lit8 b in
  let! x := field "x" v in let! x := lit_i8 x in
  let! y := field "y" v in let! y := lit_i8 y in
  let! vs := field "vertical_scroll" v in let! vs := lit_i8 vs in
  let! hs := field "horizontal_scroll" v in let! hs := lit_i8 hs in
  Ok (mkMouse b x y vs hs).

(** keymap-codegen.ncl 137-144, 168-181; automation 43-51. *)
Definition key_usage_expr (v : val) : res key_usage :=
  match only "Keyboard" v with Some c => let! c := lit8 c in Ok (Keyboard c) | None =>
  match only "Consumer" v with Some c => let! c := lit8 c in Ok (Consumer c) | None =>
  match only "Custom" v with Some c => let! c := lit8 c in Ok (Custom c) | None =>
  match only "MouseOutput" v with Some m => let! m := mouse_output_expr m in Ok (Mouse m) | None => Panic
  end end end end.
Definition key_output_expr (v : val) : res key_output :=
  match only "key_code" v with
  | Some u => let! u := key_usage_expr u in Ok (ko_from_usage u)
  | None =>
      match only "key_modifiers" v with
      | Some m => let! m := lit8 m in Ok (ko_from_key_modifiers (mods_from_byte m))
      | None =>
          match only2 "key_code" "key_modifiers" v with
          | Some (u, m) =>
              let! u := key_usage_expr u in
              let! m := lit8 m in
              Ok (ko_from_usage_with_modifiers u (mods_from_byte m))
          | None => Panic
          end
      end
  end.
Definition instruction_expr (v : val) : res instruction :=
  match v with
  | VStr s => if String.eqb s "NoOp" then Ok InNoOp else Panic
  | _ =>
      match only "Press" v with Some k => let! k := key_output_expr k in Ok (InPress k) | None =>
      match only "Release" v with Some k => let! k := key_output_expr k in Ok (InRelease k) | None =>
      match only "Tap" v with Some k => let! k := key_output_expr k in Ok (InTap k) | None =>
      match only "Wait" v with Some t => let! t := lit16 t in Ok (InWait t) | None => Panic
      end end end end
  end.

(** smart_keys/callback/keymap-codegen.ncl 56-82. *)
Definition callback_expr (v : val) : res callback :=
  match only "keymap_callback" v with
  | None => Panic
  | Some (VStr s) =>
      if String.eqb s "Reset" then Ok CbReset
      else if String.eqb s "ResetToBootloader" then Ok CbResetToBootloader
      else Panic
  | Some c =>
      match only "Bluetooth" c with
      | Some b =>
          match only "Select" b with
          | Some i => let! i := lit8 i in Ok (CbBluetooth (BtSelect i))
          | None =>
              match b with
              | VStr s =>
                  if String.eqb s "Clear" then Ok (CbBluetooth BtClear)
                  else if String.eqb s "ClearAll" then Ok (CbBluetooth BtClearAll)
                  else if String.eqb s "Disconnect" then Ok (CbBluetooth BtDisconnect)
                  else if String.eqb s "Next" then Ok (CbBluetooth BtNext)
                  else if String.eqb s "Previous" then Ok (CbBluetooth BtPrevious)
                  else Panic
              | _ => Panic
              end
          end
      | None =>
          match only "Custom" c with
          | Some (VArr [i; j]) => let! i := lit8 i in let! j := lit8 j in Ok (CbCustom i j)
          | _ => Panic
          end
      end
  end.

(** smart_keys/layered/keymap-codegen.ncl 106-149. *)
Definition layer_modifier_expr (v : val) : res layer_modifier :=
  match only "Default" v with Some l => let! l := lit32 l in Ok (LmDefault l) | None =>
  match only "Hold" v with Some l => let! l := lit32 l in Ok (LmHold l) | None =>
  match only "Toggle" v with Some l => let! l := lit32 l in Ok (LmToggle l) | None =>
  match only "Sticky" v with Some l => let! l := lit32 l in Ok (LmSticky l) | None =>
  match only "SetActiveLayers" v with Some b => let! b := lit32 b in Ok (LmSetActiveLayers b) | None => Panic
  end end end end end.

(** smart_keys/mouse/keymap-codegen.ncl 43-51. *)
Definition mouse_expr (v : val) : res mouse_ref :=
  match only "mouse" v with
  | None => Panic
  | Some (VStr s) =>
      if String.eqb s "CursorUp" then Ok MsCursorUp
      else if String.eqb s "CursorDown" then Ok MsCursorDown
      else if String.eqb s "CursorLeft" then Ok MsCursorLeft
      else if String.eqb s "CursorRight" then Ok MsCursorRight
      else if String.eqb s "WheelUp" then Ok MsWheelUp
      else if String.eqb s "WheelDown" then Ok MsWheelDown
      else if String.eqb s "WheelLeft" then Ok MsWheelLeft
      else if String.eqb s "WheelRight" then Ok MsWheelRight
      else Panic
  | Some m => match only "Button" m with Some b => let! b := lit8 b in Ok (MsButton b) | None => Panic end
  end.

(** ** Key data and references *)

Definition no_data : key_data := mkData [] [] [] [] [] [] [] [] [] [].

(** Appending to one of the arrays of [key_data]; the reference is the index
    before ([new_index], a [u8] literal of the reference). *)
Definition new_index {A} (l : list A) : res u8 := lit 255 (N.of_nat (length l)).
Definition add_automation (d : key_data) (k : automation_key) : key_data :=
  mkData (kd_automation d ++ [k]) (kd_callback d) (kd_chorded d) (kd_chorded_aux d) (kd_keyboard d)
    (kd_layer_mods d) (kd_layered d) (kd_sticky d) (kd_tap_dance d) (kd_tap_hold d).
Definition add_callback (d : key_data) (k : callback) : key_data :=
  mkData (kd_automation d) (kd_callback d ++ [k]) (kd_chorded d) (kd_chorded_aux d) (kd_keyboard d)
    (kd_layer_mods d) (kd_layered d) (kd_sticky d) (kd_tap_dance d) (kd_tap_hold d).
Definition add_chorded (d : key_data) (k : chorded_key ref) : key_data :=
  mkData (kd_automation d) (kd_callback d) (kd_chorded d ++ [k]) (kd_chorded_aux d) (kd_keyboard d)
    (kd_layer_mods d) (kd_layered d) (kd_sticky d) (kd_tap_dance d) (kd_tap_hold d).
Definition add_chorded_aux (d : key_data) (k : chorded_aux ref) : key_data :=
  mkData (kd_automation d) (kd_callback d) (kd_chorded d) (kd_chorded_aux d ++ [k]) (kd_keyboard d)
    (kd_layer_mods d) (kd_layered d) (kd_sticky d) (kd_tap_dance d) (kd_tap_hold d).
Definition add_keyboard (d : key_data) (k : keyboard_key) : key_data :=
  mkData (kd_automation d) (kd_callback d) (kd_chorded d) (kd_chorded_aux d) (kd_keyboard d ++ [k])
    (kd_layer_mods d) (kd_layered d) (kd_sticky d) (kd_tap_dance d) (kd_tap_hold d).
Definition add_layer_mod (d : key_data) (k : layer_modifier) : key_data :=
  mkData (kd_automation d) (kd_callback d) (kd_chorded d) (kd_chorded_aux d) (kd_keyboard d)
    (kd_layer_mods d ++ [k]) (kd_layered d) (kd_sticky d) (kd_tap_dance d) (kd_tap_hold d).
Definition add_layered (d : key_data) (k : layered_key ref) : key_data :=
  mkData (kd_automation d) (kd_callback d) (kd_chorded d) (kd_chorded_aux d) (kd_keyboard d)
    (kd_layer_mods d) (kd_layered d ++ [k]) (kd_sticky d) (kd_tap_dance d) (kd_tap_hold d).
Definition add_sticky (d : key_data) (k : sticky_key) : key_data :=
  mkData (kd_automation d) (kd_callback d) (kd_chorded d) (kd_chorded_aux d) (kd_keyboard d)
    (kd_layer_mods d) (kd_layered d) (kd_sticky d ++ [k]) (kd_tap_dance d) (kd_tap_hold d).
Definition add_tap_dance (d : key_data) (k : tapdance_key ref) : key_data :=
  mkData (kd_automation d) (kd_callback d) (kd_chorded d) (kd_chorded_aux d) (kd_keyboard d)
    (kd_layer_mods d) (kd_layered d) (kd_sticky d) (kd_tap_dance d ++ [k]) (kd_tap_hold d).
Definition add_tap_hold (d : key_data) (k : taphold_key ref) : key_data :=
  mkData (kd_automation d) (kd_callback d) (kd_chorded d) (kd_chorded_aux d) (kd_keyboard d)
    (kd_layer_mods d) (kd_layered d) (kd_sticky d) (kd_tap_dance d) (kd_tap_hold d ++ [k]).

(** The [data_and_ref] of keys without nested keys.  Automation 123-142,
    callback 86-101, caps word 37-45, consumer 36-45, custom 38-46,
    keyboard 84-132, layered 153-169, mouse 43-60, sticky 50-65; the wrapping
    into the composite reference is keymap-codegen.ncl 186-210. *)
Definition leaf_data_and_ref (d : key_data) (m : jmod) (v : val) : res (key_data * ref) :=
  match m with
  | JAutomation =>
      let! k := automation_expr v in
      let! i := new_index (kd_automation d) in
      Ok (add_automation d k, RAutomation i)
  | JCallback =>
      let! k := callback_expr v in
      let! i := new_index (kd_callback d) in
      Ok (add_callback d k, RCallback i)
  | JCapsWord => Ok (d, RCapsWord)
  | JConsumer =>
      match only "consumer_code" v with
      | Some c => let! c := lit8 c in Ok (d, RConsumer (CnUsageCode c))
      | None => Panic
      end
  | JCustom =>
      match only "custom" v with
      | Some c => let! c := lit8 c in Ok (d, RCustom (CsCode c))
      | None => Panic
      end
  | JKeyboard =>
      match only "key_code" v with
      | Some c => let! c := lit8 c in Ok (d, RKeyboard (KbKeyCode c))
      | None =>
          match only "modifiers" v with
          | Some m => let! m := lit8 m in Ok (d, RKeyboard (KbModifiers m))
          | None =>
              match only2 "key_code" "modifiers" v with
              | Some (c, m) =>
                  let! c := lit8 c in
                  let! m := lit8 m in
                  let! i := new_index (kd_keyboard d) in
                  Ok (add_keyboard d (mkKeyboardKey c (mods_from_byte m)), RKeyboard (KbKeyCodeAndModifier i))
              | None => Panic
              end
          end
      end
  | JMouse => let! m := mouse_expr v in Ok (d, RMouse m)
  | JLayerMod =>
      let! k := layer_modifier_expr v in
      let! i := new_index (kd_layer_mods d) in
      Ok (add_layer_mod d k, RLayered (LyModifier i))
  | JSticky =>
      match only "sticky_modifiers" v with
      | Some b =>
          let! b := lit8 b in
          let! i := new_index (kd_sticky d) in
          Ok (add_sticky d (mkStickyKey (mods_from_byte b)), RSticky i)
      | None => Panic
      end
  | JAux | JChorded | JLayered | JTapDance | JTapHold => Panic
  end.

(** [smart_key.data_and_ref].  Chorded 79-119 and 167-191, layered 253-296,
    tap_dance 69-105, tap_hold 108-135: the nested keys first, then the key
    itself.  The arrays inside layered and tap-dance keys get their Rust length
    in [rust_data] below. *)
Fixpoint data_and_ref (d : key_data) (c : cv) : res (key_data * ref) :=
  match c with
  | CvLeaf m v => leaf_data_and_ref d m v
  | CvTapHold t h =>
      let! (d, t) := data_and_ref d t in
      let! (d, h) := data_and_ref d h in
      let! i := new_index (kd_tap_hold d) in
      Ok (add_tap_hold d (mkTapHold t h), RTapHold i)
  | CvTapDance ds =>
      let! (d, rs) := thread data_and_ref d ds in
      let! i := new_index (kd_tap_dance d) in
      Ok (add_tap_dance d (map Some rs), RTapDance i)
  | CvLayered b ls =>
      let! (d, b) := data_and_ref d b in
      let! (d, rs) :=
        thread (fun d o => match o with
                           | None => Ok (d, None)
                           | Some c => let! (d, r) := data_and_ref d c in Ok (d, Some r)
                           end) d ls in
      let! i := new_index (kd_layered d) in
      Ok (add_layered d (mkLayeredKey b rs), RLayered (LyLayered i))
  | CvChorded cs p =>
      let! (d, rs) :=
        thread (fun d e => match e with
                           | (n, c) =>
                               let! (d, r) := data_and_ref d c in
                               let! n := lit8 n in
                               Ok (d, (n, r))
                           end) d cs in
      let! (d, p) := data_and_ref d p in
      let! i := new_index (kd_chorded d) in
      Ok (add_chorded d (mkChordedKey rs p), RChorded (ChChorded i))
  | CvAux p =>
      let! (d, p) := data_and_ref d p in
      let! i := new_index (kd_chorded_aux d) in
      Ok (add_chorded_aux d (mkChordedAux p), RChorded (ChAuxiliary i))
  end.

(** ** Sizes *)

(** The [traverse] of each module (keymap-codegen.ncl 293-295, chorded 73-77 and
    163-165, layered 242-251, tap_dance 62-67, tap_hold 103-106). *)
Fixpoint traverse (f : nat -> cv -> nat) (acc : nat) (c : cv) : nat :=
  let acc := f acc c in
  match c with
  | CvLeaf _ _ => acc
  | CvTapHold t h => traverse f (traverse f acc t) h
  | CvTapDance ds => fold_left (fun a d => traverse f a d) ds acc
  | CvLayered b ls =>
      fold_left (fun a o => match o with Some k => traverse f a k | None => a end) ls (traverse f acc b)
  | CvChorded cs p =>
      traverse f (fold_left (fun a e => match e with (_, k) => traverse f a k end) cs acc) p
  | CvAux p => traverse f acc p
  end.

(** keymap-codegen.ncl 316-361 [max_tap_dance_definitions], [num_layers];
    [std.array.reduce_left] fails for a keymap without keys. *)
Definition max_dances (acc : nat) (c : cv) : nat :=
  match c with CvTapDance ds => if (acc <? length ds)%nat then length ds else acc | _ => acc end.
Definition max_layers (acc : nat) (c : cv) : nat :=
  match c with CvLayered _ ls => if (acc <? length ls)%nat then length ls else acc | _ => acc end.
Definition over_keys (f : nat -> cv -> nat) (cvs : list cv) : res nat :=
  match map (traverse f 0%nat) cvs with
  | [] => Panic
  | n :: ns => Ok (fold_left (fun x y => if (y <? x)%nat then x else y) ns n)
  end.

(** keymap-codegen.ncl 362-375.  Simplified: the chords of each first index are
    counted directly instead of in a record of counters. *)
Definition max_chord_size (chords : list (list N)) : nat :=
  fold_left Nat.max (map (@length N) chords) 0%nat.
Definition max_overlapping (chords : list (list N)) : res nat :=
  let! ps := map_res (fun c => match c with [] => Panic | i :: _ => Ok i end) chords in
  Ok (fold_left Nat.max (map (fun i => length (filter (N.eqb i) ps)) ps) 0%nat).

(** The constants of the generated module, keymap-codegen.ncl 407-423. *)
Record sizes := mkSizes {
  sz_instructions : nat;
  sz_layers : nat;
  sz_chord_size : nat;
  sz_chords : nat;
  sz_overlapping : nat;
  sz_dances : nat
}.

(** ** The generated Rust *)

(** layered.rs 407-425 [layered_keys], 450-453; tap_dance.rs 84-94
    [from_definitions]; slice.rs 15-30 [Slice::from_slice], chorded.rs 551-558. *)
Definition rust_layered (n : nat) (k : layered_key ref) : res (layered_key ref) :=
  let l := lk_layered k in
  if (length l <=? n)%nat then Ok (mkLayeredKey (lk_base k) (l ++ repeat None (n - length l))) else Panic.
Definition rust_tap_dance (n : nat) (k : tapdance_key ref) : tapdance_key ref :=
  firstn n k ++ repeat None (n - length k).
Definition rust_chorded (n : nat) (k : chorded_key ref) : res (chorded_key ref) :=
  if (length (chk_chords k) <=? n)%nat then Ok k else Panic.
Definition rust_data (sz : sizes) (d : key_data) : res key_data :=
  let! ly := map_res (rust_layered (sz_layers sz)) (kd_layered d) in
  let! ch := map_res (rust_chorded (sz_overlapping sz)) (kd_chorded d) in
  Ok (mkData (kd_automation d) (kd_callback d) ch (kd_chorded_aux d) (kd_keyboard d)
        (kd_layer_mods d) ly (kd_sticky d) (map (rust_tap_dance (sz_dances sz)) (kd_tap_dance d))
        (kd_tap_hold d)).

(** The configuration: automation 145-178 (with automation.rs 132-149
    [instructions]), chorded 194-241, sticky 68-124, tap_dance 108-130,
    tap_hold 138-176; what is not given comes from [Config::new] of the key's module;
    composite.rs 18: the chord context has room for twice the largest chord. *)
Definition option16 (o : option N) (default : N) : res N :=
  match o with Some n => lit 65535 n | None => Ok default end.
Definition option16' (o : option N) : res (option N) :=
  match o with Some n => let! n := lit 65535 n in Ok (Some n) | None => Ok None end.
Definition or_default {A} (o : option A) (a : A) : A := match o with Some x => x | None => a end.
Definition rust_config (sz : sizes) (j : keymap_json) : res config :=
  let o := kj_options j in
  let! ins := map_res instruction_expr (kj_instructions j) in
  let! ins := if (length ins <=? sz_instructions sz)%nat
              then Ok (ins ++ repeat InNoOp (sz_instructions sz - length ins)) else Panic in
  let! duration := option16 (op_instruction_duration o) (auc_duration (automation_config_new 0)) in
  let! chords := map_res (fun c => let! l := map_res (fun i => lit 65535 i) c in
                                   if (length l <=? sz_chord_size sz)%nat then Ok l else Panic)
                   (kj_chords j) in
  let! chords := if (length chords <=? sz_chords sz)%nat then Ok chords else Panic in
  let! cidle := option16' (op_chord_idle o) in
  let! ctimeout := option16 (op_chord_timeout o) chorded_default_timeout in
  let! dtimeout := option16 (op_dance_timeout o) (tdc_timeout tapdance_config_default) in
  let! htimeout := option16 (op_hold_timeout o) (thc_timeout taphold_config_default) in
  let! hidle := option16' (op_hold_idle o) in
  Ok (mkConfig
        (mkAutoConfig ins duration)
        (mkChConfig ctimeout chords cidle (sz_chords sz) (sz_chord_size sz) (2 * sz_chord_size sz))
        (mkStConfig (or_default (op_sticky_release o) (stc_release sticky_config_default)))
        (mkTDConfig dtimeout)
        (mkTHConfig htimeout (or_default (op_hold_interrupt o) (thc_interrupt taphold_config_default)) hidle)
        (sz_layers sz)).

(** The generated keymap: its references, its key data, its configuration. *)
Record generated := mkGenerated {
  gn_refs : list ref;
  gn_data : key_data;
  gn_config : config
}.

(** keymap-codegen.ncl 14-55 and 302-489: the contract of the JSON, the codegen
    values, the data and references, the sizes, and the generated module. *)
Definition contract_json (fuel : nat) (v : val) : res val :=
  let! b := json_valid fuel v in if b then Ok v else Panic.
Definition contract_instruction (v : val) : res val :=
  let! b := instruction_valid v in if b then Ok v else Panic.
Definition codegen (fuel : nat) (j : keymap_json) : res generated :=
  let! keys := map_res (contract_json fuel) (kj_keys j) in
  let! _ := map_res contract_instruction (kj_instructions j) in
  let! cvs := map_res (codegen_values fuel) keys in
  let! (d, refs) := thread data_and_ref no_data cvs in
  let! dances := over_keys max_dances cvs in
  let! layers := over_keys max_layers cvs in
  let! overlapping := max_overlapping (kj_chords j) in
  let sz := mkSizes (length (kj_instructions j)) layers (max_chord_size (kj_chords j))
              (length (kj_chords j)) overlapping dances in
  let! d := rust_data sz d in
  let! c := rust_config sz j in
  Ok (mkGenerated refs d c).

(** The whole way from keymap.ncl to the firmware's keymap. *)
Definition build (fuel : nat) (k : keymap_src) : res generated :=
  let! j := json_keymap fuel k in
  codegen fuel j.
