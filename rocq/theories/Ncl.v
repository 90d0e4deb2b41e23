(** From keymap.ncl to keymap.json.  Models /repo/ncl/validators.ncl,
    /repo/ncl/keymap-ncl-to-json.ncl and the files
    /repo/ncl/smart_keys/*/keymap-ncl-to-json.ncl.

    Nickel is lazy; the functions below evaluate what the code evaluates before
    it answers, and a failing evaluation ([std.fail_with], a broken contract, an
    inexhaustive match) is [Panic].  Error messages are left out. *)
From Coq Require Import String Ascii.
From Verif Require Import Base Sticky TapHold.
Import List.
Local Open Scope string_scope.
Local Open Scope N_scope.
Local Open Scope list_scope.

(** Nickel values.  Simplified: numbers are natural numbers (Nickel's are
    rational), and a record is the list of its fields, each name once. *)
Inductive val :=
| VNull
| VBool (b : bool)
| VNum (n : N)
| VStr (s : string)
| VArr (l : list val)
| VRec (fs : list (string * val)).

(** [std.record.fields], [std.array.elem] on names, [std.record.get], and the
    rest of a pattern [{ f, ..rest }]. *)
Definition names (fs : list (string * val)) : list string := map fst fs.
Definition mem (f : string) (l : list string) : bool := existsb (String.eqb f) l.
Fixpoint get (f : string) (fs : list (string * val)) : option val :=
  match fs with
  | [] => None
  | (g, v) :: t => if String.eqb f g then Some v else get f t
  end.
Definition without (f : string) (fs : list (string * val)) : list (string * val) :=
  filter (fun x => negb (String.eqb f (fst x))) fs.

(** The closed patterns [{ f = x }] and [{ f = x, g = y }]. *)
Definition only (f : string) (v : val) : option val :=
  match v with
  | VRec [(g, x)] => if String.eqb f g then Some x else None
  | _ => None
  end.
Definition only2 (f g : string) (v : val) : option (val * val) :=
  match v with
  | VRec fs =>
      match length fs, get f fs, get g fs with
      | 2%nat, Some x, Some y => Some (x, y)
      | _, _, _ => None
      end
  | _ => None
  end.

(** Merging two records, [a & b].  Simplified: a field that both have is an
    error (Nickel also merges equal values and records). *)
Definition merge (a b : list (string * val)) : res (list (string * val)) :=
  if existsb (fun f => mem f (names b)) (names a) then Panic else Ok (a ++ b).

(** ** validators.ncl

    ['Ok] is [true], ['Error] is [false]. *)
Definition vtor := val -> res bool.

(** validators.ncl 19-53. *)
Definition is_array : vtor := fun v => Ok (match v with VArr _ => true | _ => false end).
Definition is_bool : vtor := fun v => Ok (match v with VBool _ => true | _ => false end).
Definition is_null : vtor := fun v => Ok (match v with VNull => true | _ => false end).
Definition is_number : vtor := fun v => Ok (match v with VNum _ => true | _ => false end).
Definition is_string : vtor := fun v => Ok (match v with VStr _ => true | _ => false end).
(** validators.ncl 55-59. *)
Definition equals_string (t : string) : vtor :=
  fun v => Ok (match v with VStr s => String.eqb t s | _ => false end).
(** validators.ncl 67-71; comparing something else than a number fails. *)
Definition is_greater_than (m : N) : vtor :=
  fun v => match v with VNum n => Ok (m <? n) | _ => Panic end.

(** validators.ncl 85-95, 106-116. *)
Fixpoint all_of (vs : list vtor) (v : val) : res bool :=
  match vs with
  | [] => Ok true
  | p :: vs' => let! b := p v in if b then all_of vs' v else Ok false
  end.
Fixpoint any_of (vs : list vtor) (v : val) : res bool :=
  match vs with
  | [] => Ok false
  | p :: vs' => let! b := p v in if b then Ok true else any_of vs' v
  end.

(** validators.ncl 122-143 [array.validator]. *)
Fixpoint validate_elements (p : vtor) (l : list val) : res bool :=
  match l with
  | [] => Ok true
  | x :: l' => let! b := p x in if b then validate_elements p l' else Ok false
  end.
Definition array_of (p : vtor) : vtor :=
  fun v => match v with VArr l => validate_elements p l | _ => Ok false end.

(** validators.ncl 167-212: conditions on the names of a record's fields. *)
Definition has_all_fields (ns : list string) (r : list string) : bool :=
  forallb (fun f => mem f r) ns.
Definition has_any_field_of (ns : list string) (r : list string) : bool :=
  match r with [] => false | _ => existsb (fun f => mem f ns) r end.
Definition has_only_fields (ns : list string) (r : list string) : bool :=
  forallb (fun f => mem f ns) r.
Definition has_exact_fields (ns : list string) (r : list string) : bool :=
  has_all_fields ns r && has_only_fields ns r.

(** validators.ncl 214-246 [record.validator]. *)
Fixpoint vget (f : string) (fvs : list (string * vtor)) : option vtor :=
  match fvs with
  | [] => None
  | (g, p) :: t => if String.eqb f g then Some p else vget f t
  end.
Fixpoint validate_fields (fvs : list (string * vtor)) (fs : list (string * val)) : res bool :=
  match fs with
  | [] => Ok true
  | (f, v) :: fs' =>
      let! b := match vget f fvs with Some p => p v | None => Ok true end in
      if b then validate_fields fvs fs' else Ok false
  end.
Definition record_of (fields : list string -> bool) (fvs : list (string * vtor)) : vtor :=
  fun v => match v with
           | VRec fs => if fields (names fs) then validate_fields fvs fs else Ok false
           | _ => Ok false
           end.

(** validators.ncl 253-275 [tuple.validator]: an element without a validator
    breaks the pattern [[element_validator, ..validators]]. *)
Fixpoint validate_tuple (ps : list vtor) (l : list val) : res bool :=
  match l with
  | [] => Ok true
  | x :: l' =>
      match ps with
      | [] => Panic
      | p :: ps' => let! b := p x in if b then validate_tuple ps' l' else Ok false
      end
  end.
Definition tuple_of (ps : list vtor) : vtor :=
  fun v => match v with VArr l => validate_tuple ps l | _ => Ok false end.

(** The match on two results in the validators of nested keys
    (chorded 20-25, layered 121-126, tap_dance 19-24, tap_hold 58-63):
    [['Ok, 'Ok] => 'Ok, [err, _] => err, [_, err] => err].  The second case
    matches every pair, so the answer is the first result; the second one is
    evaluated only after an ['Ok]. *)
Definition two_results (a b : res bool) : res bool :=
  let! x := a in
  if x then (let! _ := b in Ok true) else Ok false.

(** ** Keys in keymap.ncl *)

(** keymap-ncl-to-json.ncl 53-77 [keyboard_modifiers.validator]. *)
Definition modifier_names : list string :=
  ["left_ctrl"; "left_shift"; "left_alt"; "left_gui";
   "right_ctrl"; "right_shift"; "right_alt"; "right_gui"].
Definition modifiers_valid : vtor :=
  record_of (has_only_fields modifier_names) (map (fun f => (f, is_bool)) modifier_names).

(** keymap-ncl-to-json.ncl 80-102 [keyboard_modifiers.to_json_value]. *)
Definition modifier_bit (fs : list (string * val)) (f : string) (bit : N) : res N :=
  match get f fs with
  | None => Ok 0
  | Some (VBool b) => Ok (if b then bit else 0)
  | Some _ => Panic
  end.
Definition modifiers_to_json (v : val) : res val :=
  match v with
  | VRec fs =>
      let! a := modifier_bit fs "left_ctrl" 1 in
      let! b := modifier_bit fs "left_shift" 2 in
      let! c := modifier_bit fs "left_alt" 4 in
      let! d := modifier_bit fs "left_gui" 8 in
      let! e := modifier_bit fs "right_ctrl" 16 in
      let! f := modifier_bit fs "right_shift" 32 in
      let! g := modifier_bit fs "right_alt" 64 in
      let! h := modifier_bit fs "right_gui" 128 in
      Ok (VNum (0 + a + b + c + d + e + f + g + h))
  | _ => Panic
  end.

(** keymap-codegen.ncl 75-88, 121-133, 154-164, and
    smart_keys/automation/keymap-codegen.ncl 24-39, 54-64: the validators of
    instructions and executions, which keymap-ncl-to-json.ncl shares. *)
Definition mouse_output_fields : list string :=
  ["pressed_buttons"; "x"; "y"; "vertical_scroll"; "horizontal_scroll"].
Definition mouse_output_valid : vtor :=
  record_of (has_only_fields mouse_output_fields) (map (fun f => (f, is_number)) mouse_output_fields).
Definition key_usage_valid : vtor :=
  record_of (has_any_field_of ["Keyboard"; "Consumer"; "Custom"; "MouseOutput"])
    [("Keyboard", is_number); ("Consumer", is_number); ("Custom", is_number);
     ("MouseOutput", mouse_output_valid)].
Definition key_output_valid : vtor :=
  record_of (has_only_fields ["key_code"; "key_modifiers"])
    [("key_code", key_usage_valid); ("key_modifiers", is_number)].
Definition instruction_valid : vtor :=
  any_of [is_string;
          record_of (has_any_field_of ["Press"; "Release"; "Tap"; "Wait"])
            [("Press", key_output_valid); ("Release", key_output_valid);
             ("Tap", key_output_valid); ("Wait", is_number)]].
Definition execution_valid : vtor :=
  record_of (has_exact_fields ["start"; "length"]) [("start", is_number); ("length", is_number)].

(** The key modules, keymap-ncl-to-json.ncl 122-138. *)
Inductive kmod :=
| KAutomation | KCallback | KCapsWord | KChorded | KChordedAux | KConsumer | KCustom
| KKeyboard | KLayerModifier | KLayered | KMouse | KSticky | KTapDance | KTapHold.
Definition key_modules : list kmod :=
  [KAutomation; KCallback; KCapsWord; KChorded; KChordedAux; KConsumer; KCustom;
   KKeyboard; KLayerModifier; KLayered; KMouse; KSticky; KTapDance; KTapHold].

(** smart_keys/automation/keymap-ncl-to-json.ncl 50-77. *)
Definition key_instructions_valid : vtor :=
  let p := any_of [execution_valid; array_of instruction_valid] in
  record_of (has_only_fields ["on_press"; "while_pressed"; "on_release"])
    [("on_press", p); ("while_pressed", p); ("on_release", p)].
Definition automation_valid : vtor :=
  record_of (has_only_fields ["automation_instructions"])
    [("automation_instructions", key_instructions_valid)].

(** smart_keys/callback/keymap-ncl-to-json.ncl 9-23. *)
Definition bt_names : list string := ["Clear"; "ClearAll"; "Disconnect"; "Next"; "Previous"].
Definition callback_valid : vtor := fun v =>
  match only "keymap_callback" v with
  | None => Ok false
  | Some c =>
      match only "Bluetooth" c, only "Custom" c with
      | Some (VStr s), _ => if mem s bt_names then Ok true else is_string c
      | Some b, _ =>
          match only "Select" b with
          | Some i => is_number i
          | None => is_string c
          end
      | _, Some (VArr [i; j]) => array_of is_number (VArr [i; j])
      | _, _ => is_string c
      end
  end.

(** smart_keys/layered/keymap-ncl-to-json.ncl 33-42. *)
Definition layer_modifier_valid : vtor := fun v =>
  match only "layer_modifier" v with
  | None => Ok false
  | Some m =>
      match only "default_" m with Some l => is_number l | None =>
      match only "hold" m with Some l => is_number l | None =>
      match only "sticky" m with Some l => is_number l | None =>
      match only "toggle" m with Some l => all_of [is_number; is_greater_than 0] l | None =>
      match only "set_active_layers_to" m with Some l => array_of is_number l | None => Ok false
      end end end end end
  end.

(** The [key_validator] of each module; [rec] is [keymap_ncl.key.key_validator].
    Caps word 9-14, chorded 14-27 and 57-62, consumer 9-16, custom 9-14,
    keyboard 25-36, layered 110-128, mouse 9-23, sticky 35-42, tap_dance 13-26,
    tap_hold 52-65. *)
Definition module_valid (rec : vtor) (m : kmod) : vtor := fun v =>
  match m with
  | KAutomation => automation_valid v
  | KCallback => callback_valid v
  | KCapsWord => equals_string "ToggleCapsWord" v
  | KChorded =>
      match only2 "chords" "passthrough" v with
      | Some (cs, p) => two_results (array_of (tuple_of [is_number; rec]) cs) (rec p)
      | None => Ok false
      end
  | KChordedAux => match only "passthrough" v with Some p => rec p | None => Ok false end
  | KConsumer => record_of (has_exact_fields ["consumer_code"]) [("consumer_code", is_number)] v
  | KCustom => match only "custom" v with Some c => is_number c | None => Ok false end
  | KKeyboard =>
      record_of (fun r => has_any_field_of ["key_code"; "modifiers"] r
                          && has_only_fields ["key_code"; "modifiers"] r)
        [("key_code", is_number); ("modifiers", modifiers_valid)] v
  | KLayerModifier => layer_modifier_valid v
  | KLayered =>
      match v with
      | VRec fs =>
          match get "layered" fs with
          | Some l => two_results (array_of (any_of [is_null; rec]) l) (rec (VRec (without "layered" fs)))
          | None => Ok false
          end
      | _ => Ok false
      end
  | KMouse =>
      record_of (has_exact_fields ["mouse"])
        [("mouse", any_of [is_string; record_of (has_exact_fields ["Button"]) [("Button", is_number)]])] v
  | KSticky =>
      record_of (has_exact_fields ["sticky_modifiers"]) [("sticky_modifiers", modifiers_valid)] v
  | KTapDance =>
      match v with
      | VRec fs =>
          match get "tap_dances" fs with
          | Some l => two_results (array_of rec l) (rec (VRec (without "tap_dances" fs)))
          | None => Ok false
          end
      | _ => Ok false
      end
  | KTapHold =>
      match v with
      | VRec fs =>
          match get "hold" fs with
          | Some h => two_results (rec h) (rec (VRec (without "hold" fs)))
          | None => Ok false
          end
      | _ => Ok false
      end
  end.

(** keymap-ncl-to-json.ncl 142-144 [key_validator]; [fuel] bounds the nesting. *)
Fixpoint key_valid (fuel : nat) : vtor := fun v =>
  match fuel with
  | O => NoFuel
  | S f => any_of (map (module_valid (key_valid f)) key_modules) v
  end.

(** keymap-ncl-to-json.ncl 165-175 [nullable_key.key_validator]: the contract
    [KeymapKey]. *)
Definition nullable_key_valid (fuel : nat) : vtor := any_of [key_valid fuel; is_null].

(** keymap-ncl-to-json.ncl 148-154 [key_module_for_value]. *)
Fixpoint filter_modules (is_key : kmod -> res bool) (ms : list kmod) : res (list kmod) :=
  match ms with
  | [] => Ok []
  | m :: ms' =>
      let! b := is_key m in
      let! l := filter_modules is_key ms' in
      Ok (if b then m :: l else l)
  end.
Definition key_module_for_value (fuel : nat) (v : val) : res kmod :=
  let! l := filter_modules (fun m => module_valid (key_valid fuel) m v) key_modules in
  match l with [] => Panic | m :: _ => Ok m end.

(** [std.array.map] of a function that may fail. *)
Fixpoint map_res {A B} (f : A -> res B) (l : list A) : res (list B) :=
  match l with
  | [] => Ok []
  | x :: l' => let! y := f x in let! t := map_res f l' in Ok (y :: t)
  end.

(** smart_keys/layered/keymap-ncl-to-json.ncl 46-65: the set of layers is the
    sum of [2^l]; [std.array.reduce_left] of an empty array fails. *)
Definition as_array (v : val) : res (list val) := match v with VArr l => Ok l | _ => Panic end.
Definition as_num (v : val) : res N := match v with VNum n => Ok n | _ => Panic end.
Definition layer_bitset (l : list val) : res N :=
  let! ps := map_res (fun v => let! n := as_num v in Ok (2 ^ n)) l in
  match ps with
  | [] => Panic
  | p :: t => Ok (fold_left N.add t p)
  end.
Definition layer_modifier_to_json (v : val) : res val :=
  match only "layer_modifier" v with
  | None => Panic
  | Some m =>
      match only "default_" m with Some l => Ok (VRec [("Default", l)]) | None =>
      match only "hold" m with Some l => Ok (VRec [("Hold", l)]) | None =>
      match only "toggle" m with Some l => Ok (VRec [("Toggle", l)]) | None =>
      match only "sticky" m with Some l => Ok (VRec [("Sticky", l)]) | None =>
      match only "set_active_layers_to" m with
      | Some l => let! a := as_array l in
                  let! b := layer_bitset a in
                  Ok (VRec [("SetActiveLayers", VNum b)])
      | None => Panic
      end end end end end
  end.

(** The [to_json_value] of each module; [rec] is [keymap_ncl.key.to_json_value].
    Automation 84-85, callback 27, caps word 18, chorded 31-35 and 66-69,
    consumer 20, custom 18, keyboard 40-43, layered 132-139, mouse 27,
    sticky 46, tap_dance 30-33, tap_hold 69-73. *)
Definition module_to_json (rec : val -> res val) (m : kmod) (v : val) : res val :=
  match m with
  | KAutomation => match only "automation_instructions" v with Some _ => Ok v | None => Panic end
  | KCallback | KCapsWord | KConsumer | KCustom | KMouse => Ok v
  | KChorded =>
      match only2 "chords" "passthrough" v with
      | Some (cs, p) =>
          let! l := as_array cs in
          let! l' := map_res (fun e => match e with
                                       | VArr [i; k] => let! j := rec k in Ok (VArr [i; j])
                                       | _ => Panic
                                       end) l in
          let! p' := rec p in
          Ok (VRec [("chords", VArr l'); ("passthrough", p')])
      | None => Panic
      end
  | KChordedAux =>
      match only "passthrough" v with
      | Some p => let! p' := rec p in Ok (VRec [("passthrough", p')])
      | None => Panic
      end
  | KKeyboard =>
      match v with
      | VRec fs =>
          match get "modifiers" fs with
          | Some km => let! b := modifiers_to_json km in
                       Ok (VRec (without "modifiers" fs ++ [("modifiers", b)]))
          | None => Ok v
          end
      | _ => Ok v
      end
  | KLayerModifier => layer_modifier_to_json v
  | KLayered =>
      match v with
      | VRec fs =>
          match get "layered" fs with
          | Some ls =>
              let! b := rec (VRec (without "layered" fs)) in
              let! l := as_array ls in
              let! l' := map_res (fun k => match k with VNull => Ok VNull | _ => rec k end) l in
              Ok (VRec [("base", b); ("layered", VArr l')])
          | None => Panic
          end
      | _ => Panic
      end
  | KSticky =>
      match only "sticky_modifiers" v with
      | Some m => let! b := modifiers_to_json m in Ok (VRec [("sticky_modifiers", b)])
      | None => Panic
      end
  | KTapDance =>
      match v with
      | VRec fs =>
          match get "tap_dances" fs with
          | Some ds =>
              let! t := rec (VRec (without "tap_dances" fs)) in
              let! l := as_array ds in
              let! l' := map_res rec l in
              Ok (VRec [("definitions", VArr (t :: l'))])
          | None => Panic
          end
      | _ => Panic
      end
  | KTapHold =>
      match v with
      | VRec fs =>
          match get "hold" fs with
          | Some h =>
              let! h' := rec h in
              let! t' := rec (VRec (without "hold" fs)) in
              Ok (VRec [("hold", h'); ("tap", t')])
          | None => Panic
          end
      | _ => Panic
      end
  end.

(** keymap-ncl-to-json.ncl 156-158 [to_json_value]. *)
Fixpoint key_to_json (fuel : nat) (v : val) : res val :=
  match fuel with
  | O => NoFuel
  | S f =>
      let! m := key_module_for_value f v in
      module_to_json (key_to_json f) m v
  end.

(** ** Macros

    smart_keys/automation/keymap-ncl-to-json.ncl 87-124
    [transform_keys_to_instructions]: the accumulator is the array of all
    instructions so far; the key's instructions are appended to it and replaced
    by their position. *)
Definition append_instructions (acc : list val) (v : val) : res (list val * val) :=
  let! l := as_array v in
  Ok (acc ++ l, VRec [("start", VNum (N.of_nat (length acc))); ("length", VNum (N.of_nat (length l)))]).
Definition or_empty (o : option val) : val := match o with Some v => v | None => VArr [] end.
Definition transform (acc : list val) (v : val) : res (list val * val) :=
  match only "automation_instructions" v with
  | None => Ok (acc, v)
  | Some (VRec fs) =>
      let! (acc, p) := append_instructions acc (or_empty (get "on_press" fs)) in
      let! (acc, w) := append_instructions acc (or_empty (get "while_pressed" fs)) in
      let! (acc, r) := append_instructions acc (or_empty (get "on_release" fs)) in
      Ok (acc, VRec [("automation_instructions",
                      VRec [("on_press", p); ("while_pressed", w); ("on_release", r)])])
  | Some _ => Panic
  end.

(** [std.array.fold_left] with an accumulator, collecting the results. *)
Definition thread {S A B} (f : S -> A -> res (S * B)) : S -> list A -> res (S * list B) :=
  fix go (s : S) (l : list A) : res (S * list B) :=
    match l with
    | [] => Ok (s, [])
    | x :: l' =>
        let! (s, y) := f s x in
        let! (s, t) := go s l' in
        Ok (s, y :: t)
    end.

(** The records that the results of [map_accum] merge: [{ f = v } & key]. *)
Definition merge_into (f : string) (v : val) (k : val) : res val :=
  match k with
  | VRec fs => let! r := merge [(f, v)] fs in Ok (VRec r)
  | _ => Panic
  end.

(** The [map_accum] of each module: the function is applied to the key itself
    or, for keys made of keys, to each of the keys it is made of, once and not
    inside them.  Automation 126-127, callback 29, caps word 20, chorded 37-49
    and 71-73, consumer 22, custom 20, keyboard 45, layered 67 and 141-154,
    mouse 29, sticky 48, tap_dance 35-54, tap_hold 75-85. *)
Definition module_map_accum (f : list val -> val -> res (list val * val)) (acc : list val)
    (m : kmod) (v : val) : res (list val * val) :=
  match m with
  | KChorded =>
      match only2 "chords" "passthrough" v with
      | Some (cs, p) =>
          let! l := as_array cs in
          let! (acc, l') :=
            thread (fun acc e => match e with
                                 | VArr [i; k] => let! (acc, k') := f acc k in Ok (acc, VArr [i; k'])
                                 | _ => Panic
                                 end) acc l in
          let! (acc, p') := f acc p in
          Ok (acc, VRec [("chords", VArr l'); ("passthrough", p')])
      | None => Panic
      end
  | KChordedAux =>
      match only "passthrough" v with
      | Some p => let! (acc, p') := f acc p in Ok (acc, VRec [("passthrough", p')])
      | None => Panic
      end
  | KLayered =>
      match v with
      | VRec fs =>
          match get "layered" fs with
          | Some ls =>
              let! l := as_array ls in
              let! (acc, l') := thread f acc l in
              let! (acc, b) := f acc (VRec (without "layered" fs)) in
              let! k := merge_into "layered" (VArr l') b in
              Ok (acc, k)
          | None => Panic
          end
      | _ => Panic
      end
  | KTapDance =>
      match v with
      | VRec fs =>
          match get "tap_dances" fs with
          | Some ds =>
              let! l := as_array ds in
              let! (acc, l') := thread f acc l in
              let! (acc, t) := f acc (VRec (without "tap_dances" fs)) in
              let! k := merge_into "tap_dances" (VArr l') t in
              Ok (acc, k)
          | None => Panic
          end
      | _ => Panic
      end
  | KTapHold =>
      match v with
      | VRec fs =>
          match get "hold" fs with
          | Some h =>
              let! (acc, t) := f acc (VRec (without "hold" fs)) in
              let! (acc, h') := f acc h in
              let! k := merge_into "hold" h' t in
              Ok (acc, k)
          | None => Panic
          end
      | _ => Panic
      end
  | _ => f acc v
  end.

(** keymap-ncl-to-json.ncl 160-162 [map_accum]. *)
Definition key_map_accum (fuel : nat) (acc : list val) (v : val) : res (list val * val) :=
  let! m := key_module_for_value fuel v in
  module_map_accum transform acc m v.

(** ** Layers and chords *)

(** keymap-ncl-to-json.ncl 198-204: runs of white space become one space, the
    string is split at the spaces and empty words are dropped.  Simplified:
    [\s] is the white space of ASCII. *)
Definition is_space (c : ascii) : bool :=
  let n := nat_of_ascii c in ((n =? 32) || ((9 <=? n) && (n <=? 13)))%nat.
Fixpoint collapse (after_space : bool) (s : string) : string :=
  match s with
  | EmptyString => EmptyString
  | String c s' =>
      if is_space c then (if after_space then collapse true s' else String " " (collapse true s'))
      else String c (collapse false s')
  end.
Fixpoint split_spaces (s : string) : list string :=
  match s with
  | EmptyString => [EmptyString]
  | String c s' =>
      if Ascii.eqb c " " then EmptyString :: split_spaces s'
      else match split_spaces s' with
           | [] => [String c EmptyString]
           | w :: ws => String c w :: ws
           end
  end.
Definition words (s : string) : list string :=
  filter (fun w => negb (String.eqb w EmptyString)) (split_spaces (collapse false s)).

(** A layer of keymap.ncl, 26-30: an array of keys or a string of key names. *)
Inductive layer_src :=
| LKeys (l : list val)
| LString (s : string).

(** keymap-ncl-to-json.ncl 213-243 [layer_as_array_of_keys]; [K] is the record
    of key names (keys.ncl with the custom keys). *)
Definition layer_as_array_of_keys (K : list (string * val)) (l : layer_src) : res (list val) :=
  match l with
  | LKeys ks => Ok ks
  | LString s => map_res (fun w => match get w K with Some v => Ok v | None => Panic end) (words s)
  end.

(** The contract of a key in an array layer, checked when the key is used (26,
    30); keys looked up by name are not under it. *)
Definition contract_key (fuel : nat) (l : layer_src) (v : val) : res val :=
  match l with
  | LString _ => Ok v
  | LKeys _ => let! b := nullable_key_valid fuel v in if b then Ok v else Panic
  end.

(** keymap-ncl-to-json.ncl 247-267 [layered_keys]. *)
Definition all_null (l : list val) : bool :=
  forallb (fun v => match v with VNull => true | _ => false end) l.
Definition layered_key_at (fuel : nat) (base : layer_src * list val) (uppers : list (layer_src * list val))
    (i : nat) : res val :=
  let! b := index (snd base) i in
  let! b := contract_key fuel (fst base) b in
  let! ls := map_res (fun l => let! v := index (snd l) i in contract_key fuel (fst l) v) uppers in
  if all_null ls then Ok b
  else match b with
       | VRec fs => let! r := merge fs [("layered", VArr ls)] in Ok (VRec r)
       | _ => Panic
       end.
Definition layered_keys (fuel : nat) (K : list (string * val)) (layers : list layer_src) : res (list val) :=
  match layers with
  | [] => Panic
  | [l] => let! ks := layer_as_array_of_keys K l in map_res (contract_key fuel l) ks
  | l :: ls =>
      let! base := layer_as_array_of_keys K l in
      let! uppers := map_res (fun u => let! ks := layer_as_array_of_keys K u in Ok (u, ks)) ls in
      map_res (layered_key_at fuel (l, base) uppers) (seq 0 (length base))
  end.

(** keymap-ncl-to-json.ncl 16, 43-46: a chord. *)
Record chord_src := mkChordSrc { cs_indices : list N; cs_key : val }.

(** keymap-ncl-to-json.ncl 269-286 [chorded_keys]: the chords whose first index
    is the key's make it a chorded key; a key that only occurs later in a chord
    becomes an auxiliary key. *)
Definition primary_index (c : chord_src) : res N :=
  match cs_indices c with [] => Panic | i :: _ => Ok i end.
Definition numbered {A} (l : list A) : list (N * A) :=
  combine (map N.of_nat (seq 0 (length l))) l.
Fixpoint chords_led_by (i : N) (cs : list (N * chord_src)) : res (list (N * chord_src)) :=
  match cs with
  | [] => Ok []
  | (n, c) :: cs' =>
      let! p := primary_index c in
      let! t := chords_led_by i cs' in
      Ok (if p =? i then (n, c) :: t else t)
  end.
Definition chord_key_entry (fuel : nat) (e : N * chord_src) : res val :=
  let! b := nullable_key_valid fuel (cs_key (snd e)) in
  if b then Ok (VArr [VNum (fst e); cs_key (snd e)]) else Panic.
Definition chorded_key_at (fuel : nat) (chords : list chord_src) (e : N * val) : res val :=
  let! led := chords_led_by (fst e) (numbered chords) in
  match led with
  | [] => if existsb (fun c => existsb (N.eqb (fst e)) (cs_indices c)) chords
          then Ok (VRec [("passthrough", snd e)]) else Ok (snd e)
  | _ => let! l := map_res (chord_key_entry fuel) led in
         Ok (VRec [("chords", VArr l); ("passthrough", snd e)])
  end.
Definition chorded_keys (fuel : nat) (chords : list chord_src) (keys : list val) : res (list val) :=
  map_res (chorded_key_at fuel chords) (numbered keys).

(** ** The keymap *)

(** keymap-ncl-to-json.ncl 18-24 and the [Config] contracts of the modules:
    automation 43-46, chorded 7-10, sticky 9-31, tap_dance 7-9, tap_hold 35-48.
    Simplified: the options are typed ([None] for a field that is left out), and
    the one activation of sticky keys is left out. *)
Record options := mkOptions {
  op_instruction_duration : option N;
  op_chord_idle : option N;
  op_chord_timeout : option N;
  op_sticky_release : option sticky_release;
  op_dance_timeout : option N;
  op_hold_timeout : option N;
  op_hold_interrupt : option interrupt_response;
  op_hold_idle : option N
}.

Record keymap_src := mkKeymapSrc {
  ks_names : list (string * val);
  ks_layers : list layer_src;
  ks_chords : list chord_src;
  ks_options : options
}.

(** keymap.json: the keys, the instructions of all macros, the indices of the
    chords and the options. *)
Record keymap_json := mkKeymapJson {
  kj_keys : list val;
  kj_instructions : list val;
  kj_chords : list (list N);
  kj_options : options
}.

(** keymap-ncl-to-json.ncl 288-332 [json_keymap]. *)
Definition json_keymap (fuel : nat) (k : keymap_src) : res keymap_json :=
  let! keys := layered_keys fuel (ks_names k) (ks_layers k) in
  let! keys := chorded_keys fuel (ks_chords k) keys in
  let! (instructions, keys) := thread (key_map_accum fuel) [] keys in
  let! keys_json := map_res (key_to_json fuel) keys in
  Ok (mkKeymapJson keys_json instructions (map cs_indices (ks_chords k)) (ks_options k)).
