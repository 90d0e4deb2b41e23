(** Model of [K.string_macro] as a Nickel value, for C80: what keymap.ncl gets from
    StringMacro.v. *)
From Coq Require Import String Ascii.
From Verif Require Import Base Output Types Ncl StringMacro.
Import List.
Local Open Scope string_scope.
Local Open Scope N_scope.
Local Open Scope list_scope.

(** ncl/smart_keys/automation/lib.ncl 27-30: the instruction for one character.  A key
    output of StringMacro.v has the key code and the modifiers that the code computes. *)
Definition tap_value (ko : key_output) : val :=
  match ko_usage ko with
  | Keyboard kc =>
      VRec [("Tap", VRec (("key_code", VRec [("Keyboard", VNum kc)])
                          :: (if ko_mods ko =? 0 then [] else [("key_modifiers", VNum (ko_mods ko))])))]
  | _ => VNull
  end.
(** ncl/smart_keys/automation/key-extensions.ncl 5-8 [string_macro]; [None]: the
    evaluation fails. *)
Definition string_macro (s : list ascii) : option val :=
  option_map (fun kos => VRec [("automation_instructions", VRec [("on_press", VArr (map tap_value kos))])]) (string_outputs s).
