(** Specification vocabulary for reports (C01-C05), independent of the model's
    helper functions. *)
From Verif Require Import Base Output SimpleKeys.
Local Open Scope N_scope.

(** The non-zero keyboard usage codes of the pressed outputs, in press order. *)
Fixpoint key_slots (kos : list key_output) : list u8 :=
  match kos with
  | [] => []
  | ko :: t =>
      match ko_usage ko with
      | Keyboard kc => if kc =? 0 then key_slots t else kc :: key_slots t
      | _ => key_slots t
      end
  end.

(** All keyboard (consumer, custom) codes of the pressed outputs, in press order. *)
Fixpoint keyboard_codes (kos : list key_output) : list u8 :=
  match kos with
  | [] => []
  | mkKO (Keyboard c) _ :: t => c :: keyboard_codes t
  | _ :: t => keyboard_codes t
  end.
Fixpoint consumer_codes (kos : list key_output) : list u8 :=
  match kos with
  | [] => []
  | mkKO (Consumer c) _ :: t => c :: consumer_codes t
  | _ :: t => consumer_codes t
  end.
Fixpoint custom_codes (kos : list key_output) : list u8 :=
  match kos with
  | [] => []
  | mkKO (Custom c) _ :: t => c :: custom_codes t
  | _ :: t => custom_codes t
  end.

(** Some pressed output carries modifier bit [k]. *)
Definition modifier_held (kos : list key_output) (k : N) : Prop :=
  exists ko, In ko kos /\ N.testbit (ko_mods ko) k = true.

(** The modifier key codes 0xE0..0xE7 of the modifiers held, ascending. *)
Definition held_modifier_codes (kos : list key_output) : list u8 :=
  map (fun k => 0xE0 + k)
      (filter (fun k => existsb (fun ko => N.testbit (ko_mods ko) k) kos) [0;1;2;3;4;5;6;7]).

(** Mouse outputs pressed, and sums per axis. *)
Fixpoint mouse_outputs (kos : list key_output) : list mouse_output :=
  match kos with
  | [] => []
  | mkKO (Mouse m) _ :: t => m :: mouse_outputs t
  | _ :: t => mouse_outputs t
  end.
Definition zsum (f : mouse_output -> Z) (ms : list mouse_output) : Z :=
  fold_right (fun m acc => f m + acc)%Z 0%Z ms.
Definition zsum_abs (f : mouse_output -> Z) (ms : list mouse_output) : Z :=
  fold_right (fun m acc => Z.abs (f m) + acc)%Z 0%Z ms.

(** An output produced by one of the public constructors. *)
Inductive constructed : key_output -> Prop :=
| con_code c : constructed (ko_from_key_code c)
| con_code_mods c m : constructed (ko_from_key_code_with_modifiers c m)
| con_mods m : constructed (ko_from_key_modifiers m)
| con_consumer c : constructed (ko_from_consumer_code c)
| con_custom c : constructed (ko_from_custom_code c)
| con_mouse m : constructed (ko_from_mouse_output m)
| con_usage u : constructed (ko_from_usage u)
| con_usage_mods u m : constructed (ko_from_usage_with_modifiers u m).

(** Each axis of the mouse output is an [i8]. *)
Definition mouse_i8 (m : mouse_output) : Prop :=
  (-128 <= mo_x m <= 127 /\ -128 <= mo_y m <= 127
   /\ -128 <= mo_vscroll m <= 127 /\ -128 <= mo_hscroll m <= 127)%Z.

(** Outputs of mouse keys. *)
Definition mouse_key_out (ko : key_output) : Prop := exists r, mouse_key_output r = Ok ko.

(** Keyboard keys (and others) may be pressed together with mouse keys. *)
Definition mouse_only_from_keys (kos : list key_output) : Prop :=
  forall ko m, In ko kos -> ko_usage ko = Mouse m -> mouse_key_out ko.
