(** Specification vocabulary for string macros (C78): what a computer with the US
    keyboard layout makes of the reports of a keyboard. *)
From Verif Require Import Base Output Types Scheduler Keymap Automation Composite SpecKeymap SpecMacro SpecMacroBoard.
From Coq Require Import String Ascii.
Local Open Scope N_scope.

Definition text := list ascii.
Definition text_of (s : string) : text := list_ascii_of_string s.

(** *** The US layout, from the first usage of each row of the HID usage tables on *)
Definition rows : list (N * string * string) :=
  [(0x04, "abcdefghijklmnopqrstuvwxyz", "ABCDEFGHIJKLMNOPQRSTUVWXYZ");
   (0x1E, "1234567890", "!@#$%^&*()");
   (0x2C, " -=[]\", " _+{}|");
   (0x33, ";'`,./", ":""~<>?")]%string.
Definition on_row (usage : N) (shift : bool) (row : N * string * string) : option ascii :=
  let '(first, plain, shifted) := row in
  if usage <? first then None else String.get (N.to_nat (usage - first)) (if shift then shifted else plain).
Definition us_layout (usage : N) (shift : bool) : option ascii :=
  fold_right (fun row other => match on_row usage shift row with Some c => Some c | None => other end) None rows.

(** *** The computer *)
(** A report of the boot protocol: the modifiers, a byte that says nothing, and up to
    six usages; a usage of zero is none. *)
Definition report_modifiers (r : list u8) : N := nth 0 r 0.
Definition report_usages (r : list u8) : list u8 := filter (fun u => negb (u =? 0)) (skipn 2 r).
Definition with_shift (r : list u8) : bool := N.testbit (report_modifiers r) 1 || N.testbit (report_modifiers r) 5.
(** Control, Alt or GUI: what is pressed with these is a command, not text. *)
Definition commands (r : list u8) : bool := negb (N.ldiff (report_modifiers r) 0x22 =? 0).
(** The text that a report after another types: the characters of the keys that were
    not down before. *)
Definition newly (before now : list u8) : list u8 :=
  filter (fun u => negb (existsb (N.eqb u) (report_usages before))) (report_usages now).
Definition types (before now : list u8) : text :=
  if commands now then [] else filter_map (fun u => us_layout u (with_shift now)) (newly before now).
Fixpoint typed (before : list u8) (reports : list (list u8)) : text :=
  match reports with [] => [] | r :: t => types before r ++ typed r t end.
Definition no_keys : list u8 := [0; 0; 0; 0; 0; 0; 0; 0].

(** *** The keyboard *)
(** The calls, one after the other, with the report of the keymap after each. *)
Fixpoint reports (conf : kconf ref cctx cev cpks cks) (fuel : nat) (ops : list op) (k : ckeymap) : res (ckeymap * list (list u8)) :=
  match ops with
  | [] => Ok (k, [])
  | o :: t =>
      let! k1 := run_op conf fuel k o in
      let! r := km_boot_keyboard_report conf k1 in
      let! (k2, rs) := reports conf fuel t k1 in
      Ok (k2, r :: rs)
  end.
(** No key is pressed in these calls. *)
Definition presses_none (o : op) : bool :=
  match o with OpTick | OpReport | OpInput (Release _) => true | _ => false end.
Definition ticks (ops : list op) : nat := List.length (filter (fun o => match o with OpTick => true | _ => false end) ops).

(** The position that a binary search gives for the time [t] in a list that is [t]
    alone: it finds it. *)
Definition finds_the_one (pos : position_fn) : Prop := forall t, pos [t] t = 0%nat.
(** The macro keys only play when they are pressed, as those of [K.string_macro]. *)
Definition only_when_pressed (refs : list ref) (d : key_data) (cf : automation_config) : Prop :=
  forall r on default a, In r refs -> runs d on default r a -> macro_of cf (ak_while_pressed a) = [] /\ macro_of cf (ak_on_release a) = [].
