(** Model of the string macros of the Nickel library: the text given to
    [K.string_macro] in a keymap.ncl becomes the instructions of a macro.
    Simplification: characters are those of [ascii]; letters outside ASCII, some of
    which Nickel turns into ASCII letters when it makes them upper case, are not
    modelled. *)
From Verif Require Import Base Output Types Automation.
From Coq Require Import String Ascii.
Local Open Scope N_scope.

(** A key of the library: its key code, if it has one, and its modifiers.
    ncl/smart_keys/keyboard/key-extensions.ncl 3-26: the usages 0xE0 to 0xE7 are
    modifiers, the others key codes. *)
Record lib_key := mkLibKey { lb_code : option u8; lb_mods : modifiers }.
Definition usage_key (kc : u8) : lib_key :=
  match mods_from_key_code kc with Some m => mkLibKey None m | None => mkLibKey (Some kc) 0 end.
(** Nickel's [&] of two such records; [None] if they contradict each other. *)
Definition merge_keys (a b : lib_key) : option lib_key :=
  match lb_code a, lb_code b with
  | Some x, Some y => if x =? y then Some (mkLibKey (Some x) (N.lor (lb_mods a) (lb_mods b))) else None
  | Some x, None | None, Some x => Some (mkLibKey (Some x) (N.lor (lb_mods a) (lb_mods b)))
  | None, None => Some (mkLibKey None (N.lor (lb_mods a) (lb_mods b)))
  end.

(** ncl/hid-usage-keyboard.ncl 3-63, 113: the usages that text is made of.  The rest of
    the table has no names of one character. *)
Definition usages : list (string * u8) :=
  [("A", 0x04); ("B", 0x05); ("C", 0x06); ("D", 0x07); ("E", 0x08); ("F", 0x09); ("G", 0x0A); ("H", 0x0B); ("I", 0x0C); ("J", 0x0D);
   ("K", 0x0E); ("L", 0x0F); ("M", 0x10); ("N", 0x11); ("O", 0x12); ("P", 0x13); ("Q", 0x14); ("R", 0x15); ("S", 0x16); ("T", 0x17);
   ("U", 0x18); ("V", 0x19); ("W", 0x1A); ("X", 0x1B); ("Y", 0x1C); ("Z", 0x1D);
   ("N1", 0x1E); ("N2", 0x1F); ("N3", 0x20); ("N4", 0x21); ("N5", 0x22); ("N6", 0x23); ("N7", 0x24); ("N8", 0x25); ("N9", 0x26); ("N0", 0x27);
   ("Space", 0x2C); ("Minus", 0x2D); ("Equals", 0x2E); ("LeftBracket", 0x2F); ("RightBracket", 0x30); ("Backslash", 0x31);
   ("Semicolon", 0x33); ("Quote", 0x34); ("Grave", 0x35); ("Comma", 0x36); ("Dot", 0x37); ("Slash", 0x38); ("LeftShift", 0xE1)]%string.
(** ncl/smart_keys/keyboard/key-extensions.ncl 198-228 [shifted]. *)
Definition shifted : list (string * string) :=
  [("Exclaim", "N1"); ("At", "N2"); ("Hash", "N3"); ("Dollar", "N4"); ("Percent", "N5"); ("Caret", "N6"); ("Ampersand", "N7"); ("Asterisk", "N8");
   ("LeftParen", "N9"); ("RightParen", "N0"); ("LeftCurlyBracket", "LeftBracket"); ("RightCurlyBracket", "RightBracket"); ("Tilde", "Grave");
   ("Plus", "Equals"); ("Underscore", "Minus"); ("Question", "Slash"); ("Pipe", "Backslash"); ("Colon", "Semicolon"); ("DoubleQuote", "Quote");
   ("LeftAngleBracket", "Comma"); ("RightAngleBracket", "Dot")]%string.
(** ncl/smart_keys/keyboard/key-extensions.ncl 142-196 [literals]. *)
Definition literals : list (string * string) :=
  [("1", "N1"); ("2", "N2"); ("3", "N3"); ("4", "N4"); ("5", "N5"); ("6", "N6"); ("7", "N7"); ("8", "N8"); ("9", "N9"); ("0", "N0");
   ("!", "Exclaim"); ("@", "At"); ("#", "Hash"); ("$", "Dollar"); ("%", "Percent"); ("^", "Caret"); ("&", "Ampersand"); ("*", "Asterisk");
   ("(", "LeftParen"); (")", "RightParen"); ("[", "LeftBracket"); ("{", "LeftCurlyBracket"); ("]", "RightBracket"); ("}", "RightCurlyBracket");
   ("`", "Grave"); ("~", "Tilde"); ("-", "Minus"); ("_", "Underscore"); ("=", "Equals"); ("+", "Plus"); ("/", "Slash"); ("?", "Question");
   ("\", "Backslash"); ("|", "Pipe"); (";", "Semicolon"); (":", "Colon"); ("'", "Quote"); ("""", "DoubleQuote"); (",", "Comma");
   ("<", "LeftAngleBracket"); (".", "Dot"); (">", "RightAngleBracket"); (" ", "Space")]%string.

(** ncl/keys.ncl: the record of all keys, by name. *)
Definition usage_named (name : string) : option lib_key :=
  option_map (fun p => usage_key (snd p)) (find (fun p => String.eqb name (fst p)) usages).
Definition shifted_named (name : string) : option lib_key :=
  match find (fun p => String.eqb name (fst p)) shifted with
  | Some (_, base) =>
      match usage_named base, usage_named "LeftShift" with Some a, Some b => merge_keys a b | _, _ => None end
  | None => None
  end.
Definition either {A} (a b : option A) : option A := match a with Some _ => a | None => b end.
Definition key_named (name : string) : option lib_key :=
  either (either (usage_named name) (shifted_named name))
         (match find (fun p => String.eqb name (fst p)) literals with
          | Some (_, other) => either (usage_named other) (shifted_named other)
          | None => None
          end).
Definition is_capital (c : ascii) : bool := let n := N_of_ascii c in (65 <=? n) && (n <=? 90).
Definition is_small (c : ascii) : bool := let n := N_of_ascii c in (97 <=? n) && (n <=? 122).
(** [std.string.uppercase] of one character. *)
Definition upper (c : ascii) : ascii := if is_small c then ascii_of_N (N_of_ascii c - 32) else c.

(** ncl/smart_keys/automation/lib.ncl 2-33 [string_to_instructions]; [None]: the
    evaluation of the keymap.ncl fails.  The sum of the bits of the modifiers is written
    as the byte of the modifiers. *)
Definition char_output (c : ascii) : option key_output :=
  match key_named (String (upper c) EmptyString) with
  | Some k =>
      match lb_code k with
      | Some kc => Some (mkKO (Keyboard kc) (if is_capital c then N.lor (lb_mods k) LEFT_SHIFT_U8 else lb_mods k))
      | None => None
      end
  | None => None
  end.
Fixpoint string_outputs (s : list ascii) : option (list key_output) :=
  match s with
  | [] => Some []
  | c :: t =>
      match char_output c, string_outputs t with Some ko, Some l => Some (ko :: l) | _, _ => None end
  end.
Definition string_to_instructions (s : list ascii) : option (list instruction) :=
  option_map (map InTap) (string_outputs s).
