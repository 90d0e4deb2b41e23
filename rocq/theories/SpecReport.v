(** Specification vocabulary for what a keymap can report (C45, C46). *)
From Verif Require Import Base Output Types Scheduler Keymap SimpleKeys TapHold TapDance Sticky Layered Automation Chorded Composite SpecKeymap.
Local Open Scope N_scope.

(** *** Which key a key can act as
    Tap-hold, tap-dance, layered and chorded keys stand for other keys; those may
    again be such keys. *)
Inductive acts_as (d : key_data) : ref -> ref -> Prop :=
| AaSelf r : acts_as d r r
| AaTap i k r : nth_error (kd_tap_hold d) (N.to_nat i) = Some k -> acts_as d (th_tap k) r -> acts_as d (RTapHold i) r
| AaHold i k r : nth_error (kd_tap_hold d) (N.to_nat i) = Some k -> acts_as d (th_hold k) r -> acts_as d (RTapHold i) r
| AaDance i k r1 r :
    nth_error (kd_tap_dance d) (N.to_nat i) = Some k -> In (Some r1) k -> acts_as d r1 r -> acts_as d (RTapDance i) r
| AaBase i k r :
    nth_error (kd_layered d) (N.to_nat i) = Some k -> acts_as d (lk_base k) r -> acts_as d (RLayered (LyLayered i)) r
| AaLayer i k r1 r :
    nth_error (kd_layered d) (N.to_nat i) = Some k -> In (Some r1) (lk_layered k) -> acts_as d r1 r ->
    acts_as d (RLayered (LyLayered i)) r
| AaChord i k id r1 r :
    nth_error (kd_chorded d) (N.to_nat i) = Some k -> In (id, r1) (chk_chords k) -> acts_as d r1 r ->
    acts_as d (RChorded (ChChorded i)) r
| AaPass i k r :
    nth_error (kd_chorded d) (N.to_nat i) = Some k -> acts_as d (chk_pass k) r -> acts_as d (RChorded (ChChorded i)) r
| AaAux i k r :
    nth_error (kd_chorded_aux d) (N.to_nat i) = Some k -> acts_as d (cha_pass k) r ->
    acts_as d (RChorded (ChAuxiliary i)) r.
(** Some key of the keymap can act as [r]. *)
Definition offers (refs : list ref) (d : key_data) (r : ref) : Prop := exists r0, In r0 refs /\ acts_as d r0 r.

(** *** What a key reports while it is pressed *)
(** Key codes [0xE0] to [0xE7] are the modifiers, in the order of the bits. *)
Definition code_output (c : u8) (m : modifiers) : key_output :=
  if (0xE0 <=? c) && (c <=? 0xE7) then mkKO (Keyboard 0) (N.lor (2 ^ (c - 0xE0)) m) else mkKO (Keyboard c) m.
Definition mods_output (m : modifiers) : key_output := mkKO (Keyboard 0) m.
Definition mouse_effect (r : mouse_ref) : mouse_output :=
  match r with
  | MsButton b => mkMouse (2 ^ (b - 1)) 0 0 0 0
  | MsCursorUp => mkMouse 0 0 (-5) 0 0
  | MsCursorDown => mkMouse 0 0 5 0 0
  | MsCursorLeft => mkMouse 0 (-5) 0 0 0
  | MsCursorRight => mkMouse 0 5 0 0 0
  | MsWheelUp => mkMouse 0 0 0 1 0
  | MsWheelDown => mkMouse 0 0 0 (-1) 0
  | MsWheelLeft => mkMouse 0 0 0 0 (-1)
  | MsWheelRight => mkMouse 0 0 0 0 1
  end.
(** The outputs of a pressed key [r].  A sticky key reports its modifiers or, while
    it has not been used with another key, nothing.  Layer, macro, callback and caps
    word keys report nothing, nor do the further keys of a chord. *)
Definition own_outputs (d : key_data) (r : ref) (l : list key_output) : Prop :=
  match r with
  | RKeyboard (KbKeyCode c) => l = [code_output c 0]
  | RKeyboard (KbModifiers m) => l = [mods_output m]
  | RKeyboard (KbKeyCodeAndModifier i) =>
      exists k, nth_error (kd_keyboard d) (N.to_nat i) = Some k /\ l = [code_output (kk_code k) (kk_mods k)]
  | RConsumer (CnUsageCode c) => l = [mkKO (Consumer c) 0]
  | RCustom (CsCode c) => l = [mkKO (Custom c) 0]
  | RMouse m => l = [mkKO (Mouse (mouse_effect m)) 0]
  | RSticky i =>
      exists k, nth_error (kd_sticky d) (N.to_nat i) = Some k /\ (l = [] \/ l = [mods_output (sk_mods k)])
  | RAutomation _ | RCallback _ | RCapsWord | RLayered (LyModifier _) | RChorded _ => l = []
  | RTapHold _ | RTapDance _ | RLayered (LyLayered _) => False
  end.
(** The outputs of one pressed input: a virtual key, or the key at index [i] of the
    keymap acting as one of the keys configured there. *)
Definition reported (refs : list ref) (d : key_data) (x : u16 * ref + key_output) (l : list key_output) : Prop :=
  match x with
  | inr ko => l = [ko]
  | inl (i, r) =>
      exists r0, nth_error refs (N.to_nat i) = Some r0 /\ acts_as d r0 r /\ own_outputs d r l
  end.

(** *** Where virtual keys come from *)
(** One of the instructions of a macro. *)
Definition in_macro (code : list instruction) (e : execution) (x : instruction) : Prop :=
  exists n, ex_start e <= n /\ n < ex_start e + ex_length e /\ nth_error code (N.to_nat n) = Some x.
Definition macro_of (k : automation_key) (e : execution) : Prop :=
  e = ak_on_press k \/ e = ak_while_pressed k \/ e = ak_on_release k.
Inductive typed_by (refs : list ref) (d : key_data) (code : list instruction) (ops : list op) : key_output -> Prop :=
| TbCaller ko : In (OpInput (VirtualKeyPress ko)) ops -> typed_by refs d code ops ko
| TbCallerAfter t ko : In (OpInputAfter t (VirtualKeyPress ko)) ops -> typed_by refs d code ops ko
| TbCapsWord : offers refs d RCapsWord -> typed_by refs d code ops (mods_output 2)
| TbSticky i k :
    offers refs d (RSticky i) -> nth_error (kd_sticky d) (N.to_nat i) = Some k ->
    typed_by refs d code ops (mods_output (sk_mods k))
| TbMacro i k e ko :
    offers refs d (RAutomation i) -> nth_error (kd_automation d) (N.to_nat i) = Some k -> macro_of k e ->
    in_macro code e (InPress ko) \/ in_macro code e (InTap ko) -> typed_by refs d code ops ko.
(** Everything a keymap can type. *)
Definition configured (refs : list ref) (d : key_data) (code : list instruction) (ops : list op) (ko : key_output) : Prop :=
  typed_by refs d code ops ko \/ exists r l, offers refs d r /\ own_outputs d r l /\ In ko l.
