(** Programs that call the C interface.  The functions are those of CApi.v; what
    is added here is only the sequence of calls, each with what it hands back
    through its return value and its out-parameter
    (/repo/smart_keymap/src/lib.rs 255-438). *)
From Verif Require Import Base Output Types Keymap CApi.
Local Open Scope N_scope.

Inductive capi_call :=
| CcInit                                                (* keymap_init *)
| CcSetMs (ms : u8)                                     (* keymap_set_ms_per_tick *)
| CcEvent (e : c_event)                                 (* keymap_register_input_event *)
| CcPress (i : u16)                                     (* keymap_register_input_keypress *)
| CcRelease (i : u16)                                   (* keymap_register_input_keyrelease *)
| CcTick                                                (* keymap_tick *)
| CcAfter (delta : u32) (e : c_event)                   (* keymap_register_input_after_ms *)
| CcTimeout                                             (* keymap_next_event_timeout *)
| CcPolling                                             (* keymap_requires_polling *)
| CcCallback (id : u8) (f : callback_fn)                (* keymap_register_callback *)
| CcCustom (a b : u8) (f : callback_fn)                 (* keymap_register_custom_callback *)
| CcBluetooth (c : c_bt_command) (f : callback_fn).     (* keymap_register_bluetooth_callback *)

Inductive c_answer :=
| AnNothing
| AnReport (r : c_report)               (* the report filled in *)
| AnTimed (r : c_report) (t : u32)      (* the report, and the number returned *)
| AnFlag (b : bool).

Section CCalls.
Context {R Ctx Ev PKS KS : Type}.
Variable conf : kconf R Ctx Ev PKS KS.
Local Notation km := (keymap R Ctx Ev PKS KS).

(** lib.rs 255-438: one call on the global keymap. *)
Definition c_do (fuel : nat) (c : capi_call) (k : km) : res (km * c_answer) :=
  match c with
  | CcInit => Ok (keymap_init k, AnNothing)
  | CcSetMs ms => Ok (keymap_set_ms_per_tick k ms, AnNothing)
  | CcEvent e => let! k' := keymap_register_input_event conf fuel e k in Ok (k', AnNothing)
  | CcPress i => let! k' := keymap_register_input_keypress conf fuel i k in Ok (k', AnNothing)
  | CcRelease i => let! k' := keymap_register_input_keyrelease conf fuel i k in Ok (k', AnNothing)
  | CcTick => let! (k', r) := keymap_tick conf fuel k in Ok (k', AnReport r)
  | CcAfter delta e =>
      let! (kr, t) := keymap_register_input_after_ms conf fuel delta e k in
      let '(k', r) := kr in Ok (k', AnTimed r t)
  | CcTimeout =>
      let! (kr, t) := keymap_next_event_timeout conf fuel k in
      let '(k', r) := kr in Ok (k', AnTimed r t)
  | CcPolling => Ok (k, AnFlag (keymap_requires_polling k))
  | CcCallback id f => let! k' := keymap_register_callback k id f in Ok (k', AnNothing)
  | CcCustom a b f => let! k' := keymap_register_custom_callback k a b f in Ok (k', AnNothing)
  | CcBluetooth c f => let! k' := keymap_register_bluetooth_callback k c f in Ok (k', AnNothing)
  end.

(** A sequence of calls, with all that they hand back. *)
Fixpoint c_run (fuel : nat) (cs : list capi_call) (k : km) : res (km * list c_answer) :=
  match cs with
  | [] => Ok (k, [])
  | c :: t =>
      let! (k1, a) := c_do fuel c k in
      let! (k2, l) := c_run fuel t k1 in
      Ok (k2, a :: l)
  end.
End CCalls.
