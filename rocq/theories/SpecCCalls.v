(** What a program of C calls is meant to do, in terms of the Rust interface. *)
From Verif Require Import Base Output Types Scheduler Keymap SpecOutput SpecKeymap CApi CCalls.
Local Open Scope N_scope.

(** The event that a C event stands for. *)
Definition meant (e : c_event) : input_event :=
  match e with
  | mkCEvent CPress i => Press i
  | mkCEvent CRelease i => Release i
  | mkCEvent CVirtualPress code => VirtualKeyPress (ko_from_key_code (code mod 256))
  | mkCEvent CVirtualRelease code => VirtualKeyRelease (ko_from_key_code (code mod 256))
  end.
(** The Bluetooth commands: lib.rs 187-210. *)
Definition bt_commands : list (c_bt_command * bt_command) :=
  [(CBtDisconnect, BtDisconnect); (CBtClear, BtClear); (CBtClearAll, BtClearAll); (CBtPrevious, BtPrevious); (CBtNext, BtNext);
   (CBtSelect0, BtSelect 0); (CBtSelect1, BtSelect 1); (CBtSelect2, BtSelect 2); (CBtSelect3, BtSelect 3);
   (CBtSelect4, BtSelect 4); (CBtSelect5, BtSelect 5)].

(** The calls of the Rust interface that a C call stands for.  A C call that fills
    in a report reports at its end. *)
Inductive stands_for : capi_call -> list op -> Prop :=
| sf_init : stands_for CcInit [OpInit]
| sf_ms ms : stands_for (CcSetMs ms) [OpSetMs ms]
| sf_event e : stands_for (CcEvent e) [OpInput (meant e)]
| sf_press i : stands_for (CcPress i) [OpInput (Press i)]
| sf_release i : stands_for (CcRelease i) [OpInput (Release i)]
| sf_tick : stands_for CcTick [OpTick; OpReport]
| sf_after delta e : stands_for (CcAfter delta e) [OpInputAfter delta (meant e); OpReport]
| sf_timeout : stands_for CcTimeout [OpTickToNext; OpReport]
| sf_polling : stands_for CcPolling []
| sf_reset f : stands_for (CcCallback 0 f) [OpSetCallback CbReset f]
| sf_bootloader f : stands_for (CcCallback 1 f) [OpSetCallback CbResetToBootloader f]
| sf_unknown id f : 2 <= id -> stands_for (CcCallback id f) []
| sf_custom a b f : stands_for (CcCustom a b f) [OpSetCallback (CbCustom a b) f]
| sf_bluetooth c b f : In (c, b) bt_commands -> stands_for (CcBluetooth c f) [OpSetCallback (CbBluetooth b) f].
Inductive stand_for : list capi_call -> list op -> Prop :=
| sfs_nil : stand_for [] []
| sfs_cons c o cs os : stands_for c o -> stand_for cs os -> stand_for (c :: cs) (o ++ os).

(** The report that says that the outputs [kos] are pressed: the boot keyboard
    report, the mouse, the first six custom codes and the first four consumer
    codes, filled up with zeros. *)
Definition shows (kos : list key_output) (r : c_report) : Prop :=
  cr_keyboard r = as_hid_boot_keyboard_report kos
  /\ cr_mouse r = pressed_mouse_output kos
  /\ length (cr_custom r) = 6%nat /\ length (cr_consumer r) = 4%nat
  /\ (forall j, (j < 6)%nat -> nth_error (cr_custom r) j = Some (nth j (custom_codes kos) 0))
  /\ (forall j, (j < 4)%nat -> nth_error (cr_consumer r) j = Some (nth j (consumer_codes kos) 0)).
(** The number that says when to call again: 0 for never. *)
Definition says_when (next : option u32) (t : u32) : Prop :=
  match next with Some n => t = n | None => t = 0 end.

Section Answers.
Context {R Ctx Ev PKS KS : Type}.
Variable conf : kconf R Ctx Ev PKS KS.

(** What a call hands back in a state of the keymap. *)
Inductive hands_back (fuel : nat) (k : keymap R Ctx Ev PKS KS) : capi_call -> c_answer -> Prop :=
| hb_tick k1 k2 kos r : km_tick conf fuel k = Ok k1 -> km_report_output conf k1 = Ok (k2, kos) -> shows kos r ->
    hands_back fuel k CcTick (AnReport r)
| hb_after delta e k1 next k2 kos r t : km_handle_input_after_time conf fuel delta (meant e) k = Ok (k1, next) ->
    km_report_output conf k1 = Ok (k2, kos) -> shows kos r -> says_when next t ->
    hands_back fuel k (CcAfter delta e) (AnTimed r t)
| hb_timeout k1 next k2 kos r t : km_tick_to_next conf fuel k = Ok (k1, next) ->
    km_report_output conf k1 = Ok (k2, kos) -> shows kos r -> says_when next t ->
    hands_back fuel k CcTimeout (AnTimed r t)
| hb_polling : hands_back fuel k CcPolling (AnFlag (km_requires_polling k))
| hb_nothing c : c <> CcTick -> c <> CcTimeout -> c <> CcPolling -> (forall delta e, c <> CcAfter delta e) ->
    hands_back fuel k c AnNothing.
End Answers.

(** The calls that return a number. *)
Definition timed_call (c : capi_call) : bool := match c with CcAfter _ _ | CcTimeout => true | _ => false end.
(** The calls of a firmware that ticks at a fixed rate. *)
Definition polled_call (c : capi_call) : bool :=
  match c with CcSetMs _ | CcEvent _ | CcPress _ | CcRelease _ | CcTick | CcPolling => true | _ => false end.
