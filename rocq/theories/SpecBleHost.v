(** Specification vocabulary for the Bluetooth keyboard from the switches to the host
    (C83). *)
From Verif Require Import Base Output SimpleKeys Types Split Scheduler Keymap SpecKeymap SpecOutput CApi CReport SpecCCalls CBle SpecCBle CBleMap SpecHid.
Local Open Scope N_scope.

Section Spec.
Context {R Ctx Ev PKS KS : Type}.
Local Notation ble := (@ble R Ctx Ev PKS KS).

(** How often the firmware has ticked the keymap. *)
Definition ble_ticks (s : ble) : nat := length (filter (fun c => match c with BcTick => true | _ => false end) (bl_calls s)).
(** From the state [s2] to [s] the scans find the switches as the last scan up to [s2]
    found them. *)
Definition keys_still (keys : nat) (s2 s : ble) : Prop :=
  exists n, bl_scans s = bl_scans s2 ++ repeat (last (bl_scans s2) (repeat false keys)) n.
(** The host, going by the report map, sees what the keymap puts out: the keys, if
    their codes are bytes, the mouse, and a consumer key, if there are not two. *)
Definition ble_host_sees (kos : list key_output) (c : chan) (s : ble) : Prop :=
  match c with
  | ChKb => bytes (key_slots kos) -> forall page u,
      down (host_sees hidReportMap HID_RPT_ID_KEY_IN (host_has ChKb s)) page u <-> page = KEYBOARD /\ key_shown 101 kos u
  | ChCon => bytes (consumer_codes kos) -> (length (consumer_codes kos) <= 1)%nat -> forall page u,
      down (host_sees hidReportMap HID_RPT_ID_CONSUMER_IN (host_has ChCon s)) page u <-> page = CONSUMER /\ u <> 0 /\ In u (consumer_codes kos)
  | ChMouse => let m := pressed_mouse_output kos in forall page u v,
      In (page, u, v) (host_sees hidReportMap HID_RPT_ID_MOUSE_IN (host_has ChMouse s)) <->
      (page = BUTTON /\ 1 <= u <= 3 /\ v = if N.testbit (mo_buttons m) (u - 1) then 1%Z else 0%Z)
      \/ (page = DESKTOP /\ ((u = AXIS_X /\ v = mo_x m) \/ (u = AXIS_Y /\ v = mo_y m) \/ (u = WHEEL /\ v = mo_vscroll m)) /\ v <> (-128)%Z)
      \/ (page = CONSUMER /\ u = PAN /\ v = mo_hscroll m /\ v <> (-128)%Z)
  end.
End Spec.

(** The inputs, ticks and reports that calls of the firmware come to: an input after some
    time comes after some ticks, and the next timeout is some ticks away. *)
Inductive comes_from : list ble_call -> list op -> Prop :=
| cf_nil : comes_from [] []
| cf_after d e m l ops : comes_from l ops -> comes_from (BcAfter d e :: l) (repeat OpTick m ++ OpInput (meant e) :: OpReport :: ops)
| cf_event e l ops : comes_from l ops -> comes_from (BcEvent e :: l) (OpInput (meant e) :: ops)
| cf_next m l ops : comes_from l ops -> comes_from (BcNext :: l) (repeat OpTick m ++ OpReport :: ops)
| cf_tick l ops : comes_from l ops -> comes_from (BcTick :: l) (OpTick :: OpReport :: ops).
