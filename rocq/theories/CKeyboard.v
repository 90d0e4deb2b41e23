(** The keyboard with the CH32X C firmware: the switch matrix, the keymap and the USB
    device together.  Models, in /repo/firmware/ch32x035-usb-device-compositekm-c,
    app/usbd_composite_km.c 107-138 and 147-151, keyboard/keyboard.c 20-32 and
    app/main.c 59-125; the parts are those of CFirmware.v and CReport.v.  Not
    modelled: LEDs, the split keyboard's other half (C55, C56), sleep and wake-up. *)
From Verif Require Import Base Output Types Split Scheduler Keymap CApi CFirmware CReport.
Local Open Scope N_scope.

Section Keyboard.
Context {R Ctx Ev PKS KS : Type}.
Variable conf : kconf R Ctx Ev PKS KS.
Variable fuel : nat.
(** The matrix ([rows], [cols] and [idx], the table [keymap_indices], as in
    CFirmware.v), the number of keys and the function [keyboard_reset_to_bootloader]. *)
Variables rows cols keys : nat.
Variable idx : nat -> nat -> option nat.
Variable bootloader : callback_fn.
Local Notation km := (keymap R Ctx Ev PKS KS).

Record fw := mkFw { fw_matrix : kb_matrix; fw_loop : @rloop R Ctx Ev PKS KS }.

(** main.c 59, usbd_composite_km.c 147-151 [KB_Scan_Init], keyboard.c 25-32: the
    matrix is initialised; if the first switch is closed the device goes to its
    bootloader ([None]); else the callback is registered and the keymap initialised. *)
Definition fw_start (closed : nat -> nat -> bool) (k : km) : res (option fw) :=
  if snd (keyboard_init rows closed) then Ok None
  else
    let! k1 := keymap_register_callback k 1 bootloader in
    Ok (Some (mkFw (kb_start rows keys closed) (rl_new (keymap_init k1)))).

(** What happens: a timer interrupt, with the switches as they are then; a step of the
    main loop; the host polls an endpoint; the device is enumerated; the bus is
    reset. *)
Inductive fw_step := FwTimer (closed : nat -> nat -> bool) | FwMain | FwHost (c : chan) | FwEnumerate | FwReset.
Definition fw_do (s : fw) (a : fw_step) : res fw :=
  match a with
  | FwTimer closed =>
      let! (m, evs) := kb_scan rows cols idx closed (fw_matrix s) in
      let! l := rl_timer conf fuel evs (fw_loop s) in
      Ok (mkFw m l)
  | FwMain => Ok (mkFw (fw_matrix s) (rl_main (fw_loop s)))
  | FwHost c => Ok (mkFw (fw_matrix s) (rl_host c (fw_loop s)))
  | FwEnumerate => Ok (mkFw (fw_matrix s) (rl_enumerate (fw_loop s)))
  | FwReset => Ok (mkFw (fw_matrix s) (rl_reset (fw_loop s)))
  end.
Definition fw_run (l : list fw_step) (s : fw) : res fw := fold_res fw_do l s.
End Keyboard.
