(** Specification vocabulary for keymaps that are left alone (C82). *)
From Verif Require Import Base Output Types Split Scheduler Keymap SpecKeymap CApi CFirmware SpecCFirmware CReport SpecCReport CCalls SpecCCalls CKeyboard SpecCKeyboard SpecLayer.
Local Open Scope N_scope.

Section Spec.
Context {R Ctx Ev PKS KS : Type}.
Variable conf : kconf R Ctx Ev PKS KS.
Variable fuel : nat.
Local Notation km := (keymap R Ctx Ev PKS KS).
Local Notation fw := (@fw R Ctx Ev PKS KS).

(** Without further inputs, from [quiet] ticks on the keymap puts out [kos]. *)
Definition comes_to (quiet : nat) (k : km) (kos : list key_output) : Prop :=
  forall n k', (quiet <= n)%nat -> run_ops conf fuel (repeat OpTick n) k = Ok k' -> km_pressed_keys conf k' = Ok kos.
(** Without further inputs, after [quiet] ticks the keymap has nothing left to do. *)
Definition comes_to_rest (quiet : nat) (k : km) : Prop :=
  forall k', run_ops conf fuel (repeat OpTick quiet) k = Ok k' -> km_has_scheduled_events k' = false.

(** The firmware starts with the keymap of the context [ctx], and runs with its
    interrupts at harmless moments.  Its scans find any switches closed up to some time;
    from then on those of [closed], in at least six scans up to the state [s2] and in all
    the scans from there to the state [s].  [scans] are all the scans. *)
Definition held_still (rows cols keys : nat) (idx : nat -> nat -> option nat) (bootloader : callback_fn) (ctx : Ctx)
    (closed : nat -> nat -> bool) (scans : list (nat -> nat -> bool)) (s2 s : fw) : Prop :=
  exists closed0 l1 l2 l3 s0, fw_start rows keys bootloader closed0 (km_new ctx) = Ok (Some s0)
  /\ fw_run conf fuel rows cols idx (l1 ++ l2) s0 = Ok s2 /\ fw_run conf fuel rows cols idx l3 s2 = Ok s
  /\ fw_all_calm conf fuel rows cols idx (l1 ++ l2 ++ l3) s0
  /\ steady rows cols closed l2 /\ (6 <= length (switches l2))%nat /\ steady rows cols closed l3
  /\ scans = switches (l1 ++ l2 ++ l3).

(** The keymap as the firmware starts it. *)
Definition fw_first (bootloader : callback_fn) (ctx : Ctx) (k0 : km) : Prop :=
  run_ops conf fuel [OpSetCallback CbResetToBootloader bootloader; OpInit] (km_new ctx) = Ok k0.
End Spec.
(** The calls of the bootloader among the callbacks. *)
Definition bootloader_calls (bootloader : callback_fn) (cs : list callback) : list callback_fn :=
  filter_map (fun cb => if callback_eqb cb CbResetToBootloader then Some bootloader else None) cs.
