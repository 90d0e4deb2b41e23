(** Tap-hold keys.  Models /repo/src/key/tap_hold.rs. *)
From Verif Require Import Base Output Types.
Local Open Scope N_scope.

(** tap_hold.rs 20-30 [Key]. *)
Record taphold_key (R : Type) := mkTapHold { th_tap : R; th_hold : R }.
Arguments mkTapHold {R}. Arguments th_tap {R}. Arguments th_hold {R}.

(** tap_hold.rs 42-52 [InterruptResponse]. *)
Inductive interrupt_response := IrIgnore | IrHoldOnKeyPress | IrHoldOnKeyTap.

(** tap_hold.rs 55-90 [Config]. *)
Record taphold_config := mkTHConfig {
  thc_timeout : u16;
  thc_interrupt : interrupt_response;
  thc_required_idle : option u16
}.
(** tap_hold.rs [Config::new]: 200 ms, ignore interrupts, no required idle time. *)
Definition taphold_config_default := mkTHConfig 200 IrIgnore None.

(** tap_hold.rs 105-130 [Context], [from_config], [update_keymap_context]. *)
Record taphold_ctx := mkTHCtx { thx_config : taphold_config; thx_idle : u32 }.
Definition th_ctx_new (c : taphold_config) : taphold_ctx := mkTHCtx c 0.
Definition th_update_keymap_context (c : taphold_ctx) (idle : u32) : taphold_ctx :=
  mkTHCtx (thx_config c) idle.

(** tap_hold.rs 133-136 [TapHoldState], 140-143 [Event], 147-152 [PendingKeyState]. *)
Inductive th_state := ThTap | ThHold.
Inductive th_event := TapHoldTimeout.
Record th_pks := mkTHPks { thp_other : option u16 }.
Definition th_pks_new : th_pks := mkTHPks None.

(** tap_hold.rs 165-240 [hold_resolution]. *)
Definition hold_resolution (p : th_pks) (ir : interrupt_response) (ki : u16) (ev : event th_event)
  : option th_state :=
  match ir with
  | IrHoldOnKeyPress =>
      match ev with
      | EvInput (Press _) => Some ThHold
      | EvInput (Release k) => if ki =? k then Some ThTap else None
      | EvKey _ TapHoldTimeout => Some ThHold
      | _ => None
      end
  | IrHoldOnKeyTap =>
      match ev with
      | EvInput (Release k) =>
          if ki =? k then Some ThTap
          else if opt_eqb N.eqb (Some k) (thp_other p) then Some ThHold
          else None
      | EvKey _ TapHoldTimeout => Some ThHold
      | _ => None
      end
  | IrIgnore =>
      match ev with
      | EvInput (Release k) => if ki =? k then Some ThTap else None
      | EvKey _ TapHoldTimeout => Some ThHold
      | _ => None
      end
  end.

(** tap_hold.rs 243-258 [handle_event]. *)
Definition th_handle_event (p : th_pks) (c : taphold_ctx) (ki : u16) (ev : event th_event)
  : th_pks * option th_state :=
  let p' := match ev with EvInput (Press k) => mkTHPks (Some k) | _ => p end in
  (p', hold_resolution p' (thc_interrupt (thx_config c)) ki ev).

(** tap_hold.rs 277-290 [new_pending_key]. *)
Definition th_new_pending {R KS} (c : taphold_ctx) (ki : u16)
  : pressed_key_result R th_pks KS * key_events th_event :=
  (PkPending th_pks_new,
   [after (thc_timeout (thx_config c)) (EvKey ki TapHoldTimeout)]).

(** tap_hold.rs 302-339 [new_pressed_key]. *)
Definition th_new_pressed_key {R KS} (keys : list (taphold_key R)) (ki : u16) (c : taphold_ctx) (i : u8)
  : res (pressed_key_result R th_pks KS * key_events th_event) :=
  match thc_required_idle (thx_config c) with
  | Some r =>
      if r <=? thx_idle c then Ok (th_new_pending c ki)
      else let! k := index keys (N.to_nat i) in Ok (PkNewPressedKey (NpkKey (th_tap k)), [])
  | None => Ok (th_new_pending c ki)
  end.

(** tap_hold.rs 341-364 [update_pending_state]. *)
Definition th_update_pending {R} (keys : list (taphold_key R)) (p : th_pks) (ki : u16)
    (c : taphold_ctx) (i : u8) (ev : event th_event)
  : res (th_pks * option (new_pressed_key R) * key_events th_event) :=
  let '(p', st) := th_handle_event p c ki ev in
  match st with
  | Some s =>
      let! k := index keys (N.to_nat i) in
      Ok (p', Some (NpkKey (match s with ThTap => th_tap k | ThHold => th_hold k end)), [])
  | None => Ok (p', None, [])
  end.
