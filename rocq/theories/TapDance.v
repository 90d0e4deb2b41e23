(** Tap-dance keys.  Models /repo/src/key/tap_dance.rs. *)
From Verif Require Import Base Output Types.
Local Open Scope N_scope.

(** tap_dance.rs 20-40 [Config]. *)
Record tapdance_config := mkTDConfig { tdc_timeout : u16 }.
Definition tapdance_config_default := mkTDConfig 200.

(** tap_dance.rs 45-57 [Key]: an array of optional definitions. *)
Definition tapdance_key (R : Type) := list (option R).

(** tap_dance.rs 84-93 [from_definitions] for an array of length [n]. *)
Fixpoint td_from_definitions {R} (n : nat) (defs : list R) : tapdance_key R :=
  match n with
  | O => []
  | S n' => match defs with
            | [] => None :: td_from_definitions n' []
            | d :: t => Some d :: td_from_definitions n' t
            end
  end.

(** tap_dance.rs 97-107 [Context]. *)
Record tapdance_ctx := mkTDCtx { tdx_config : tapdance_config }.
Definition td_ctx_new (c : tapdance_config) : tapdance_ctx := mkTDCtx c.

(** tap_dance.rs 113-116 [Event], 119-129 [PendingKeyState]. *)
Inductive td_event := NextPressTimeout (n : u8).
Record td_pks := mkTDPks { tdp_count : u8 }.
Definition td_pks_new : td_pks := mkTDPks 0.

(** tap_dance.rs 132-169 [handle_event]; the count is a [u8]. *)
Definition td_handle_event (p : td_pks) (c : tapdance_ctx) (ki : u16) (ev : event td_event)
  : res (td_pks * option u8 * key_events td_event) :=
  match ev with
  | EvKey k (NextPressTimeout n) =>
      if (k =? ki) && (n =? tdp_count p) then Ok (p, Some (tdp_count p), [])
      else Ok (p, None, [])
  | EvInput (Press k) =>
      if k =? ki then
        if tdp_count p <? 255 then
          let p' := mkTDPks (tdp_count p + 1) in
          Ok (p', None, [after (tdc_timeout (tdx_config c)) (EvKey ki (NextPressTimeout (tdp_count p')))])
        else Panic
      else Ok (p, None, [])
  | _ => Ok (p, None, [])
  end.

(** tap_dance.rs 210-233 [new_pressed_key]. *)
Definition td_new_pressed_key {R KS} (ki : u16) (c : tapdance_ctx)
  : pressed_key_result R td_pks KS * key_events td_event :=
  (PkPending td_pks_new, [after (tdc_timeout (tdx_config c)) (EvKey ki (NextPressTimeout 0))]).

(** tap_dance.rs 253: [definitions.iter().filter(|o| o.is_some()).count()]. *)
Definition td_count {R} (k : tapdance_key R) : nat :=
  length (filter (fun o => match o with Some _ => true | None => false end) k).

(** [definitions[idx].unwrap()] *)
Definition td_definition {R} (k : tapdance_key R) (i : nat) : res R :=
  let! o := index k i in unwrap o.

(** tap_dance.rs 235-268 [update_pending_state]; [definition_count - 1]
    underflows when no definition is set. *)
Definition td_update_pending {R} (keys : list (tapdance_key R)) (p : td_pks) (ki : u16)
    (c : tapdance_ctx) (i : u8) (ev : event td_event)
  : res (td_pks * option (new_pressed_key R) * key_events td_event) :=
  let! k := index keys (N.to_nat i) in
  let! (p', r, kes) := td_handle_event p c ki ev in
  match r with
  | Some idx => let! d := td_definition k (N.to_nat idx) in Ok (p', Some (NpkKey d), kes)
  | None =>
      match td_count k with
      | O => Panic
      | S n =>
          if (n <=? N.to_nat (tdp_count p'))%nat
          then let! d := td_definition k n in Ok (p', Some (NpkKey d), kes)
          else Ok (p', None, kes)
      end
  end.
