(** Sticky modifier keys.  Models /repo/src/key/sticky.rs. *)
From Verif Require Import Base Output Types.
Local Open Scope N_scope.

(** sticky.rs 16: [MAX_STICKY_MODIFIERS]. *)
Definition MAX_STICKY_MODIFIERS : nat := 4.

(** sticky.rs 40-80: the activation has one variant ([OnStickyKeyRelease]) and
    is not represented; [StickyKeyRelease]. *)
Inductive sticky_release := OnModifiedKeyRelease | OnNextKeyPress.
Record sticky_config := mkStConfig { stc_release : sticky_release }.
Definition sticky_config_default := mkStConfig OnModifiedKeyRelease.

(** sticky.rs 104-142 [Context].  [stx_active] is the prefix
    [active_modifiers[..active_modifier_count]]; array entries beyond the count
    are never read, so they are not represented. *)
Record sticky_ctx := mkStCtx {
  stx_config : sticky_config;
  stx_active : list modifiers;
  stx_pressed : option u16
}.
Definition st_ctx_new (c : sticky_config) : sticky_ctx := mkStCtx c [] None.

(** sticky.rs 295-300 [Event]. *)
Inductive st_event := ActivateModifiers (m : modifiers).

(** sticky.rs 225-237 and 253-265: one virtual key release per active modifier. *)
Definition st_release_events {E} (l : list modifiers) : key_events E :=
  map (fun m => immediate (EvInput (VirtualKeyRelease (ko_from_key_modifiers m)))) l.

(** sticky.rs 145-279 [handle_event].  The events are added one by one to a
    buffer of capacity 4. *)
Definition st_handle_event (c : sticky_ctx) (ev : event st_event)
  : res (sticky_ctx * key_events st_event) :=
  let release :=
    let! kes := ke_extend [] (st_release_events (stx_active c)) in
    Ok (mkStCtx (stx_config c) [] None, kes) in
  match ev with
  | EvKey _ (ActivateModifiers m) =>
      if (length (stx_active c) <? MAX_STICKY_MODIFIERS)%nat
      then Ok (mkStCtx (stx_config c) (stx_active c ++ [m]) (stx_pressed c), [])
      else Ok (c, [])
  | EvKeymap (KmResolvedKeyOutput i _) =>
      match stx_active c with
      | [] => Ok (c, [])
      | _ => Ok (mkStCtx (stx_config c) (stx_active c) (Some i), [])
      end
  | EvInput (Release i) =>
      match stx_active c with
      | [] => Ok (c, [])
      | _ => if opt_eqb N.eqb (Some i) (stx_pressed c) then release else Ok (c, [])
      end
  | EvInput (Press _) =>
      match stx_pressed c, stc_release (stx_config c) with
      | Some _, OnNextKeyPress => release
      | _, _ => Ok (c, [])
      end
  | _ => Ok (c, [])
  end.

(** sticky.rs 84-95 [Key], 315-340 [Behavior], [KeyState]. *)
Record sticky_key := mkStickyKey { sk_mods : modifiers }.
Inductive behavior := BhSticky | BhRegular.
Definition st_ks_new : behavior := BhSticky.

(** sticky.rs 353-398 [update_state]. *)
Definition st_update_state (b : behavior) (k : sticky_key) (ki : u16) (ev : event st_event)
  : behavior * key_events st_event :=
  match b with
  | BhRegular => (b, [])
  | BhSticky =>
      match ev with
      | EvKeymap (KmResolvedKeyOutput _ _) => (BhRegular, [])
      | EvInput (Release i) =>
          if i =? ki
          then (b, [immediate (EvKey ki (ActivateModifiers (sk_mods k)));
                    immediate (EvInput (VirtualKeyPress (ko_from_key_modifiers (sk_mods k))))])
          else (b, [])
      | _ => (b, [])
      end
  end.

(** sticky.rs 401-406 [key_output]. *)
Definition st_key_output (b : behavior) (k : sticky_key) : option key_output :=
  match b with
  | BhSticky => None
  | BhRegular => Some (ko_from_key_modifiers (sk_mods k))
  end.
