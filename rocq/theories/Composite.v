(** The aggregate key system.  Models /repo/src/key/composite.rs. *)
From Verif Require Import Base Output Types Scheduler Reporter Keymap
  SimpleKeys TapHold TapDance Sticky CapsWord Layered Automation Chorded.
Local Open Scope N_scope.

(** composite.rs 158-185 [Ref].  Automation, callback, sticky, tap-dance and
    tap-hold refs wrap an index into the key data. *)
Inductive ref :=
| RAutomation (i : u8)
| RCallback (i : u8)
| RCapsWord
| RChorded (r : chorded_ref)
| RConsumer (r : consumer_ref)
| RCustom (r : custom_ref)
| RKeyboard (r : keyboard_ref)
| RLayered (r : layered_ref)
| RMouse (r : mouse_ref)
| RSticky (i : u8)
| RTapDance (i : u8)
| RTapHold (i : u8).

(** composite.rs 388-420 [Event].  The variants of kinds whose event type is
    never emitted (callback, consumer, custom, keyboard, mouse) are left out. *)
Inductive cev :=
| CeAutomation (e : auto_event)
| CeCapsWord (e : cw_event)
| CeChorded (e : ch_event)
| CeLayered (e : layer_event)
| CeSticky (e : st_event)
| CeTapDance (e : td_event)
| CeTapHold (e : th_event).

(** composite.rs 486-594: the [TryFrom] conversions. *)
Definition as_automation (e : cev) := match e with CeAutomation x => Some x | _ => None end.
Definition as_caps_word (e : cev) := match e with CeCapsWord x => Some x | _ => None end.
Definition as_chorded (e : cev) := match e with CeChorded x => Some x | _ => None end.
Definition as_layered (e : cev) := match e with CeLayered x => Some x | _ => None end.
Definition as_sticky (e : cev) := match e with CeSticky x => Some x | _ => None end.
Definition as_tap_dance (e : cev) := match e with CeTapDance x => Some x | _ => None end.
Definition as_tap_hold (e : cev) := match e with CeTapHold x => Some x | _ => None end.

(** composite.rs 597-700 [PendingKeyState] (only chorded, tap-dance and tap-hold
    keys are ever pending). *)
Inductive cpks :=
| PksChorded (p : ch_pks)
| PksTapDance (p : td_pks)
| PksTapHold (p : th_pks).

(** composite.rs 700-830 [KeyState] (the kinds that reach a resolved state). *)
Inductive cks :=
| KsNoOp
| KsAutomation
| KsConsumer
| KsCustom
| KsKeyboard
| KsLayerModifier (b : behavior)
| KsMouse
| KsSticky (b : behavior).

(** composite.rs 197-222 [Config]. *)
Record config := mkConfig {
  cf_automation : automation_config;
  cf_chorded : chorded_config;
  cf_sticky : sticky_config;
  cf_tap_dance : tapdance_config;
  cf_tap_hold : taphold_config;
  cf_layer_count : nat            (* const LAYERED_LAYER_COUNT *)
}.

(** composite.rs 300-316 [Context]; the contexts without data are left out, and
    so is the copy of [KeymapContext], which no code reads. *)
Record cctx := mkCtx {
  cx_automation : automation_ctx;
  cx_caps_word : capsword_ctx;
  cx_chorded : chorded_ctx;
  cx_layered : layered_ctx;
  cx_sticky : sticky_ctx;
  cx_tap_dance : tapdance_ctx;
  cx_tap_hold : taphold_ctx
}.
(** composite.rs 319-338 [from_config]. *)
Definition ctx_from_config (c : config) : cctx :=
  mkCtx (auto_ctx_new (cf_automation c)) cw_ctx_new (ch_ctx_new (cf_chorded c))
        (ly_ctx_new (cf_layer_count c)) (st_ctx_new (cf_sticky c))
        (td_ctx_new (cf_tap_dance c)) (th_ctx_new (cf_tap_hold c)).

(** The contexts that see an event, composite.rs 347-374: a context that cannot
    map the event is left alone. *)
Definition step_automation (c : automation_ctx) (ev : event cev) : res (automation_ctx * key_events cev) :=
  match try_event as_automation ev with
  | Some e => let! (c', kes) := auto_handle_event c e in Ok (c', ke_map CeAutomation kes)
  | None => Ok (c, [])
  end.
Definition step_caps_word (c : capsword_ctx) (ev : event cev) : capsword_ctx * key_events cev :=
  match try_event as_caps_word ev with
  | Some e => let '(c', kes) := cw_handle_event c e in (c', ke_map CeCapsWord kes)
  | None => (c, [])
  end.
Definition step_chorded (c : chorded_ctx) (ev : event cev) : res chorded_ctx :=
  match try_event as_chorded ev with Some e => ch_handle_event c e | None => Ok c end.
Definition step_layered (c : layered_ctx) (ev : event cev) : res layered_ctx :=
  match try_event as_layered ev with Some e => ly_handle_event c e | None => Ok c end.
Definition step_sticky (c : sticky_ctx) (ev : event cev) : res (sticky_ctx * key_events cev) :=
  match try_event as_sticky ev with
  | Some e => let! (c', kes) := st_handle_event c e in Ok (c', ke_map CeSticky kes)
  | None => Ok (c, [])
  end.

(** composite.rs 347-374 [Context::handle_event]. *)
Definition cctx_handle_event (c : cctx) (ev : event cev) : res (cctx * key_events cev) :=
  let! (a, k1) := step_automation (cx_automation c) ev in
  let! e1 := ke_extend [] k1 in
  let '(w, k2) := step_caps_word (cx_caps_word c) ev in
  let! e2 := ke_extend e1 k2 in
  let! h := step_chorded (cx_chorded c) ev in
  let! l := step_layered (cx_layered c) ev in
  let! (s, k5) := step_sticky (cx_sticky c) ev in
  let! e5 := ke_extend e2 k5 in
  Ok (mkCtx a w h l s (cx_tap_dance c) (cx_tap_hold c), e5).

(** composite.rs 376-383 [set_keymap_context]. *)
Definition cctx_set_keymap_context (c : cctx) (time idle : u32) : cctx :=
  mkCtx (cx_automation c) (cx_caps_word c) (ch_update_keymap_context (cx_chorded c) idle)
        (cx_layered c) (cx_sticky c) (cx_tap_dance c)
        (th_update_keymap_context (cx_tap_hold c) idle).

(** composite.rs 835-945 [Keys], [System]: the key data tables. *)
Record key_data := mkData {
  kd_automation : list automation_key;
  kd_callback : list callback;
  kd_chorded : list (chorded_key ref);
  kd_chorded_aux : list (chorded_aux ref);
  kd_keyboard : list keyboard_key;
  kd_layer_mods : list layer_modifier;
  kd_layered : list (layered_key ref);
  kd_sticky : list sticky_key;
  kd_tap_dance : list (tapdance_key ref);
  kd_tap_hold : list (taphold_key ref)
}.

(** key.rs 153-172 [into_result]: mapping the states of a sub-system. *)
Definition map_pkr {R P K P' K'} (fp : P -> P') (fk : K -> K') (r : pressed_key_result R P K)
  : pressed_key_result R P' K' :=
  match r with
  | PkPending p => PkPending (fp p)
  | PkNewPressedKey n => PkNewPressedKey n
  | PkResolved k => PkResolved (fk k)
  end.

Definition cpkr := pressed_key_result ref cpks cks.

(** composite.rs 1047-1130 [new_pressed_key]. *)
Definition c_new_pressed_key (d : key_data) (ki : u16) (c : cctx) (r : ref)
  : res (cpkr * key_events cev) :=
  match r with
  | RAutomation i =>
      let! (p, kes) := auto_new_pressed_key (PKS := cpks) (kd_automation d) ki i in
      Ok (map_pkr (fun x => x) (fun _ => KsAutomation) p, ke_map CeAutomation kes)
  | RCallback i => callback_new_pressed_key (kd_callback d) i
  | RCapsWord =>
      let '(p, kes) := cw_new_pressed_key (cx_caps_word c) ki in Ok (p, ke_map CeCapsWord kes)
  | RChorded r' =>
      let! (p, kes) := ch_new_pressed_key (KS := cks) (kd_chorded d) (kd_chorded_aux d) ki (cx_chorded c) r' in
      Ok (map_pkr PksChorded (fun x => x) p, ke_map CeChorded kes)
  | RConsumer _ => Ok (PkResolved KsConsumer, [])
  | RCustom _ => Ok (PkResolved KsCustom, [])
  | RKeyboard _ => Ok (PkResolved KsKeyboard, [])
  | RLayered r' =>
      let! (p, kes) := ly_new_pressed_key (PKS := cpks) (kd_layer_mods d) (kd_layered d) ki (cx_layered c) r' in
      Ok (map_pkr (fun x => x) KsLayerModifier p, ke_map CeLayered kes)
  | RMouse _ => Ok (PkResolved KsMouse, [])
  | RSticky _ => Ok (PkResolved (KsSticky st_ks_new), [])
  | RTapDance _ =>
      let '(p, kes) := td_new_pressed_key (KS := cks) ki (cx_tap_dance c) in
      Ok (map_pkr PksTapDance (fun x => x) p, ke_map CeTapDance kes)
  | RTapHold i =>
      let! (p, kes) := th_new_pressed_key (KS := cks) (kd_tap_hold d) ki (cx_tap_hold c) i in
      Ok (map_pkr PksTapHold (fun x => x) p, ke_map CeTapHold kes)
  end.

(** composite.rs 1132-1185 [update_pending_state]. *)
Definition c_update_pending (d : key_data) (p : cpks) (ki : u16) (c : cctx) (r : ref) (ev : event cev)
  : res (cpks * option (new_pressed_key ref) * key_events cev) :=
  match r, p with
  | RChorded r', PksChorded p' =>
      match try_event as_chorded ev with
      | Some e =>
          let! (p2, n, kes) := ch_update_pending (kd_chorded d) (kd_chorded_aux d) p' ki (cx_chorded c) r' e in
          Ok (PksChorded p2, n, ke_map CeChorded kes)
      | None => Ok (p, None, [])
      end
  | RTapDance i, PksTapDance p' =>
      match try_event as_tap_dance ev with
      | Some e =>
          let! (p2, n, kes) := td_update_pending (kd_tap_dance d) p' ki (cx_tap_dance c) i e in
          Ok (PksTapDance p2, n, ke_map CeTapDance kes)
      | None => Ok (p, None, [])
      end
  | RTapHold i, PksTapHold p' =>
      match try_event as_tap_hold ev with
      | Some e =>
          let! (p2, n, kes) := th_update_pending (kd_tap_hold d) p' ki (cx_tap_hold c) i e in
          Ok (PksTapHold p2, n, ke_map CeTapHold kes)
      | None => Ok (p, None, [])
      end
  | _, _ => Panic
  end.

(** composite.rs 1187-1268 [update_state]; the consumer and keyboard systems do
    nothing. *)
Definition c_update_state (d : key_data) (s : cks) (r : ref) (c : cctx) (ki : u16) (ev : event cev)
  : res (cks * key_events cev) :=
  match r, s with
  | RAutomation i, KsAutomation =>
      match try_event as_automation ev with
      | Some e => let! kes := auto_update_state (kd_automation d) i ki e in
                  Ok (s, ke_map CeAutomation kes)
      | None => Ok (s, [])
      end
  | RLayered r', KsLayerModifier b =>
      match try_event as_layered ev with
      | Some e => let! (b', kes) := ly_update_state (kd_layer_mods d) b r' ki e in
                  Ok (KsLayerModifier b', ke_map CeLayered kes)
      | None => Ok (s, [])
      end
  | RSticky i, KsSticky b =>
      match try_event as_sticky ev with
      | Some e => let! k := index (kd_sticky d) (N.to_nat i) in
                  let '(b', kes) := st_update_state b k ki e in
                  Ok (KsSticky b', ke_map CeSticky kes)
      | None => Ok (s, [])
      end
  | _, _ => Ok (s, [])
  end.

(** composite.rs 1270-1283 [key_output]. *)
Definition c_key_output (d : key_data) (r : ref) (s : cks) : res (option key_output) :=
  match r, s with
  | RConsumer r', KsConsumer => Ok (Some (consumer_output r'))
  | RCustom r', KsCustom => Ok (Some (custom_output r'))
  | RKeyboard r', KsKeyboard => let! ko := keyboard_output (kd_keyboard d) r' in Ok (Some ko)
  | RMouse r', KsMouse => let! ko := mouse_key_output r' in Ok (Some ko)
  | RSticky i, KsSticky b => let! k := index (kd_sticky d) (N.to_nat i) in Ok (st_key_output b k)
  | _, _ => Ok None
  end.

(** composite.rs 1041-1283: the [key::System] implementation. *)
Definition composite (d : key_data) : system ref cctx cev cpks cks :=
  mkSystem _ _ _ _ _ (c_new_pressed_key d) (c_update_pending d) (c_update_state d) (c_key_output d)
           cctx_handle_event cctx_set_keymap_context KsNoOp.

(** A composite keymap configuration. *)
Definition cconf (refs : list ref) (d : key_data) (pos : position_fn) (debug : bool)
  : kconf ref cctx cev cpks cks := mkConf refs (composite d) pos debug.
Definition ckeymap := keymap ref cctx cev cpks cks.
