(** Caps word.  Models /repo/src/key/caps_word.rs. *)
From Verif Require Import Base Output Types.
Local Open Scope N_scope.

(** caps_word.rs 15-24 [Context]. *)
Record capsword_ctx := mkCWCtx { cwx_active : bool }.
Definition cw_ctx_new : capsword_ctx := mkCWCtx false.

(** caps_word.rs 103-108 [Event]. *)
Inductive cw_event := EnableCapsWord | DisableCapsWord.

(** caps_word.rs 42-56: [exit_caps_word]. *)
Definition cw_exits (kc : u8) (m : modifiers) : bool :=
  let is_shifted := has_modifiers m (mods_union LEFT_SHIFT_U8 RIGHT_SHIFT_U8) in
  if (0x04 <=? kc) && (kc <=? 0x1D) then false
  else if (0x1E <=? kc) && (kc <=? 0x27) && negb is_shifted then false
  else if kc =? 0x2A then false
  else if kc =? 0x2D then false
  else if kc =? 0x4C then false
  else if kc =? 0xE1 then false
  else if kc =? 0xE5 then false
  else if kc =? 0x00 then false
  else true.

Definition cw_vk_press {E} : sched_event E :=
  immediate (EvInput (VirtualKeyPress (ko_from_key_code 0xE1))).
Definition cw_vk_release {E} : sched_event E :=
  immediate (EvInput (VirtualKeyRelease (ko_from_key_code 0xE1))).

(** caps_word.rs 27-91 [handle_event]. *)
Definition cw_handle_event (c : capsword_ctx) (ev : event cw_event)
  : capsword_ctx * key_events cw_event :=
  match ev with
  | EvKeymap (KmResolvedKeyOutput _ ko) =>
      if cwx_active c
      then match ko_usage ko with
           | Keyboard kc => if cw_exits kc (ko_mods ko)
                            then (mkCWCtx false, [cw_vk_release]) else (c, [])
           | _ => (c, [])
           end
      else (c, [])
  | EvKey _ EnableCapsWord => (mkCWCtx true, [cw_vk_press])
  | EvKey _ DisableCapsWord => (mkCWCtx false, [cw_vk_release])
  | _ => (c, [])
  end.

(** caps_word.rs 111-136 [Key] (one variant), [new_pressed_key]; 177-189
    [System::new_pressed_key]. *)
Definition cw_new_pressed_key {R PKS KS} (c : capsword_ctx) (ki : u16)
  : pressed_key_result R PKS KS * key_events cw_event :=
  (PkNewPressedKey NpkNoOp,
   [immediate (EvKey ki (if cwx_active c then DisableCapsWord else EnableCapsWord))]).
