(** Layers.  Models /repo/src/key/layered.rs. *)
From Verif Require Import Base Output Types Sticky.
Local Open Scope N_scope.

(** layered.rs 10-18: [LayerIndex], [LayerBitset] are [u32], [MAX_BITSET_LAYER]. *)
Definition layer_index := u32.
Definition MAX_BITSET_LAYER : nat := 31.

(** layered.rs 31-47 [ModifierKey]. *)
Inductive layer_modifier :=
| LmHold (l : layer_index)
| LmToggle (l : layer_index)
| LmSticky (l : layer_index)
| LmSetActiveLayers (bits : u32)
| LmDefault (l : layer_index).

(** layered.rs 66-81 [set_active_layers]. *)
Fixpoint layer_bits (layers : list layer_index) (acc : u32) : res u32 :=
  match layers with
  | [] => Ok acc
  | l :: t => if l <? N.of_nat MAX_BITSET_LAYER
              then layer_bits t (N.lor acc (N.shiftl 1 l)) else Panic
  end.
Definition set_active_layers (layers : list layer_index) : res layer_modifier :=
  let! b := layer_bits layers 0 in Ok (LmSetActiveLayers b).

(** layered.rs 430-445 [LayerEvent]. *)
Inductive layer_event :=
| LeActivated (l : layer_index)
| LeDeactivated (l : layer_index)
| LeToggled (l : layer_index)
| LeStickyActivated (l : layer_index)
| LeSet (bits : u32)
| LeSetDefault (l : layer_index).

(** layered.rs 457-485 [Behavior] is the type of Sticky.v; [ModifierKeyState]. *)
(** layered.rs 96-116 [ModifierKey::new_pressed_key]. *)
Definition lm_new_pressed_key (m : layer_modifier) : behavior * layer_event :=
  match m with
  | LmHold l => (BhRegular, LeActivated l)
  | LmToggle l => (BhRegular, LeToggled l)
  | LmSticky l => (BhSticky, LeStickyActivated l)
  | LmSetActiveLayers b => (BhRegular, LeSet b)
  | LmDefault l => (BhRegular, LeSetDefault l)
  end.

(** layered.rs 124-150 [ActivationStyle], [Activity]. *)
Inductive style := StRegular | StSticky.
Inductive activity := Active (s : style) | Inactive.
Definition is_active (a : activity) : bool := match a with Active _ => true | Inactive => false end.
Definition is_sticky_active (a : activity) : bool :=
  match a with Active StSticky => true | _ => false end.

(** layered.rs 163-181 [activate], [deactivate]: index 0 underflows, an index
    above the number of layers is out of bounds. *)
Definition layer_set (ls : list activity) (l : layer_index) (a : activity) : res (list activity) :=
  if l =? 0 then Panic else update_index ls (N.to_nat (l - 1)) a.
Definition layer_get (ls : list activity) (l : layer_index) : res activity :=
  if l =? 0 then Panic else index ls (N.to_nat (l - 1)).
Definition activate (ls : list activity) (l : layer_index) (s : style) := layer_set ls l (Active s).
Definition deactivate (ls : list activity) (l : layer_index) := layer_set ls l Inactive.

(** layered.rs 183-191 [active_layers]: from the highest to the lowest. *)
Fixpoint enum_active (i : layer_index) (ls : list activity) : list layer_index :=
  match ls with
  | [] => []
  | a :: t => if is_active a then (i + 1) :: enum_active (i + 1) t else enum_active (i + 1) t
  end.
Definition active_layers (ls : list activity) : list layer_index := rev (enum_active 0 ls).

(** layered.rs 218-250 [Context]. *)
Record layered_ctx := mkLyCtx {
  lyx_default : option layer_index;
  lyx_active : list activity;
  lyx_pressed : option u16
}.
Definition ly_ctx_new (layer_count : nat) : layered_ctx :=
  mkLyCtx None (repeat Inactive layer_count) None.

(** layered.rs 262-267 [sticky_layer]. *)
Fixpoint find_sticky (i : layer_index) (ls : list activity) : option layer_index :=
  match ls with
  | [] => None
  | a :: t => if is_sticky_active a then Some (i + 1) else find_sticky (i + 1) t
  end.
Definition sticky_layer (c : layered_ctx) : option layer_index := find_sticky 0 (lyx_active c).

(** layered.rs 290-301: the loop of [Set]; [li] runs over [1..max_layer]. *)
Definition set_one (bits : u32) (ls : list activity) (li : nat) : res (list activity) :=
  if N.testbit bits (N.of_nat li)
  then activate ls (N.of_nat li) StRegular
  else deactivate ls (N.of_nat li).
Definition set_layers (bits : u32) (ls : list activity) : res (list activity) :=
  fold_res (set_one bits) (seq 1 (Nat.min (length ls) MAX_BITSET_LAYER)) ls.

(** layered.rs 270-305 [handle_layer_event]. *)
Definition handle_layer_event (c : layered_ctx) (e : layer_event) : res layered_ctx :=
  match e with
  | LeActivated l =>
      let! ls := activate (lyx_active c) l StRegular in
      Ok (mkLyCtx (lyx_default c) ls (lyx_pressed c))
  | LeDeactivated l =>
      let! ls := deactivate (lyx_active c) l in
      Ok (mkLyCtx (lyx_default c) ls (lyx_pressed c))
  | LeStickyActivated l =>
      let! ls := activate (lyx_active c) l StSticky in
      Ok (mkLyCtx (lyx_default c) ls None)
  | LeToggled l =>
      let! a := layer_get (lyx_active c) l in
      let! ls := if is_active a then deactivate (lyx_active c) l
                 else activate (lyx_active c) l StRegular in
      Ok (mkLyCtx (lyx_default c) ls (lyx_pressed c))
  | LeSet bits =>
      let! ls := set_layers bits (lyx_active c) in
      Ok (mkLyCtx (lyx_default c) ls (lyx_pressed c))
  | LeSetDefault l =>
      Ok (mkLyCtx (if l =? 0 then None else Some l) (lyx_active c) (lyx_pressed c))
  end.

(** layered.rs 308-335 [handle_event] (and 340-343: no events are emitted). *)
Definition ly_handle_event (c : layered_ctx) (ev : event layer_event) : res layered_ctx :=
  match ev with
  | EvInput (Press i) =>
      match sticky_layer c with
      | Some l =>
          match lyx_pressed c with
          | Some _ => let! ls := deactivate (lyx_active c) l in
                      Ok (mkLyCtx (lyx_default c) ls None)
          | None => Ok (mkLyCtx (lyx_default c) (lyx_active c) (Some i))
          end
      | None => Ok c
      end
  | EvInput (Release i) =>
      match sticky_layer c with
      | Some l =>
          if opt_eqb N.eqb (lyx_pressed c) (Some i)
          then let! ls := deactivate (lyx_active c) l in
               Ok (mkLyCtx (lyx_default c) ls None)
          else Ok c
      | None => Ok c
      end
  | EvKey _ e => handle_layer_event c e
  | _ => Ok c
  end.

(** layered.rs 427-437 [LayeredKey]. *)
Record layered_key (R : Type) := mkLayeredKey { lk_base : R; lk_layered : list (option R) }.
Arguments mkLayeredKey {R}. Arguments lk_base {R}. Arguments lk_layered {R}.

(** [self[layer_index as usize - 1]] *)
Definition layer_key {R} (keys : list (option R)) (l : layer_index) : res (option R) :=
  if l =? 0 then Panic else index keys (N.to_nat (l - 1)).

(** layered.rs 374-391 [highest_active_key]. *)
Fixpoint first_defined {R} (keys : list (option R)) (ls : list layer_index)
  : res (option (layer_index * R)) :=
  match ls with
  | [] => Ok None
  | l :: t => let! o := layer_key keys l in
              match o with
              | Some k => Ok (Some (l, k))
              | None => first_defined keys t
              end
  end.
Definition highest_active_key {R} (keys : list (option R)) (st : list activity)
    (default : option layer_index) : res (option (layer_index * R)) :=
  let! o := first_defined keys (active_layers st) in
  match o with
  | Some x => Ok (Some x)
  | None => match default with
            | Some l => let! k := layer_key keys l in
                        Ok (match k with Some k' => Some (l, k') | None => None end)
            | None => Ok None
            end
  end.

(** layered.rs 393-403 [from_iterable]: [None] is [Err(Overflow)]. *)
Fixpoint pad_to {A} (n : nat) (l : list (option A)) : list (option A) :=
  match n with
  | O => []
  | S n' => match l with
            | [] => None :: pad_to n' []
            | x :: t => x :: pad_to n' t
            end
  end.
Definition from_iterable {R} (layer_count : nat) (keys : list (option R)) : option (list (option R)) :=
  if (length keys <=? layer_count)%nat then Some (pad_to layer_count keys) else None.
(** layered.rs 407-424 [layered_keys]. *)
Definition layered_keys {R} (layer_count : nat) (keys : list (option R)) : res (list (option R)) :=
  if (length keys <=? layer_count)%nat then Ok (pad_to layer_count keys) else Panic.

(** layered.rs 458-467 [LayeredKey::new_pressed_key]. *)
Definition lk_new_pressed_key {R} (k : layered_key R) (c : layered_ctx) : res (new_pressed_key R) :=
  let! o := highest_active_key (lk_layered k) (lyx_active c) (lyx_default c) in
  Ok (NpkKey (match o with Some (_, r) => r | None => lk_base k end)).

(** layered.rs 520-568 [ModifierKeyState::handle_event]. *)
Definition lm_handle_event (b : behavior) (ki : u16) (ev : event layer_event) (m : layer_modifier)
  : behavior * option layer_event :=
  match m with
  | LmHold l =>
      match ev with
      | EvInput (Release k) => (b, if ki =? k then Some (LeDeactivated l) else None)
      | _ => (b, None)
      end
  | LmToggle _ => (b, None)
  | LmSticky l =>
      match ev with
      | EvInput (Press _) =>
          match b with
          | BhSticky => (BhRegular, Some (LeActivated l))
          | BhRegular => (b, None)
          end
      | EvInput (Release k) =>
          match b with
          | BhRegular => (b, if ki =? k then Some (LeDeactivated l) else None)
          | BhSticky => (b, None)
          end
      | _ => (b, None)
      end
  | LmSetActiveLayers _ => (b, None)
  | LmDefault l =>
      match ev with
      | EvInput (Release k) => (b, if ki =? k then Some (LeSetDefault l) else None)
      | _ => (b, None)
      end
  end.

(** layered.rs 22-27 [Ref]. *)
Inductive layered_ref := LyModifier (i : u8) | LyLayered (i : u8).

(** layered.rs 604-640 [System::new_pressed_key]. *)
Definition ly_new_pressed_key {R PKS} (mods : list layer_modifier) (keys : list (layered_key R))
    (ki : u16) (c : layered_ctx) (r : layered_ref)
  : res (pressed_key_result R PKS behavior * key_events layer_event) :=
  match r with
  | LyModifier i =>
      let! m := index mods (N.to_nat i) in
      let '(b, e) := lm_new_pressed_key m in
      Ok (PkResolved b, [immediate (EvKey ki e)])
  | LyLayered i =>
      let! k := index keys (N.to_nat i) in
      let! n := lk_new_pressed_key k c in
      Ok (PkNewPressedKey n, [])
  end.

(** layered.rs 653-675 [System::update_state]. *)
Definition ly_update_state (mods : list layer_modifier) (b : behavior) (r : layered_ref)
    (ki : u16) (ev : event layer_event) : res (behavior * key_events layer_event) :=
  match r with
  | LyModifier i =>
      let! m := index mods (N.to_nat i) in
      let '(b', o) := lm_handle_event b ki ev m in
      Ok (b', match o with Some e => [immediate (EvKey ki e)] | None => [] end)
  | LyLayered _ => Ok (b, [])
  end.
