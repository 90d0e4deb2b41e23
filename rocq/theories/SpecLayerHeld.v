(** Specification vocabulary for C44: layers that are switched by holding a key. *)
From Verif Require Import Base Output Types Layered Composite SpecMacroLive.
Local Open Scope N_scope.

(** A key that activates layer [l] while it is held. *)
Definition hold_key (d : key_data) (l : N) (r : ref) : Prop :=
  exists m, r = RLayered (LyModifier m) /\ nth_error (kd_layer_mods d) (N.to_nat m) = Some (LmHold l).

(** Only hold keys activate layer [l]: no key toggles it, activates it for the
    next key only, or sets it among the active layers (which is possible for the
    layers up to 31). *)
Definition only_hold_keys_activate (d : key_data) (l : N) : Prop :=
  forall m, In m (kd_layer_mods d) ->
    match m with
    | LmHold _ | LmDefault _ => True
    | LmToggle l' | LmSticky l' => l' <> l
    | LmSetActiveLayers bits => 31 < l \/ N.testbit bits l = false
    end.
(** Only hold keys deactivate it. *)
Definition only_hold_keys_deactivate (d : key_data) (l : N) : Prop :=
  forall m, In m (kd_layer_mods d) ->
    match m with
    | LmHold _ | LmDefault _ => True
    | LmToggle l' | LmSticky l' => l' <> l
    | LmSetActiveLayers bits => 31 < l \/ N.testbit bits l = true
    end.
(** Only the key at index [i] can become a key that holds layer [l]. *)
Definition held_only_at (refs : list ref) (d : key_data) (l : N) (i : u16) : Prop :=
  forall j r r', nth_error refs (N.to_nat j) = Some r -> reaches d r r' -> hold_key d l r' -> j = i.
