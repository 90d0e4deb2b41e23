(** Specification vocabulary for layers (C25, C26). *)
From Verif Require Import Base Output Types Sticky Layered.
Local Open Scope N_scope.

(** *** What a layered key means *)

(** Layers are numbered from 1. *)
Definition layer_on (c : layered_ctx) (l : N) : Prop :=
  1 <= l /\ exists s, nth_error (lyx_active c) (N.to_nat (l - 1)) = Some (Active s).
Definition defines {R} (k : layered_key R) (l : N) (r : R) : Prop :=
  1 <= l /\ nth_error (lk_layered k) (N.to_nat (l - 1)) = Some (Some r).

(** The highest active layer that defines the key, else the default layer, else
    the base layer. *)
Inductive acts_as {R} (k : layered_key R) (on : N -> Prop) (default : option N) : R -> Prop :=
| on_layer l r :
    on l -> defines k l r -> (forall l' r', on l' -> defines k l' r' -> l' <= l) ->
    acts_as k on default r
| on_default l r :
    (forall l' r', on l' -> ~ defines k l' r') -> default = Some l -> defines k l r ->
    acts_as k on default r
| on_base :
    (forall l' r', on l' -> ~ defines k l' r') -> (forall l r, default = Some l -> ~ defines k l r) ->
    acts_as k on default (lk_base k).

(** *** Layer events as operations on a set of layers *)
Definition layer_set_step (n : N) (e : layer_event) (on : N -> bool) : N -> bool :=
  fun x =>
  match e with
  | LeActivated l | LeStickyActivated l => (x =? l) || on x
  | LeDeactivated l => negb (x =? l) && on x
  | LeToggled l => if x =? l then negb (on x) else on x
  | LeSet bits => if (1 <=? x) && (x <=? n) && (x <=? 31) then N.testbit bits x else on x
  | LeSetDefault _ => on x
  end.
Definition default_step (e : layer_event) (d : option N) : option N :=
  match e with LeSetDefault 0 => None | LeSetDefault l => Some l | _ => d end.
(** The layer an event names. *)
Definition names (e : layer_event) : option N :=
  match e with
  | LeActivated l | LeStickyActivated l | LeDeactivated l | LeToggled l => Some l
  | _ => None
  end.
Definition is_on (c : layered_ctx) (x : N) : bool :=
  (1 <=? x) && match nth_error (lyx_active c) (N.to_nat (x - 1)) with Some a => is_active a | None => false end.

(** The layer that is active only until the next key has been used. *)
Definition sticky_on (c : layered_ctx) (x : N) : bool :=
  (1 <=? x) && match nth_error (lyx_active c) (N.to_nat (x - 1)) with Some a => is_sticky_active a | None => false end.

(** Whether a layer activated for the next key only is still active after a
    sequence of inputs: it is used by the first press, and ends with the release
    of that key or the next press. *)
Fixpoint lasts (used : option u16) (ins : list input_event) : bool :=
  match ins with
  | [] => true
  | Press i :: t => match used with None => lasts (Some i) t | Some _ => false end
  | Release i :: t => match used with
                      | Some j => if i =? j then false else lasts used t
                      | None => lasts used t
                      end
  | _ :: t => lasts used t
  end.

(** What pressing a layer key does to the layers, and what its release does;
    [used] tells whether another key was pressed in between. *)
Definition press_effect (m : layer_modifier) : layer_event :=
  match m with
  | LmHold l => LeActivated l
  | LmToggle l => LeToggled l
  | LmSticky l => LeStickyActivated l
  | LmSetActiveLayers b => LeSet b
  | LmDefault l => LeSetDefault l
  end.
Definition release_effect (m : layer_modifier) (used : bool) : option layer_event :=
  match m with
  | LmHold l => Some (LeDeactivated l)
  | LmSticky l => if used then Some (LeDeactivated l) else None
  | LmDefault l => Some (LeSetDefault l)
  | LmToggle _ | LmSetActiveLayers _ => None
  end.
