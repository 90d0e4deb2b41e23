(** Specification vocabulary about composite keymaps: which keys are decided
    as soon as they are pressed. *)
From Verif Require Import Base Output Types Keymap SimpleKeys TapHold TapDance Sticky CapsWord Layered
  Automation Chorded Composite.
Local Open Scope N_scope.

(** Keys that take effect at once, whatever the tables. *)
Definition basic (r : ref) : bool :=
  match r with
  | RChorded _ | RTapDance _ | RTapHold _ | RLayered (LyLayered _) => false
  | _ => true
  end.

(** The keys a layered key stands for. *)
Definition layered_refs (k : layered_key ref) : list ref :=
  lk_base k :: filter_map (fun o => o) (lk_layered k).

(** Basic keys, and layered keys all of whose layers are plain. *)
Inductive plain (d : key_data) : ref -> Prop :=
| plain_basic r : basic r = true -> plain d r
| plain_layered i :
    (forall k r, nth_error (kd_layered d) (N.to_nat i) = Some k -> In r (layered_refs k) -> plain d r) ->
    plain d (RLayered (LyLayered i)).

(** The keys that tap-hold, tap-dance and chorded keys become are plain. *)
Definition plain_outcomes (d : key_data) : Prop :=
  (forall k, In k (kd_tap_hold d) -> plain d (th_tap k) /\ plain d (th_hold k))
  /\ (forall k r, In k (kd_tap_dance d) -> In (Some r) k -> plain d r)
  /\ (forall k r, In k (kd_chorded d) -> r = chk_pass k \/ In r (map snd (chk_chords k)) -> plain d r)
  /\ (forall k, In k (kd_chorded_aux d) -> plain d (cha_pass k)).
