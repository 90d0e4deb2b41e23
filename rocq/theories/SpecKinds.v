(** Specification vocabulary for C33 and C37: the kinds of keys. *)
From Verif Require Import Base Output Types SimpleKeys TapHold TapDance Sticky CapsWord Layered Automation
  Chorded Composite.
Local Open Scope N_scope.

Inductive kind := KAutomation | KCapsWord | KChorded | KLayered | KSticky | KTapDance | KTapHold | KPlain.
Definition ev_kind (e : cev) : kind :=
  match e with
  | CeAutomation _ => KAutomation | CeCapsWord _ => KCapsWord | CeChorded _ => KChorded
  | CeLayered _ => KLayered | CeSticky _ => KSticky | CeTapDance _ => KTapDance | CeTapHold _ => KTapHold
  end.
Definition ref_kind (r : ref) : kind :=
  match r with
  | RAutomation _ => KAutomation | RCapsWord => KCapsWord | RChorded _ => KChorded | RLayered _ => KLayered
  | RSticky _ => KSticky | RTapDance _ => KTapDance | RTapHold _ => KTapHold
  | RCallback _ | RConsumer _ | RCustom _ | RKeyboard _ | RMouse _ => KPlain
  end.

(** Only the part of the context that belongs to the kind may differ. *)
Definition same_except (k : kind) (c c' : cctx) : Prop :=
  (k <> KAutomation -> cx_automation c' = cx_automation c)
  /\ (k <> KCapsWord -> cx_caps_word c' = cx_caps_word c)
  /\ (k <> KChorded -> cx_chorded c' = cx_chorded c)
  /\ (k <> KLayered -> cx_layered c' = cx_layered c)
  /\ (k <> KSticky -> cx_sticky c' = cx_sticky c)
  /\ cx_tap_dance c' = cx_tap_dance c /\ cx_tap_hold c' = cx_tap_hold c.

(** Every key event in the list belongs to the kind and carries the index. *)
Definition own_events (k : kind) (ki : u16) (kes : key_events cev) : Prop :=
  forall se i e, In se kes -> se_event se = EvKey i e -> ev_kind e = k /\ i = ki.

(** A pending state that belongs to the key. *)
Definition pending_for (r : ref) (p : cpks) : Prop :=
  match r, p with
  | RChorded _, PksChorded _ | RTapDance _, PksTapDance _ | RTapHold _, PksTapHold _ => True
  | _, _ => False
  end.

(** Executions within the instruction array. *)
Definition exec_in_range (c : automation_config) (e : execution) : Prop :=
  exec_is_empty e = true \/ ex_start e + ex_length e <= N.of_nat (length (auc_instructions c)).
Definition macros_in_range (c : automation_ctx) : Prop :=
  aux_queue c <> [] /\ Forall (exec_in_range (aux_config c)) (aux_queue c).
(** An event that names no macro outside the instruction array. *)
Definition event_in_range (c : automation_config) (ev : event cev) : Prop :=
  match ev with EvKey _ (CeAutomation (AuEnqueue e)) => exec_in_range c e | _ => True end.
