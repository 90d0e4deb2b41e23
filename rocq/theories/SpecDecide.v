(** Vocabulary of C52: how long a key has been undecided. *)
From Verif Require Import Base Output Types Scheduler Reporter Keymap SpecKeymap TapHold TapDance Chorded Composite.
Local Open Scope N_scope.

(** *** Stamping: the same key system, in which a key that cannot be decided at
    once remembers since when it is undecided.  The time is that of the last
    tick, which is what the keymap tells its key system. *)
Section Stamp.
Context {R Ctx Ev PKS KS : Type}.
Definition stamp_result (t : u32) (x : pressed_key_result R PKS KS) : pressed_key_result R (PKS * u32) KS :=
  match x with
  | PkPending p => PkPending (p, t)
  | PkNewPressedKey n => PkNewPressedKey n
  | PkResolved ks => PkResolved ks
  end.
Definition stamp_sys (sys : system R Ctx Ev PKS KS) : system R (Ctx * u32) Ev (PKS * u32) KS :=
  mkSystem _ _ _ _ _
    (fun i c r => let! (x, kes) := sys_new_pressed_key sys i (fst c) r in Ok (stamp_result (snd c) x, kes))
    (fun p i c r ev => let! (p', n, kes) := sys_update_pending_state sys (fst p) i (fst c) r ev in
                       Ok ((p', snd p), n, kes))
    (fun s r c i ev => sys_update_state sys s r (fst c) i ev)
    (sys_key_output sys)
    (fun c ev => let! (x, kes) := sys_ctx_handle_event sys (fst c) ev in Ok ((x, snd c), kes))
    (fun c t idle => (sys_ctx_set_keymap_context sys (fst c) t idle, t))
    (sys_no_op sys).
Definition stamp (conf : kconf R Ctx Ev PKS KS) : kconf R (Ctx * u32) Ev (PKS * u32) KS :=
  mkConf (kc_refs conf) (stamp_sys (kc_sys conf)) (kc_pos conf) (kc_debug conf).
Definition unstamp_pending (p : pending_state R Ev (PKS * u32)) : pending_state R Ev PKS :=
  mkPending (pd_index p) (pd_ref p) (fst (pd_state p)) (pd_queued p).
Definition unstamp (k : keymap R (Ctx * u32) Ev (PKS * u32) KS) : keymap R Ctx Ev PKS KS :=
  mkKM (fst (km_ctx k)) (km_pressed k) (km_sched k) (km_ms_per_tick k) (km_idle k) (km_rep k)
       (option_map unstamp_pending (km_pending k)) (km_inq k) (km_delay k) (km_callbacks k) (km_calls k).
(** The time on the keymap's clock, and the undecided key with its stamp. *)
Definition clock {C P} (k : keymap R C Ev P KS) : u32 := sc_counter (km_sched k).
Definition undecided {C P} (k : keymap R C Ev P KS) : option (u16 * P) :=
  match km_pending k with Some p => Some (pd_index p, pd_state p) | None => None end.
End Stamp.

(** *** The timeouts of the configuration *)
Definition timeout_of (cf : config) (p : cpks) : u16 :=
  match p with
  | PksTapHold _ => thc_timeout (cf_tap_hold cf)
  | PksChorded _ => chc_timeout (cf_chorded cf)
  | PksTapDance _ => tdc_timeout (cf_tap_dance cf)
  end.
(** The timeouts started: one when the key is pressed, and one for each further
    press of a tap-dance key. *)
Definition timeouts_started (p : cpks) : N :=
  match p with PksTapDance q => 1 + tdp_count q | _ => 1 end.
(** No tick is longer than [m] milliseconds. *)
Definition ticks_at_most (m : u8) (o : op) : Prop := match o with OpSetMs ms => ms <= m | _ => True end.
