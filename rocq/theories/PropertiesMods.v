(** C27, C28: sticky modifiers and caps word. *)
From Verif Require Import BaseFacts Output Types Scheduler Keymap SimpleKeys TapHold TapDance Sticky CapsWord
  Layered Automation Chorded Composite CtxFacts KindFacts SpecMods Samples.
Local Open Scope N_scope.

(** ** C28 *)

Lemma shift_held_spec m : has_modifiers m (mods_union LEFT_SHIFT_U8 RIGHT_SHIFT_U8) = shift_held m.
Proof.
  unfold has_modifiers, shift_held. change (mods_union LEFT_SHIFT_U8 RIGHT_SHIFT_U8) with 34.
  destruct (N.testbit m 1) eqn:E1; cbn [orb].
  - apply negb_true_iff, N.eqb_neq. intros H. assert (X : N.testbit (N.land m 34) 1 = false) by (rewrite H; reflexivity).
    rewrite N.land_spec, E1 in X. discriminate.
  - destruct (N.testbit m 5) eqn:E5.
    + apply negb_true_iff, N.eqb_neq. intros H. assert (X : N.testbit (N.land m 34) 5 = false) by (rewrite H; reflexivity).
      rewrite N.land_spec, E5 in X. discriminate.
    + apply negb_false_iff, N.eqb_eq. apply N.bits_inj. intros n. rewrite N.land_spec, N.bits_0.
      destruct (N.testbit 34 n) eqn:E; [|apply andb_false_r]. rewrite andb_true_r.
      assert (Hn : n = 1 \/ n = 5).
      { destruct (N.le_gt_cases n 5) as [Hle|Hgt].
        - assert (n = 0 \/ n = 1 \/ n = 2 \/ n = 3 \/ n = 4 \/ n = 5) as [->|[->|[->|[->|[->| ->]]]]] by lia; auto; discriminate.
        - rewrite N.bits_above_log2 in E; [discriminate|]. cbn. lia. }
      destruct Hn as [->| ->]; assumption.
Qed.
Lemma exits_iff kc m : cw_exits kc m = false <-> word_code kc m.
Proof.
  unfold cw_exits, word_code. rewrite shift_held_spec. cbn [In].
  destruct ((4 <=? kc) && (kc <=? 29)) eqn:E1.
  { apply andb_true_iff in E1 as [A B]. apply N.leb_le in A, B. split; intros _; [left; split; assumption|reflexivity]. }
  assert (N1 : ~ (4 <= kc <= 29)).
  { intros [A B]. apply N.leb_le in A, B. now rewrite A, B in E1. }
  destruct ((30 <=? kc) && (kc <=? 39)) eqn:E2.
  - apply andb_true_iff in E2 as [A B]. apply N.leb_le in A, B. destruct (shift_held m) eqn:Es; cbn [andb negb].
    + assert (Hk : kc <> 42 /\ kc <> 45 /\ kc <> 76 /\ kc <> 225 /\ kc <> 229 /\ kc <> 0) by (change 30 with (0x1E) in A; lia).
      destruct Hk as (K1 & K2 & K3 & K4 & K5 & K6). repeat (rewrite (proj2 (N.eqb_neq _ _)); [|assumption]).
      split; [discriminate|]. intros [X|[[_ X]|X]]; [tauto|discriminate|]. exfalso. intuition congruence.
    + split; auto.
  - assert (N2 : ~ (30 <= kc <= 39)). { intros [A B]. apply N.leb_le in A, B. now rewrite A, B in E2. }
    cbn [andb].
    destruct (kc =? 42) eqn:K1; [apply N.eqb_eq in K1; subst; split; auto 6|].
    destruct (kc =? 45) eqn:K2; [apply N.eqb_eq in K2; subst; split; auto 7|].
    destruct (kc =? 76) eqn:K3; [apply N.eqb_eq in K3; subst; split; auto 8|].
    destruct (kc =? 225) eqn:K4; [apply N.eqb_eq in K4; subst; split; auto 9|].
    destruct (kc =? 229) eqn:K5; [apply N.eqb_eq in K5; subst; split; auto 10|].
    destruct (kc =? 0) eqn:K6; [apply N.eqb_eq in K6; subst; split; auto 11|].
    apply N.eqb_neq in K1, K2, K3, K4, K5, K6. split; [discriminate|].
    intros [X|[[X _]|X]]; [tauto|tauto|]. exfalso. intuition congruence.
Qed.

Lemma elsewhere_step c ev : not_caps ev -> step_caps_word c ev = (c, []).
Proof. destruct ev as [ie|j [e|e|e|e|e|e|e]|[cb|i ko]]; cbn; try contradiction; reflexivity. Qed.

(** From caps word off: whatever is pressed and typed, it is on or off as
    specified, and the virtual left shift is pressed and released exactly when it
    is switched on and off. *)
Theorem C28_caps_word : forall l, caps_actions_ok l ->
  exists fin out, caps_play cw_ctx_new l = (mkCWCtx fin, out) /\ caps_run false l fin out.
Proof.
  assert (G : forall l on, caps_actions_ok l ->
    exists fin out, caps_play (mkCWCtx on) l = (mkCWCtx fin, out) /\ caps_run on l fin out).
  { induction l as [|a l IH]; intros on Hok; [exists on, []; split; [reflexivity|constructor]|].
    assert (Hl : caps_actions_ok l) by (intros ev Hev; apply Hok; now right).
    destruct a as [i|i ko|ev].
    - destruct (IH (negb on) Hl) as (fin & out & E & R). destruct on; cbn [negb] in *; cbn; rewrite E;
        eexists _, _; (split; [reflexivity|]); now constructor.
    - destruct on.
      + cbn. destruct (ko_usage ko) as [kc|x|x|x] eqn:Eu.
        2-4: destruct (IH true Hl) as (fin & out & E & R); rewrite E; eexists _, _; (split; [reflexivity|]);
             apply cr_word; [unfold word_output; rewrite Eu; exact I|exact R].
        destruct (cw_exits kc (ko_mods ko)) eqn:Ee; cbn.
        * destruct (IH false Hl) as (fin & out & E & R). rewrite E. eexists _, _. split; [reflexivity|].
          apply cr_end; [|exact R]. unfold word_output. rewrite Eu, <- exits_iff, Ee. discriminate.
        * destruct (IH true Hl) as (fin & out & E & R). rewrite E. eexists _, _. split; [reflexivity|].
          apply cr_word; [|exact R]. unfold word_output. now rewrite Eu, <- exits_iff.
      + cbn. destruct (IH false Hl) as (fin & out & E & R). rewrite E. eexists _, _. split; [reflexivity|]. now constructor.
    - destruct (IH on Hl) as (fin & out & E & R). cbn [caps_play caps_events caps_feed].
      rewrite elsewhere_step by (apply Hok; now left). cbn. rewrite E. eexists _, _. split; [reflexivity|]. now constructor. }
  intros l Hl. exact (G l false Hl).
Qed.
(** So it is held exactly while caps word is on. *)
Theorem C28_shift_held : forall l fin out, caps_run false l fin out ->
  let count ie := length (filter (fun ev => match ev, ie with
    | EvInput (VirtualKeyPress _), true | EvInput (VirtualKeyRelease _), false => true
    | _, _ => false end) out) in
  count true = (count false + if fin then 1 else 0)%nat
  /\ Forall (fun ev => ev = EvInput (VirtualKeyPress left_shift) \/ ev = EvInput (VirtualKeyRelease left_shift)) out.
Proof.
  assert (G : forall on l fin out, caps_run on l fin out ->
    let count ie := length (filter (fun ev : event cev => match ev, ie with
      | EvInput (VirtualKeyPress _), true | EvInput (VirtualKeyRelease _), false => true
      | _, _ => false end) out) in
    (count true + (if on then 1 else 0) = count false + if fin then 1 else 0)%nat
    /\ Forall (fun ev => ev = EvInput (VirtualKeyPress left_shift) \/ ev = EvInput (VirtualKeyRelease left_shift)) out).
  { intros on l fin out H. induction H; cbn zeta in *; try exact IHcaps_run.
    - cbn. split; [lia|constructor].
    - destruct IHcaps_run as [A B]. split; [cbn in *; lia|constructor; auto].
    - destruct IHcaps_run as [A B]. split; [cbn in *; lia|constructor; auto].
    - destruct IHcaps_run as [A B]. split; [cbn in *; lia|constructor; auto]. }
  intros l fin out H. destruct (G _ _ _ _ H) as [A B]. cbn zeta in *. split; [lia|exact B].
Qed.
(** The composite context handles an event for caps word in just this way. *)
Theorem C28_composite : forall c ev c' kes, cctx_handle_event c ev = Ok (c', kes) ->
  exists kc pre post, step_caps_word (cx_caps_word c) ev = (cx_caps_word c', kc) /\ kes = pre ++ kc ++ post.
Proof.
  intros c ev c' kes H. apply cctx_inv in H as (k1 & k2 & k5 & _ & H2 & _ & _ & _ & _ & _ & Hk & _). eauto 6.
Qed.
(** A then !, in caps word; then twice the key. *)
Example C28_example :
  caps_play cw_ctx_new [CapsKey 6; Typed 0 (mkKO (Keyboard 4) 0); Typed 1 (mkKO (Keyboard 30) 2); CapsKey 6; CapsKey 6]
  = (mkCWCtx false, [EvInput (VirtualKeyPress left_shift); EvInput (VirtualKeyRelease left_shift);
                     EvInput (VirtualKeyPress left_shift); EvInput (VirtualKeyRelease left_shift)])
  /\ word_output (mkKO (Keyboard 4) 0) /\ ~ word_output (mkKO (Keyboard 30) 2).
Proof.
  split; [reflexivity|split].
  - left. cbn. lia.
  - unfold word_output, word_code, shift_held. cbn. intros [X|[[_ X]|X]]; [lia|discriminate|]. intuition discriminate.
Qed.

(** ** C27 *)

Definition few (c : sticky_ctx) : Prop := (length (stx_active c) <= 4)%nat.
Lemma release_keys {E} l : vreleases (@st_release_events E l) = map mods_key l.
Proof. induction l as [|m l IH]; [reflexivity|]. cbn. f_equal. exact IH. Qed.
Lemma vreleases_map {E F} (f : E -> F) kes : vreleases (ke_map f kes) = vreleases kes.
Proof. induction kes as [|[s [ie|j e|kk]] t IH]; cbn; auto. destruct ie; cbn; auto. f_equal. exact IH. Qed.
Lemma step_sticky_cases c ev : few c -> exists c' kes, step_sticky c ev = Ok (c', kes) /\ few c'
  /\ stx_config c' = stx_config c
  /\ match ev with
     | EvKey _ (CeSticky (ActivateModifiers m)) =>
         vreleases kes = [] /\ stx_pressed c' = stx_pressed c
         /\ ((length (stx_active c) < 4)%nat -> stx_active c' = stx_active c ++ [m])
         /\ (length (stx_active c) = 4%nat -> stx_active c' = stx_active c)
     | EvKeymap (KmResolvedKeyOutput i _) =>
         vreleases kes = [] /\ stx_active c' = stx_active c /\ (stx_active c <> [] -> stx_pressed c' = Some i)
         /\ (stx_active c = [] -> c' = c)
     | EvInput (Release i) =>
         if negb (match stx_active c with [] => true | _ => false end) && opt_eqb N.eqb (Some i) (stx_pressed c)
         then vreleases kes = map mods_key (stx_active c) /\ stx_active c' = [] /\ stx_pressed c' = None
         else vreleases kes = [] /\ c' = c
     | EvInput (Press _) =>
         match stx_pressed c, stc_release (stx_config c) with
         | Some _, OnNextKeyPress =>
             vreleases kes = map mods_key (stx_active c) /\ stx_active c' = [] /\ stx_pressed c' = None
         | _, _ => vreleases kes = [] /\ c' = c
         end
     | _ => vreleases kes = [] /\ c' = c
     end.
Proof.
  unfold few. intros H.
  assert (Hr : ke_extend [] (@st_release_events st_event (stx_active c)) = Ok (st_release_events (stx_active c))).
  { unfold ke_extend. rewrite push_all_cap_total; [reflexivity|]. rewrite sticky_release_length. cbn. exact H. }
  unfold step_sticky. destruct ev as [[k|k|ko|ko]|k [e|e|e|e|[m]|e|e]|[cb|i ko]]; cbn [try_event as_sticky st_handle_event];
    try (eexists _, _; (split; [reflexivity|]); cbn; auto; fail).
  - destruct (stx_pressed c) as [q|]; [destruct (stc_release (stx_config c))|];
      try (eexists _, _; (split; [reflexivity|]); cbn; auto; fail).
    rewrite Hr. cbn [bind]. eexists _, _; (split; [reflexivity|]). cbn. rewrite vreleases_map, release_keys. split; [lia|auto].
  - destruct (stx_active c) as [|m0 t0] eqn:Ea.
    + eexists _, _; (split; [reflexivity|]). cbn. rewrite Ea. auto.
    + destruct (opt_eqb N.eqb (Some k) (stx_pressed c)); cbn [negb andb].
      * rewrite <- Ea in *. rewrite Hr. cbn [bind]. eexists _, _; (split; [reflexivity|]). cbn.
        rewrite vreleases_map, release_keys. split; [lia|auto].
      * eexists _, _; (split; [reflexivity|]). rewrite Ea. auto.
  - destruct (length (stx_active c) <? MAX_STICKY_MODIFIERS)%nat eqn:El.
    + apply Nat.ltb_lt in El. eexists _, _; (split; [reflexivity|]). cbn. unfold MAX_STICKY_MODIFIERS in El.
      rewrite app_length. cbn. split; [lia|]. split; [auto|]. split; [auto|]. split; [auto|]. split; [auto|]. intros X. rewrite X in El. lia.
    + apply Nat.ltb_ge in El. eexists _, _; (split; [reflexivity|]). cbn. unfold MAX_STICKY_MODIFIERS in El.
      split; [lia|]. split; [auto|]. split; [auto|]. split; [auto|]. split; [lia|auto].
  - destruct (stx_active c) as [|m0 t0] eqn:Ea; eexists _, _; (split; [reflexivity|]); cbn.
    + rewrite Ea. cbn. split; [lia|]. split; [auto|]. split; [auto|]. split; [auto|]. split; [congruence|auto].
    + split; [exact H|]. split; [auto|]. split; [auto|]. split; [auto|]. split; [auto|discriminate].
Qed.

Lemma sticky_run_few h c : few c -> exists c' rel, sticky_run c h = Ok (c', rel) /\ few c' /\ stx_config c' = stx_config c.
Proof.
  revert c. induction h as [|ev h IH]; intros c Hc; cbn; [eauto|].
  destruct (step_sticky_cases c ev Hc) as (c1 & kes & E & F & G & _). rewrite E. cbn.
  destruct (IH c1 F) as (c2 & rel & E2 & F2 & G2). rewrite E2. cbn. eexists _, _. split; [reflexivity|]. split; [auto|congruence].
Qed.
Lemma sticky_run_app h1 h2 c : sticky_run c (h1 ++ h2) =
  (let! (c1, r1) := sticky_run c h1 in let! (c2, r2) := sticky_run c1 h2 in Ok (c2, r1 ++ r2)).
Proof.
  revert c. induction h1 as [|ev h1 IH]; intros c; cbn.
  - destruct (sticky_run c h2) as [[c2 r2]| |]; reflexivity.
  - destruct (step_sticky c ev) as [[c1 kes]| |]; cbn; auto. rewrite IH.
    destruct (sticky_run c1 h1) as [[c2 r2]| |]; cbn; auto. destruct (sticky_run c2 h2) as [[c3 r3]| |]; cbn; auto.
    now rewrite app_assoc.
Qed.
Lemma activated_app h1 h2 : activated (h1 ++ h2) = activated h1 ++ activated h2.
Proof.
  induction h1 as [|[ie|j [e|e|e|e|[m]|e|e]|kk] t IH]; cbn; auto. now rewrite IH.
Qed.

(** The sticky context never panics, and while no more than four modifiers wait
    at a time, every activated modifier is released exactly once, in order, or still
    waiting. *)
Theorem C27_balance : forall cf h, exists c rel,
  sticky_run (st_ctx_new cf) h = Ok (c, rel)
  /\ (at_most_four cf h -> map mods_key (activated h) = rel ++ map mods_key (stx_active c)).
Proof.
  intros cf h. induction h as [|ev h IH] using rev_ind; [eexists _, _; split; reflexivity|].
  assert (F0 : few (st_ctx_new cf)) by (cbn; unfold few; cbn; lia).
  destruct IH as (c & rel & E & Hb). destruct (sticky_run_few h _ F0) as (c' & rel' & E' & Fc & _).
  rewrite E in E'. injection E' as <- <-. destruct (step_sticky_cases c ev Fc) as (c1 & kes & E1 & F1 & _ & HC).
  rewrite sticky_run_app, E. cbn. rewrite E1. cbn. eexists _, _. split; [reflexivity|]. intros H4.
  assert (H4' : at_most_four cf h).
  { intros h1 j m h2 c0 r0 -> Hr. eapply (H4 h1 j m (h2 ++ [ev])); [now rewrite <- app_assoc|exact Hr]. }
  specialize (Hb H4'). rewrite activated_app, map_app, Hb, app_nil_r, <- !app_assoc. f_equal.
  destruct ev as [[k|k|ko|ko]|k [e|e|e|e|[m]|e|e]|[cb|i ko]]; cbn in HC |- *; rewrite ?app_nil_r;
    try (destruct HC as [-> ->]; reflexivity).
  - destruct (stx_pressed c); [destruct (stc_release (stx_config c))|]; try (destruct HC as [-> ->]; reflexivity).
    destruct HC as (-> & -> & _). now rewrite app_nil_r.
  - destruct (_ && _); [|destruct HC as [-> ->]; reflexivity]. destruct HC as (-> & -> & _). now rewrite app_nil_r.
  - destruct HC as (-> & _ & HC & _). rewrite HC; [now rewrite map_app|].
    specialize (H4 h k m [] c rel eq_refl E). apply (f_equal (@length _)) in Hb.
    rewrite app_length, !map_length in Hb. lia.
  - destruct HC as (-> & -> & _). reflexivity.
Qed.

(** They wait until something is typed. *)
Theorem C27_wait : forall c h, (length (stx_active c) <= 4)%nat -> stx_pressed c = None ->
  Forall (fun ev => ~ types ev) h ->
  exists c', sticky_run c h = Ok (c', []) /\ stx_pressed c' = None /\ exists more, stx_active c' = stx_active c ++ more.
Proof.
  intros c h Hc Hp Hh. revert c Hc Hp. induction Hh as [|ev h Hev Hh IH]; intros c Hc Hp.
  { exists c. split; [reflexivity|]. split; [auto|]. exists []. now rewrite app_nil_r. }
  destruct (step_sticky_cases c ev Hc) as (c1 & kes & E & F & _ & HC). cbn. rewrite E. cbn.
  assert (G : vreleases kes = [] /\ stx_pressed c1 = None /\ exists more, stx_active c1 = stx_active c ++ more).
  { assert (S : vreleases kes = [] /\ c1 = c -> vreleases kes = [] /\ stx_pressed c1 = None /\ exists more, stx_active c1 = stx_active c ++ more).
    { intros [-> ->]. split; [auto|]. split; [auto|]. exists []. now rewrite app_nil_r. }
    rewrite Hp in HC. cbn in HC. rewrite andb_false_r in HC.
    destruct ev as [[k|k|ko|ko]|k [e|e|e|e|[m]|e|e]|[cb|i ko]]; auto.
    - destruct HC as (A & B & C & D). split; [auto|]. split; [congruence|].
      destruct (Nat.eq_dec (length (stx_active c)) 4) as [X|X].
      + exists []. rewrite app_nil_r. auto.
      + exists [m]. apply C. lia.
    - exfalso. apply Hev. exact I. }
  destruct G as (-> & G2 & more & G3). destruct (IH c1 F G2) as (c2 & E2 & P2 & more2 & A2). rewrite E2. cbn.
  exists c2. split; [reflexivity|]. split; [auto|]. exists (more ++ more2). now rewrite A2, G3, app_assoc.
Qed.

Lemma sticky_modifying c i h : few c -> stx_active c <> [] -> stx_pressed c = Some i ->
  Forall (fun ev => ~ types ev /\ ev <> EvInput (Release i)
                    /\ (stc_release (stx_config c) = OnNextKeyPress -> ~ presses_some ev)) h ->
  exists c', sticky_run c h = Ok (c', []) /\ few c' /\ stx_pressed c' = Some i /\ stx_config c' = stx_config c
    /\ exists more, stx_active c' = stx_active c ++ more.
Proof.
  intros Hc Ha Hp Hh. remember (stx_config c) as cf eqn:Ecf. revert c Hc Ha Hp Ecf.
  induction Hh as [|ev h (Hev & Hr & Hn) Hh IH]; intros c Hc Ha Hp Ecf.
  { exists c. do 4 (split; [auto|]). exists []. now rewrite app_nil_r. }
  destruct (step_sticky_cases c ev Hc) as (c1 & kes & E & F & Cf & HC). cbn. rewrite E. cbn.
  assert (G : vreleases kes = [] /\ stx_pressed c1 = Some i /\ exists more, stx_active c1 = stx_active c ++ more).
  { assert (S : vreleases kes = [] /\ c1 = c -> vreleases kes = [] /\ stx_pressed c1 = Some i /\ exists more, stx_active c1 = stx_active c ++ more).
    { intros [-> ->]. split; [auto|]. split; [auto|]. exists []. now rewrite app_nil_r. }
    rewrite Hp in HC.
    destruct ev as [[k|k|ko|ko]|k [e|e|e|e|[m]|e|e]|[cb|j ko]]; auto.
    - rewrite <- Ecf in HC. destruct (stc_release cf); auto. exfalso. now apply Hn.
    - cbn in HC. destruct (k =? i) eqn:Ek; [apply N.eqb_eq in Ek; congruence|]. rewrite andb_false_r in HC. auto.
    - destruct HC as (A & B & C & D). split; [auto|]. split; [congruence|].
      destruct (Nat.eq_dec (length (stx_active c)) 4) as [X|X].
      + exists []. rewrite app_nil_r. auto.
      + exists [m]. apply C. unfold few in Hc. lia.
    - exfalso. apply Hev. exact I. }
  destruct G as (-> & G2 & more & G3).
  assert (Ha1 : stx_active c1 <> []) by (rewrite G3; destruct (stx_active c); [congruence|discriminate]).
  destruct (IH c1 F Ha1 G2 (eq_trans Ecf (eq_sym Cf))) as (c2 & E2 & F2 & P2 & C2 & more2 & A2). rewrite E2. cbn.
  exists c2. do 4 (split; [auto|]). exists (more ++ more2). now rewrite A2, G3, app_assoc.
Qed.

(** Once a key [i] has typed with modifiers waiting, nothing is released until key
    [i] is released (or any key is pressed, if so configured); then all of them are. *)
Theorem C27_let_go : forall cf h0 c rel0 i ko h last,
  sticky_run (st_ctx_new cf) h0 = Ok (c, rel0) -> stx_active c <> [] ->
  Forall (fun ev => ~ types ev /\ ev <> EvInput (Release i) /\ (stc_release cf = OnNextKeyPress -> ~ presses_some ev)) h ->
  last = EvInput (Release i) \/ (stc_release cf = OnNextKeyPress /\ presses_some last) ->
  exists c1 c2, sticky_run c (EvKeymap (KmResolvedKeyOutput i ko) :: h) = Ok (c1, [])
    /\ (exists more, stx_active c1 = stx_active c ++ more)
    /\ sticky_run c1 [last] = Ok (c2, map mods_key (stx_active c1)) /\ stx_active c2 = [].
Proof.
  intros cf h0 c rel0 i ko h last H0 Ha Hh Hlast.
  assert (F0 : few (st_ctx_new cf)) by (cbn; unfold few; cbn; lia).
  destruct (sticky_run_few h0 _ F0) as (c' & rel' & E' & Fc & Cc). rewrite H0 in E'. injection E' as <- <-. cbn in Cc.
  destruct (step_sticky_cases c (EvKeymap (KmResolvedKeyOutput i ko)) Fc) as (c1 & kes & E & F & Cf & A & B & C & _).
  specialize (C Ha). rewrite Cc in Cf.
  destruct (sticky_modifying c1 i h F) as (c2 & E2 & F2 & P2 & C2 & more & A2); [now rewrite B|exact C|now rewrite Cf|].
  rewrite Cf in C2. rewrite B in A2.
  destruct (step_sticky_cases c2 last F2) as (c3 & kes3 & E3 & _ & _ & HC).
  exists c2, c3. cbn [sticky_run]. rewrite E. cbn [bind]. rewrite E2. cbn [bind]. rewrite A. split; [reflexivity|]. split; [eauto|].
  rewrite E3. cbn [bind]. rewrite app_nil_r.
  assert (Hne : stx_active c2 <> []) by (rewrite A2; destruct (stx_active c); [congruence|discriminate]).
  destruct Hlast as [->|[Hcf Hl]].
  - rewrite P2 in HC. cbn in HC. rewrite N.eqb_refl, andb_true_r in HC. destruct (stx_active c2); [congruence|]. cbn in HC.
    destruct HC as (-> & -> & _). auto.
  - destruct last as [[k|k|ko'|ko']|j e|kk]; try contradiction. rewrite P2, C2, Hcf in HC. destruct HC as (-> & -> & _). auto.
Qed.

(** The key itself: held alone it does nothing until it is released; then its
    modifiers are activated and the virtual modifiers pressed, once. *)
Theorem C27_sticky_key_tapped : forall d i k ki c h,
  nth_error (kd_sticky d) (N.to_nat i) = Some k ->
  Forall (fun x => ~ types (snd x) /\ snd x <> EvInput (Release ki)) h ->
  held_run d (RSticky i) ki (KsSticky BhSticky) (h ++ [(c, EvInput (Release ki))])
  = Ok (KsSticky BhSticky, [immediate (EvKey ki (CeSticky (ActivateModifiers (sk_mods k))));
                            immediate (EvInput (VirtualKeyPress (mods_key (sk_mods k))))])
  /\ c_new_pressed_key d ki c (RSticky i) = Ok (PkResolved (KsSticky BhSticky), [])
  /\ c_key_output d (RSticky i) (KsSticky BhSticky) = Ok None.
Proof.
  intros d i k ki c h Hk Hh. split; [|split; [reflexivity|]].
  - induction Hh as [|[c0 ev] h [Ht Hr] Hh IH]; cbn [held_run app].
    + cbn. unfold index. rewrite Hk. cbn. now rewrite N.eqb_refl.
    + cbn in Ht, Hr. assert (E : c_update_state d (KsSticky BhSticky) (RSticky i) c0 ki ev = Ok (KsSticky BhSticky, [])).
      { destruct ev as [[x|x|ko|ko]|x [e|e|e|e|e|e|e]|[cb|x ko]]; cbn; unfold index; rewrite ?Hk; cbn; try reflexivity.
        - destruct (x =? ki) eqn:E; [apply N.eqb_eq in E; congruence|reflexivity].
        - exfalso. apply Ht. exact I. }
      rewrite E. cbn [bind]. rewrite IH. reflexivity.
  - cbn. unfold index. now rewrite Hk.
Qed.
(** Held while another key types, it is a modifier held down, and releasing it
    activates nothing. *)
Theorem C27_sticky_key_held : forall d i k ki h h' c x ko,
  nth_error (kd_sticky d) (N.to_nat i) = Some k ->
  Forall (fun y => snd y <> EvInput (Release ki)) h ->
  held_run d (RSticky i) ki (KsSticky BhSticky) (h ++ (c, EvKeymap (KmResolvedKeyOutput x ko)) :: h') = Ok (KsSticky BhRegular, [])
  /\ c_key_output d (RSticky i) (KsSticky BhRegular) = Ok (Some (mods_key (sk_mods k))).
Proof.
  intros d i k ki h h' c x ko Hk Hh. split; [|cbn; unfold index; now rewrite Hk].
  assert (R : forall l, held_run d (RSticky i) ki (KsSticky BhRegular) l = Ok (KsSticky BhRegular, [])).
  { induction l as [|[c0 ev] l IH]; [reflexivity|]. cbn [held_run].
    assert (E : c_update_state d (KsSticky BhRegular) (RSticky i) c0 ki ev = Ok (KsSticky BhRegular, [])).
    { destruct ev as [[y|y|ko'|ko']|y [e|e|e|e|e|e|e]|[cb|y ko']]; cbn; unfold index; rewrite ?Hk; reflexivity. }
    rewrite E. cbn [bind]. rewrite IH. reflexivity. }
  induction Hh as [|[c0 ev] h Hr Hh IH]; cbn [held_run app].
  - cbn. unfold index. rewrite Hk. cbn. now rewrite R.
  - cbn in Hr. assert (E : c_update_state d (KsSticky BhSticky) (RSticky i) c0 ki ev = Ok (KsSticky BhSticky, [])
      \/ c_update_state d (KsSticky BhSticky) (RSticky i) c0 ki ev = Ok (KsSticky BhRegular, [])).
    { destruct ev as [[y|y|ko'|ko']|y [e|e|e|e|e|e|e]|[cb|y ko']]; cbn; unfold index; rewrite ?Hk; cbn; auto.
      destruct (y =? ki) eqn:E; [apply N.eqb_eq in E; congruence|auto]. }
    destruct E as [E|E]; rewrite E; cbn [bind]; [rewrite IH|rewrite R]; reflexivity.
Qed.

(** A fifth modifier is pressed but never released: tapping a sticky shift five
    times and typing A leaves a virtual shift behind. *)
Theorem C27_five_refuted :
  returns (run_ops sample 2000 ((P 5 :: ticks 2 ++ Rl 5 :: ticks 4) ++ (P 5 :: ticks 2 ++ Rl 5 :: ticks 4)
      ++ (P 5 :: ticks 2 ++ Rl 5 :: ticks 4) ++ (P 5 :: ticks 2 ++ Rl 5 :: ticks 4) ++ (P 5 :: ticks 2 ++ Rl 5 :: ticks 4)
      ++ (P 0 :: ticks 3) ++ (Rl 0 :: ticks 20)) (km_new sample_ctx))
    (fun k => km_pressed k = [PiVirtual (mods_key 2)] /\ km_inq k = [] /\ stx_active (cx_sticky (km_ctx k)) = []).
Proof. vm_compute. repeat split; reflexivity. Qed.
(** Two are fine. *)
Example C27_example :
  returns (run_ops sample 2000 ((P 5 :: ticks 2 ++ Rl 5 :: ticks 4) ++ (P 20 :: ticks 2 ++ Rl 20 :: ticks 4) ++ (P 0 :: ticks 3))
      (km_new sample_ctx)) (fun k => km_pressed_keys sample k = Ok [mods_key 2; mods_key 1; mkKO (Keyboard 4) 0]
        /\ stx_active (cx_sticky (km_ctx k)) = [2; 1])
  /\ returns (run_ops sample 2000 ((P 5 :: ticks 2 ++ Rl 5 :: ticks 4) ++ (P 20 :: ticks 2 ++ Rl 20 :: ticks 4) ++ (P 0 :: ticks 3)
      ++ (Rl 0 :: ticks 5)) (km_new sample_ctx)) (fun k => km_pressed k = [] /\ stx_active (cx_sticky (km_ctx k)) = [])
  /\ at_most_four sticky_config_default [EvKey 5 (CeSticky (ActivateModifiers 2)); EvInput (Release 3)].
Proof.
  split; [vm_compute; repeat split; reflexivity|split; [vm_compute; repeat split; reflexivity|]].
  intros [|x [|y h1]] j m h2 c rel E H; cbn in E.
  - cbn. lia.
  - injection E as <- E2 _. discriminate.
  - injection E as _ _ E2. destruct h1; discriminate.
Qed.

Print Assumptions C28_caps_word.
Print Assumptions C28_shift_held.
Print Assumptions C28_composite.
Print Assumptions C27_balance.
Print Assumptions C27_wait.
Print Assumptions C27_let_go.
Print Assumptions C27_sticky_key_tapped.
Print Assumptions C27_sticky_key_held.
Print Assumptions C27_five_refuted.
