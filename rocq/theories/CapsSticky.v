(** C50, C51: the ledger of the virtual keys of caps word and sticky modifiers. *)
From Verif Require Import BaseFacts Output Types Scheduler Keymap SimpleKeys TapHold TapDance Sticky CapsWord
  Layered Automation Chorded Composite SpecKeymap SpecComposite CompositeFacts CtxFacts KeymapQueue KeymapSafe KeymapLedger
  ReporterFacts SpecReport ReportFacts SpecVirtual.
Local Open Scope N_scope.

Lemma ko_eqb_sym a b : ko_eqb a b = ko_eqb b a.
Proof.
  destruct (ko_eqb a b) eqn:E1, (ko_eqb b a) eqn:E2; try reflexivity; [apply ko_eqb_eq in E1|apply ko_eqb_eq in E2]; subst.
  - now rewrite (proj2 (ko_eqb_eq _ _) eq_refl) in E2.
  - now rewrite (proj2 (ko_eqb_eq _ _) eq_refl) in E1.
Qed.
Lemma ko_eqb_refl a : ko_eqb a a = true.
Proof. now apply ko_eqb_eq. Qed.

Local Arguments ko_from_key_code : simpl never. Local Arguments ko_eqb : simpl never. Local Arguments mods_output : simpl never.
Section CapsSticky.
Variables (refs : list ref) (d : key_data) (pos : position_fn) (dbg : bool) (cf : automation_config) (ops : list op).
Local Notation conf := (cconf refs d pos dbg).
Variable ko : key_output.
(** [exact]: the books balance to the unit, with room for another sticky modifier;
    [used]: a sticky key presses [ko]. *)
Variables (exact used : bool).
Hypothesis Hmacro : macros_leave refs d (auc_instructions cf) ko.
Hypothesis Hused : used = false -> ~ sticky_for refs d ko.

Local Notation R := (EvInput (VirtualKeyRelease ko) : event cev).
Local Notation Pr := (EvInput (VirtualKeyPress ko) : event cev).
Definition lsft : bool := ko_eqb ko (mods_output 2).
Definition markc (e : cev) : bool := match e with CeCapsWord _ => lsft | CeSticky _ => true | _ => false end.
Definition Ac (c : cctx) : nat := caps_share ko (cwx_active (cx_caps_word c)).
Definition Sc (c : cctx) : nat := sticky_share ko (stx_active (cx_sticky c)).
Definition for_ko (m : modifiers) : bool := ko_eqb ko (mods_output m).
Definition roomc (c : cctx) : Prop := exact = true -> used = true -> (length (stx_active (cx_sticky c)) < MAX_STICKY_MODIFIERS)%nat.

(** What may be about to be handled besides releases. *)
Inductive mid (c : cctx) : list (event cev) -> nat -> nat -> Prop :=
| MdNone : mid c [] 0 0
| MdTyped i x : mid c [EvKeymap (KmResolvedKeyOutput i x)] 0 0
| MdOn i : lsft = true -> cwx_active (cx_caps_word c) = false -> mid c [EvKey i (CeCapsWord EnableCapsWord)] 0 0
| MdOff i : lsft = true -> cwx_active (cx_caps_word c) = true -> mid c [EvKey i (CeCapsWord DisableCapsWord)] 0 0
| MdPress : mid c [Pr] 1 0
| MdOther i m : for_ko m = false -> mid c [EvKey i (CeSticky (ActivateModifiers m))] 0 0
| MdStick i m : for_ko m = true -> used = true -> roomc c -> mid c [EvKey i (CeSticky (ActivateModifiers m)); Pr] 1 1.
Definition cmp (a b : nat) : Prop := if exact then a = b else (b <= a)%nat.
Definition balc (b : bool) (c : cctx) (v w h : nat) (q : list (event cev)) : Prop :=
  exists r1 m np na r2, q = repeat R r1 ++ m ++ repeat R r2 /\ (b = true -> m = []) /\ mid c m np na
  /\ (w + h + r1 <= v)%nat /\ cmp (v + np) (Ac c + Sc c + na + r1 + r2 + w + h)
  /\ (used = false -> Sc c = 0%nat /\ w = 0%nat /\ (b = true -> h = 0%nat /\ q = [])).
Definition caps_ledger : @ledger cctx cev := mkLedger markc balc roomc.
Local Notation F := (report_parts refs d cf ops).
Local Notation matter := (KeymapLedger.matter ko caps_ledger).
Local Notation matters := (KeymapLedger.matters ko caps_ledger).
Local Notation prompt := (KeymapLedger.prompt ko caps_ledger).

Lemma cmp_ge a b : cmp a b -> (b <= a)%nat.
Proof. unfold cmp. destruct exact; lia. Qed.
Ltac cmps := unfold cmp in *; destruct exact; lia.

Lemma calm_nil : prompt [] /\ matter [] = [].
Proof. split; [constructor|reflexivity]. Qed.
Lemma calm_app a b : (prompt a /\ matter a = []) -> prompt b -> prompt (a ++ b) /\ matter (a ++ b) = matter b.
Proof.
  intros [A1 A2] B. split; [unfold KeymapLedger.prompt in *; apply Forall_app; auto|].
  unfold KeymapLedger.matter in *. rewrite map_app, filter_app, A2. reflexivity.
Qed.
Lemma calm_all (kes : key_events cev) : Forall (fun se => matters (se_event se) = false) kes -> prompt kes /\ matter kes = [].
Proof.
  intros H. split.
  - eapply Forall_impl; [|exact H]. cbn. intros se E E'. congruence.
  - unfold KeymapLedger.matter. induction H as [|se l E _ IH]; cbn; [reflexivity|]. now rewrite E.
Qed.
Lemma prompt_imm (l : list (event cev)) : prompt (map immediate l).
Proof. unfold KeymapLedger.prompt. induction l; constructor; auto. Qed.

(** Macros leave the virtual key alone. *)
Lemma execute_calm c ki c' kes h t : aux_config c = cf -> aux_queue c = h :: t -> exec_is_empty h = false ->
  Forall (slot_fine refs d) (aux_queue c) -> execute_head c ki = Ok (c', kes) ->
  Forall (fun se => matters (se_event se) = false) (ke_map CeAutomation kes).
Proof.
  intros Hc Hq Hh Hs H. unfold execute_head in H. rewrite Hq in *. rewrite Hc in *. inv_bind H.
  inversion Hs as [|? ? [S1|(e0 & S1 & S2)] St]; subst; [congruence|].
  assert (Hlen : 0 < ex_length h) by (unfold exec_is_empty in Hh; apply N.eqb_neq in Hh; lia).
  assert (Ha : Forall (fun se => matters (se_event se) = false) (ke_map CeAutomation a)).
  { unfold key_events_for in E. inv_bind E. inv_ok E. apply index_ok in E0.
    assert (Hty : forall x, a0 = InPress x \/ a0 = InTap x \/ a0 = InRelease x -> ko_eqb x ko = false).
    { intros x Hx. destruct (ko_eqb x ko) eqn:Ex; [|reflexivity]. apply ko_eqb_eq in Ex. subst x. exfalso.
      destruct S1 as (j & k & O1 & O2 & O3). apply (Hmacro _ _ _ O1 O2 O3 a0 Hx).
      destruct S2 as [S2 S3]. exists (ex_start h). split; [exact S2|]. split; [|exact E0]. unfold u16 in *; lia. }
    assert (Hn : forall b, matters (map_event CeAutomation (EvKey ki (if 1 <? b then AuNextInstruction else AuExecutionFinished))) = false)
      by (intros b; destruct (1 <? b); reflexivity).
    destruct a0; cbn; repeat (apply Forall_cons || apply Forall_nil); try apply Hn; apply Hty; auto. }
  destruct (exec_is_empty (exec_incr h)).
  - destruct (t ++ [exec_empty]) as [|h2 t2]; [discriminate|]. destruct (exec_is_empty h2); [inv_ok H; exact Ha|].
    inv_bind H. inv_ok H. apply push_cap_ok in E0 as [-> _]. unfold ke_map. rewrite map_app. apply Forall_app.
    split; [exact Ha|]. repeat constructor.
  - inv_ok H. exact Ha.
Qed.
Lemma automation_calm c ev c' kes : ctx_fine refs d cf c -> ev_fine refs d cf ops ev ->
  step_automation (cx_automation c) ev = Ok (c', kes) -> prompt kes /\ matter kes = [].
Proof.
  intros HC He H. apply calm_all. unfold step_automation in H. destruct ev as [ie|ki e|m]; cbn [try_event] in H.
  - cbn in H. inv_ok H. constructor.
  - destruct e as [e|e|e|e|e|e|e]; cbn [as_automation] in H; try (inv_ok H; constructor). inv_bind H. destruct a as [c2 ke]. inv_ok H.
    destruct e as [e| |]; cbn in E.
    + destruct (exec_is_empty e) eqn:Ee; [inv_ok E; constructor|].
      assert (Hs : slot_fine refs d e) by (right; exists e; split; [exact He|split; lia]).
      destruct (auto_head_empty (cx_automation c)) eqn:Eh.
      * unfold auto_enqueue in *. rewrite Ee in *. destruct (fill_head _ _ Ee Eh) as [Eq|[t Eq]].
        -- unfold execute_head in E. cbn in E. rewrite Eq in E. discriminate.
        -- eapply execute_calm in E; [exact E|apply HC|exact Eq|exact Ee|]. apply fill_fine; [apply HC|exact Hs].
      * inv_ok E. constructor.
    + destruct (auto_head_empty (cx_automation c)) eqn:Eh; [inv_ok E; constructor|]. unfold auto_head_empty in Eh.
      destruct (aux_queue (cx_automation c)) as [|h t] eqn:Eq; [discriminate|]. eapply execute_calm in E; [exact E|apply HC|exact Eq|exact Eh|apply HC].
    + inv_ok E. constructor.
  - cbn in H. inv_ok H. constructor.
Qed.

Lemma left_shift_code : ko_from_key_code 0xE1 = mods_output 2.
Proof. reflexivity. Qed.

(** What the caps word context does. *)
Lemma caps_step c ev c' kes : step_caps_word c ev = (c', kes) ->
  prompt kes
  /\ (matters ev = false \/ is_input ev = true ->
      matter kes = [] /\ caps_share ko (cwx_active c') = caps_share ko (cwx_active c) /\ (lsft = true -> cwx_active c' = cwx_active c))
  /\ match ev with
     | EvKeymap (KmResolvedKeyOutput _ _) =>
         (matter kes = [] /\ caps_share ko (cwx_active c') = caps_share ko (cwx_active c))
         \/ (matter kes = [R] /\ caps_share ko (cwx_active c) = 1%nat /\ caps_share ko (cwx_active c') = 0%nat)
     | EvKey _ (CeCapsWord EnableCapsWord) => lsft = true -> matter kes = [Pr] /\ cwx_active c' = true
     | EvKey _ (CeCapsWord DisableCapsWord) => lsft = true -> matter kes = [R] /\ cwx_active c' = false
     | EvKey _ (CeSticky _) => matter kes = [] /\ cwx_active c' = cwx_active c
     | _ => True
     end.
Proof.
  intros H. unfold step_caps_word in H.
  assert (H0 : (c', kes) = (c, []) -> prompt kes /\ matter kes = [] /\ c' = c)
    by (intros X; injection X as -> ->; split; [constructor|split; reflexivity]).
  destruct ev as [ie|ki e|m]; cbn [try_event] in H.
  - cbn in H. destruct (H0 (eq_sym H)) as (A & B & ->). auto.
  - destruct e as [e|e|e|e|e|e|e]; cbn [as_caps_word] in H; try (destruct (H0 (eq_sym H)) as (A & B & ->); now auto).
    destruct e; cbn in H; injection H as <- <-; (split; [repeat constructor|]).
    + unfold caps_share, KeymapLedger.matter. cbn -[ko_eqb]. rewrite left_shift_code, (ko_eqb_sym (mods_output 2) ko).
      change (ko_eqb ko (mods_output 2)) with lsft. destruct lsft eqn:El.
      * split; [intros [X|X]; discriminate|]. intros _. unfold lsft in El. apply ko_eqb_eq in El. rewrite <- El. auto.
      * split; [intros _; split; [reflexivity|split; [reflexivity|discriminate]]|discriminate].
    + unfold caps_share, KeymapLedger.matter. cbn -[ko_eqb]. rewrite left_shift_code, (ko_eqb_sym (mods_output 2) ko).
      change (ko_eqb ko (mods_output 2)) with lsft. destruct lsft eqn:El.
      * split; [intros [X|X]; discriminate|]. intros _. unfold lsft in El. apply ko_eqb_eq in El. rewrite <- El. auto.
      * split; [intros _; split; [reflexivity|split; [reflexivity|discriminate]]|discriminate].
  - cbn in H. destruct m as [cb|i x]; [destruct (H0 (eq_sym H)) as (A & B & ->); now auto|].
    split; [|split; [intros [X|X]; discriminate|]].
    + destruct (cwx_active c); [|injection H as <- <-; constructor].
      destruct (ko_usage x); try (injection H as <- <-; constructor).
      destruct (cw_exits _ _); injection H as <- <-; repeat constructor.
    + destruct (cwx_active c) eqn:Ea; [|injection H as <- <-; left; rewrite Ea; auto].
      destruct (ko_usage x); try (injection H as <- <-; left; rewrite Ea; now auto).
      destruct (cw_exits _ _); injection H as <- <-; [|left; rewrite Ea; now auto].
      unfold caps_share, KeymapLedger.matter. cbn -[ko_eqb]. rewrite left_shift_code, (ko_eqb_sym (mods_output 2) ko).
      destruct (ko_eqb ko (mods_output 2)) eqn:El; [right|left; auto]. apply ko_eqb_eq in El. rewrite <- El. auto.
Qed.

(** What the sticky context does. *)
Lemma releases_matter l : matter (ke_map CeSticky (@st_release_events st_event l)) = repeat R (sticky_share ko l)
  /\ prompt (ke_map CeSticky (@st_release_events st_event l)).
Proof.
  split; [|unfold KeymapLedger.prompt, ke_map, st_release_events; rewrite !Forall_map; apply Forall_forall; intros; reflexivity].
  unfold KeymapLedger.matter, sticky_share. induction l as [|m l IH]; [reflexivity|]. cbn -[ko_eqb] in *.
  change (ko_from_key_modifiers m) with (mods_output m). rewrite (ko_eqb_sym (mods_output m) ko).
  destruct (ko_eqb ko (mods_output m)) eqn:E; cbn -[ko_eqb]; [|exact IH]. apply ko_eqb_eq in E. rewrite <- E. now f_equal.
Qed.
Lemma sticky_step c ev c' kes : step_sticky c ev = Ok (c', kes) ->
  prompt kes
  /\ (matters ev = false \/ is_input ev = true ->
      (matter kes = [] /\ stx_active c' = stx_active c)
      \/ (matter kes = repeat R (sticky_share ko (stx_active c)) /\ stx_active c' = []))
  /\ match ev with
     | EvKeymap (KmResolvedKeyOutput _ _) => matter kes = [] /\ stx_active c' = stx_active c
     | EvKey _ (CeCapsWord _) => matter kes = [] /\ stx_active c' = stx_active c
     | EvKey _ (CeSticky (ActivateModifiers m)) => matter kes = [] /\
         stx_active c' = if (length (stx_active c) <? MAX_STICKY_MODIFIERS)%nat then stx_active c ++ [m] else stx_active c
     | _ => True
     end.
Proof.
  intros H. unfold step_sticky in H.
  assert (H0 : (c', kes) = (c, []) -> prompt kes /\ matter kes = [] /\ c' = c)
    by (intros X; injection X as -> ->; split; [constructor|split; reflexivity]).
  destruct ev as [ie|ki e|m]; cbn [try_event] in H.
  - inv_bind H. destruct a as [c2 k2]. inv_ok H. unfold st_handle_event in E. cbv zeta in E.
    assert (Hr : forall x, ke_extend [] (@st_release_events st_event (stx_active c)) = Ok x ->
      prompt (ke_map CeSticky x) /\ matter (ke_map CeSticky x) = repeat R (sticky_share ko (stx_active c))).
    { intros x Hx. apply push_all_cap_ok in Hx as [-> _]. cbn [app]. destruct (releases_matter (stx_active c)). auto. }
    destruct ie as [i|i|x|x].
    + destruct (stx_pressed c); [destruct (stc_release (stx_config c))|]; try (inv_ok E; split; [constructor|split; [left; auto|exact I]]).
      inv_bind E. inv_ok E. destruct (Hr _ E0). split; [assumption|]. split; [right; auto|exact I].
    + destruct (stx_active c) eqn:Ea; [inv_ok E; split; [constructor|split; [left; auto|exact I]]|].
      destruct (opt_eqb _ _ _); [|inv_ok E; split; [constructor|split; [left; auto|exact I]]].
      inv_bind E. inv_ok E. destruct (Hr _ E0). split; [assumption|]. split; [right; auto|exact I].
    + inv_ok E. split; [constructor|split; [left; auto|exact I]].
    + inv_ok E. split; [constructor|split; [left; auto|exact I]].
  - destruct e as [e|e|e|e|[m]|e|e]; cbn [as_sticky] in H; try (inv_ok H; split; [constructor|split; [left; auto|auto]]).
    inv_bind H. destruct a as [c2 k2]. inv_ok H. cbn [st_handle_event] in E. cbv zeta in E. destruct (length (stx_active c) <? MAX_STICKY_MODIFIERS)%nat eqn:El; inv_ok E; (split; [constructor|]);
      (split; [intros [X|X]; discriminate|rewrite ?El; split; reflexivity]).
  - inv_bind H. destruct a as [c2 k2]. inv_ok H. cbn in E. destruct m as [cb|i x].
    + inv_ok E. split; [constructor|]. split; [left; auto|exact I].
    + destruct (stx_active c) eqn:Ea; inv_ok E; (split; [constructor|]); (split; [intros [X|X]; discriminate|rewrite ?Ea; auto]).
Qed.

Lemma share_snoc l m : sticky_share ko (l ++ [m]) = (sticky_share ko l + if for_ko m then 1 else 0)%nat.
Proof. unfold sticky_share, for_ko. rewrite filter_app, app_length. cbn. now destruct (ko_eqb _ _). Qed.
Lemma repeat_snoc (x : event cev) n k : repeat x n ++ repeat x k = repeat x (n + k).
Proof. now rewrite repeat_app. Qed.

Lemma caps_ctx c ev c' kes : ctx_fine refs d cf c -> ev_fine refs d cf ops ev -> cctx_handle_event c ev = Ok (c', kes) ->
  prompt kes /\ forall b v w h q,
    (matters ev = false \/ is_input ev = true -> balc b c v w h q -> balc b c' v w h (q ++ matter kes))
    /\ (matters ev = true -> is_input ev = false -> balc false c v w h (ev :: q) -> balc false c' v w h (q ++ matter kes)).
Proof.
  intros Hc He H. apply cctx_inv in H as (k1 & k2 & k5 & S1 & S2 & _ & _ & S5 & _ & _ & -> & _).
  pose proof (automation_calm _ _ _ _ Hc He S1) as A. apply caps_step in S2 as (B1 & B2 & B3). apply sticky_step in S5 as (C1 & C2 & C3).
  assert (Hp : prompt (k2 ++ k5)) by (unfold KeymapLedger.prompt in *; apply Forall_app; auto).
  destruct (calm_app k1 (k2 ++ k5) A Hp) as [D1 D2]. split; [exact D1|]. rewrite D2.
  replace (matter (k2 ++ k5)) with (matter k2 ++ matter k5) by (unfold KeymapLedger.matter; now rewrite map_app, filter_app).
  clear A D1 D2 Hp S1 B1 C1. intros b v w h q. split.
  - intros Hm (r1 & m & np & na & r2 & -> & Hb & Hmid & Hv & Heq & Hu). destruct (B2 Hm) as (B4 & B5 & B6). rewrite B4. cbn [app].
    assert (Hmid' : (length (stx_active (cx_sticky c')) <= length (stx_active (cx_sticky c)))%nat -> mid c' m np na).
    { intros Hl. inversion Hmid; subst; try (constructor; auto; rewrite B6; assumption); try (constructor; auto).
      intros X Y. match goal with G : roomc c |- _ => specialize (G X Y) end. lia. }
    destruct (C2 Hm) as [(C4 & C5)|(C4 & C5)].
    + rewrite C4, app_nil_r. exists r1, m, np, na, r2. split; [reflexivity|]. split; [exact Hb|]. split; [apply Hmid'; rewrite C5; lia|].
      unfold Ac, Sc in *. rewrite B5, C5. auto.
    + change (sticky_share ko (stx_active (cx_sticky c))) with (Sc c) in C4. rewrite C4, <- !app_assoc, repeat_snoc. exists r1, m, np, na, (r2 + Sc c)%nat. split; [reflexivity|].
      split; [exact Hb|]. split; [apply Hmid'; rewrite C5; cbn; lia|]. split; [exact Hv|].
      assert (Z : Sc c' = 0%nat) by (unfold Sc; rewrite C5; reflexivity). rewrite Z.
      split; [unfold Ac in *; rewrite B5; cmps|]. intros X. destruct (Hu X) as (U1 & U2 & U3). rewrite U1, Nat.add_0_r. auto.
  - intros Hm Hi (r1 & m & np & na & r2 & Hq & Hb & Hmid & Hv & Heq & Hu).
    assert (Hr1 : r1 = 0%nat) by (destruct r1; [reflexivity|cbn in Hq; injection Hq as -> _; discriminate Hi]). subst r1. cbn in Hq.
    destruct m as [|e m]; [destruct r2; [discriminate|cbn in Hq; injection Hq as -> _; discriminate Hi]|].
    injection Hq as -> ->. assert (Hu' : used = false -> Sc c = 0%nat /\ w = 0%nat) by (intros X; destruct (Hu X) as (? & ? & _); auto).
    inversion Hmid as [|i x|i Hl Hon|i Hl Hon| |i m0 Hk|i m0 Hk Hus Hrm]; subst.
    + (* typed *) destruct C3 as [C4 C5]. rewrite C4, app_nil_r. cbn [app]. assert (Es : Sc c' = Sc c) by (unfold Sc; now rewrite C5).
      destruct B3 as [(B4 & B5)|(B4 & B5 & B6)]; rewrite B4.
      * exists 0%nat, [], 0%nat, 0%nat, r2. rewrite app_nil_r. split; [reflexivity|]. split; [auto|]. split; [constructor|].
        split; [lia|]. split; [unfold Ac in *; rewrite B5, Es; cmps|]. rewrite Es. intros X. destruct (Hu' X). repeat split; auto; discriminate.
      * exists 0%nat, [], 0%nat, 0%nat, (r2 + 1)%nat. cbn [app]. rewrite <- repeat_snoc. split; [reflexivity|]. split; [auto|]. split; [constructor|].
        split; [lia|]. unfold Ac in *. split; [rewrite B6, Es; rewrite B5 in Heq; cmps|]. rewrite Es. intros X. destruct (Hu' X). repeat split; auto; discriminate.
    + (* on *) destruct C3 as [C4 C5]. rewrite C4, app_nil_r. cbn [app]. assert (Es : Sc c' = Sc c) by (unfold Sc; now rewrite C5).
      destruct (B3 Hl) as [B4 B5]. rewrite B4. pose proof (cmp_ge _ _ Heq) as Hge.
      exists r2, [Pr], 1%nat, 0%nat, 0%nat. cbn [app repeat]. split; [reflexivity|]. split; [discriminate|]. split; [constructor|].
      unfold Ac, caps_share in *. unfold lsft in Hl. rewrite Hl in *. rewrite B5. rewrite Hon in *. rewrite Es.
      split; [lia|]. split; [cmps|]. intros X. destruct (Hu' X). repeat split; auto; discriminate.
    + (* off *) destruct C3 as [C4 C5]. rewrite C4, app_nil_r. cbn [app]. assert (Es : Sc c' = Sc c) by (unfold Sc; now rewrite C5).
      destruct (B3 Hl) as [B4 B5]. rewrite B4. pose proof (cmp_ge _ _ Heq) as Hge.
      exists 0%nat, [], 0%nat, 0%nat, (r2 + 1)%nat. cbn [app]. rewrite <- repeat_snoc. split; [reflexivity|]. split; [auto|]. split; [constructor|].
      unfold Ac, caps_share in *. unfold lsft in Hl. rewrite Hl in *. rewrite B5. rewrite Hon in *. rewrite Es.
      split; [lia|]. split; [cmps|]. intros X. destruct (Hu' X). repeat split; auto; discriminate.
    + discriminate Hi.
    + (* another modifier *) destruct C3 as [C4 C5]. destruct B3 as [B4 B5]. rewrite B4, C4. cbn [app]. rewrite !app_nil_r.
      assert (Es : Sc c' = Sc c). { unfold Sc. rewrite C5. destruct (_ <? _)%nat; [|reflexivity]. rewrite share_snoc, Hk. lia. }
      exists 0%nat, [], 0%nat, 0%nat, r2. split; [reflexivity|]. split; [auto|]. split; [constructor|].
      unfold Ac in *. rewrite B5, Es. split; [lia|]. split; [cmps|]. intros X. destruct (Hu' X). repeat split; auto; discriminate.
    + (* this modifier *) destruct C3 as [C4 C5]. destruct B3 as [B4 B5]. rewrite B4, C4. cbn [app]. rewrite !app_nil_r.
      exists 0%nat, [Pr], 1%nat, 0%nat, r2. split; [reflexivity|]. split; [discriminate|]. split; [constructor|].
      unfold Ac in *. rewrite B5. split; [lia|]. split; [|intros X; congruence].
      unfold Sc in *. rewrite C5. destruct (_ <? _)%nat eqn:El.
      * rewrite share_snoc, Hk. cmps.
      * unfold cmp in *. destruct exact eqn:Ex; [|lia]. specialize (Hrm Ex Hus). apply Nat.ltb_ge in El. lia.
Qed.

(** What keys emit. *)
Lemma calm_kind {A} (f : A -> cev) (kes : key_events A) : (forall e, markc (f e) = false) ->
  Forall (fun se => match se_event se with EvKey _ _ | EvKeymap (KmCallback _) => True | _ => False end) kes ->
  Forall (fun se => matters (se_event se) = false) (ke_map f kes).
Proof.
  intros Hf H. unfold ke_map. apply Forall_map. eapply Forall_impl; [|exact H]. intros [s [ie|j e|[cb|i x]]]; cbn; try contradiction; auto.
Qed.
Lemma other_keys i c r x kes : (r <> RCapsWord) -> c_new_pressed_key d i c r = Ok (x, kes) -> Forall (fun se => matters (se_event se) = false) kes.
Proof.
  intros Hr. destruct r as [m|m| |cr|m|m|m|[m|m]|m|m|m|m]; cbn; intros H.
  - inv_bind H. destruct a as [p y]. inv_ok H. unfold auto_new_pressed_key in E. inv_bind E. inv_ok E.
    apply calm_kind; [reflexivity|]. repeat constructor.
  - unfold callback_new_pressed_key in H. inv_bind H. inv_ok H. repeat constructor.
  - now destruct Hr.
  - inv_bind H. destruct a as [p y]. inv_ok H. apply calm_kind; [reflexivity|]. destruct cr as [m|m]; cbn in E; inv_bind E.
    + unfold chk_new_pressed_key in E. inv_bind E. destruct (ch_initial_resolution _ _); [inv_bind E|]; inv_ok E; repeat constructor.
    + unfold cha_new_pressed_key in E. inv_bind E. destruct (ch_initial_resolution _ _); inv_ok E; repeat constructor.
  - inv_ok H. constructor.
  - inv_ok H. constructor.
  - inv_ok H. constructor.
  - inv_bind H. destruct a as [p y]. inv_ok H. inv_bind E. destruct (lm_new_pressed_key a) as [b e]. inv_ok E. repeat constructor.
  - inv_bind H. destruct a as [p y]. inv_ok H. inv_bind E. inv_bind E. inv_ok E. constructor.
  - inv_ok H. constructor.
  - inv_ok H. constructor.
  - inv_ok H. repeat constructor.
  - inv_bind H. destruct a as [p y]. inv_ok H. unfold th_new_pressed_key in E.
    destruct (thc_required_idle _) as [q|]; [destruct (q <=? _)|]; try inv_bind E; inv_ok E; repeat constructor.
Qed.
Lemma waiting_keys i c r ps ev x kes : c_update_pending d ps i c r ev = Ok (x, kes) -> Forall (fun se => matters (se_event se) = false) kes.
Proof.
  unfold c_update_pending. intros H. destruct r as [j|j| |r|r|r|r|r|r|j|j|j]; try discriminate; destruct ps as [p|p|p]; try discriminate.
  - destruct (try_event as_chorded ev) as [e|]; [|inv_ok H; constructor]. inv_bind H. destruct a as [[p2 m] ke]. inv_ok H.
    apply calm_kind; [reflexivity|]. destruct r as [j|j]; cbn in E; inv_bind E.
    + unfold chk_update_pending in E. inv_bind E. destruct a0 as [p3 o]. destruct o; [inv_bind E|]; inv_ok E; repeat constructor.
    + unfold cha_update_pending in E. inv_bind E. destruct a0 as [p3 o]. destruct o; inv_ok E; repeat constructor.
  - destruct (try_event as_tap_dance ev) as [e|]; [|inv_ok H; constructor]. inv_bind H. destruct a as [[p2 m] ke]. inv_ok H.
    apply calm_kind; [reflexivity|]. unfold td_update_pending in E. inv_bind E. inv_bind E. destruct a0 as [[p3 o] ke3].
    assert (G : Forall (fun se => match se_event se with EvKey _ _ | EvKeymap (KmCallback _) => True | _ => False end) ke3)
      by (clear - E1; unfold td_handle_event in E1; runs E1; repeat constructor).
    destruct o as [idx|]; [inv_bind E; inv_ok E; exact G|]. destruct (td_count a) as [|m']; [discriminate|].
    destruct (m' <=? _)%nat; [inv_bind E|]; inv_ok E; exact G.
  - destruct (try_event as_tap_hold ev) as [e|]; [|inv_ok H; constructor]. inv_bind H. destruct a as [[p2 m] ke]. inv_ok H.
    apply calm_kind; [reflexivity|]. unfold th_update_pending, th_handle_event in E. destruct (hold_resolution _ _ _ _); [inv_bind E|]; inv_ok E; constructor.
Qed.
Lemma state_keys i c r ks ev ks' kes : key_at refs d i r -> c_update_state d ks r c i ev = Ok (ks', kes) ->
  prompt kes /\ (matter kes = []
   \/ (ev = EvInput (Release i) /\ exists m, matter kes = EvKey i (CeSticky (ActivateModifiers m)) :: (if for_ko m then [Pr] else [])
       /\ (for_ko m = true -> used = true))).
Proof.
  intros Hk H. unfold c_update_state in H.
  assert (G : forall l : key_events cev, Forall (fun se => matters (se_event se) = false) l -> prompt l /\ (matter l = []
   \/ (ev = EvInput (Release i) /\ exists m, matter l = EvKey i (CeSticky (ActivateModifiers m)) :: (if for_ko m then [Pr] else [])
       /\ (for_ko m = true -> used = true)))) by (intros l Hl; destruct (calm_all l Hl); auto).
  destruct r as [j|j| |r|r|r|r|r|r|j|j|j]; try (inv_ok H; apply G; constructor); destruct ks; try (inv_ok H; apply G; constructor).
  - destruct (try_event as_automation ev) as [e|]; [|inv_ok H; apply G; constructor]. inv_bind H. inv_ok H. apply G.
    apply calm_kind; [reflexivity|]. unfold auto_update_state in E.
    destruct e as [[k|k|y|y]|k [e| |]|m]; try (inv_ok E; constructor); (destruct (i =? k); [inv_bind E|]; inv_ok E; repeat constructor).
  - destruct (try_event as_layered ev) as [e|]; [|inv_ok H; apply G; constructor]. inv_bind H. destruct a as [b' ke]. inv_ok H. apply G.
    apply calm_kind; [reflexivity|]. destruct r as [r|r]; cbn in E; [|inv_ok E; constructor]. inv_bind E.
    destruct (lm_handle_event b i e a) as [b2 o]. inv_ok E. destruct o; repeat constructor.
  - destruct ev as [ie|k e|m]; cbn [try_event] in H.
    + inv_bind H. apply index_ok in E. unfold st_update_state in H. destruct b; [|inv_ok H; apply G; constructor].
      destruct ie as [k|k|y|y]; try (inv_ok H; apply G; constructor). destruct (k =? i) eqn:Ek; [|inv_ok H; apply G; constructor].
      apply N.eqb_eq in Ek. subst k. inv_ok H. split; [repeat constructor|]. right. split; [reflexivity|]. exists (sk_mods a).
      unfold KeymapLedger.matter, for_ko. cbn. change (ko_from_key_modifiers (sk_mods a)) with (mods_output (sk_mods a)).
      rewrite (ko_eqb_sym (mods_output (sk_mods a)) ko). destruct (ko_eqb ko (mods_output (sk_mods a))) eqn:Ek; [|split; [reflexivity|discriminate]].
      apply ko_eqb_eq in Ek. rewrite <- Ek. split; [reflexivity|]. intros _. destruct used eqn:Eu; [reflexivity|].
      destruct (Hused eq_refl). exists j, a. split; [eapply key_offers; exact Hk|]. split; [exact E|now symmetry].
    + destruct e as [e|e|e|e|[m]|e|e]; cbn [as_sticky] in H; try (inv_ok H; apply G; constructor).
      inv_bind H. unfold st_update_state in H. destruct b; inv_ok H; apply G; constructor.
    + inv_bind H. unfold st_update_state in H. destruct b; [|inv_ok H; apply G; constructor]. destruct m; inv_ok H; apply G; constructor.
Qed.

Lemma balc_weak c v w h q : balc true c v w h q -> balc false c v w h q.
Proof.
  intros (r1 & m & np & na & r2 & Hq & Hb & Hm & Hv & He & Hu). exists r1, m, np, na, r2.
  split; [exact Hq|]. split; [discriminate|]. split; [exact Hm|]. split; [exact Hv|]. split; [exact He|].
  intros X. destruct (Hu X) as (U1 & U2 & _). repeat split; auto; discriminate.
Qed.
(** While a key is undecided only releases are about to be handled. *)
Lemma balc_true c v w h q : balc true c v w h q <->
  exists r, q = repeat R r /\ (w + h + r <= v)%nat /\ cmp v (Ac c + Sc c + r + w + h)
  /\ (used = false -> Sc c = 0%nat /\ w = 0%nat /\ h = 0%nat /\ r = 0%nat).
Proof.
  split.
  - intros (r1 & m & np & na & r2 & Hq & Hb & Hm & Hv & He & Hu). specialize (Hb eq_refl). subst m. inversion Hm; subst.
    cbn [app] in *. exists (r1 + r2)%nat. rewrite <- repeat_snoc. split; [reflexivity|]. pose proof (cmp_ge _ _ He).
    split; [lia|]. split; [cmps|]. intros X. destruct (Hu X) as (U1 & U2 & U3). destruct (U3 eq_refl) as [U4 U5].
    repeat split; auto. destruct r1; [destruct r2; [reflexivity|discriminate]|discriminate].
  - intros (r & -> & Hv & He & Hu). exists r, [], 0%nat, 0%nat, 0%nat. cbn [app repeat]. rewrite app_nil_r. split; [reflexivity|].
    split; [reflexivity|]. split; [constructor|]. split; [exact Hv|]. split; [cmps|].
    intros X. destruct (Hu X) as (U1 & U2 & U3 & ->). auto.
Qed.
Lemma balc_add c v w h q m np na : balc true c v w h q -> mid c m np na -> np = na -> balc false c v w h (q ++ m).
Proof.
  intros H Hm ->. apply balc_true in H as (r & -> & Hv & He & Hu). exists r, m, na, na, 0%nat. cbn [repeat]. rewrite app_nil_r.
  split; [reflexivity|]. split; [discriminate|]. split; [exact Hm|]. split; [exact Hv|]. split; [cmps|].
  intros X. destruct (Hu X) as (U1 & U2 & _). repeat split; auto; discriminate.
Qed.

Lemma caps_ledgers : ledgers conf F ko caps_ledger.
Proof.
  constructor; cbn [bal mark room caps_ledger].
  - exact balc_weak.
  - intros c v w (r1 & m & np & na & r2 & Hq & _ & Hm & Hv & He & Hu). symmetry in Hq. apply app_eq_nil in Hq as [Q1 Q2].
    apply app_eq_nil in Q2 as [-> Q3]. assert (r1 = 0%nat) by (destruct r1; [reflexivity|discriminate]).
    assert (r2 = 0%nat) by (destruct r2; [reflexivity|discriminate]). subst. inversion Hm; subst.
    apply balc_true. exists 0%nat. split; [reflexivity|]. split; [lia|]. split; [cmps|]. intros X. destruct (Hu X) as (U1 & U2 & _). auto.
  - intros c v w h q H. apply balc_true in H as (r & -> & _). apply Forall_forall. intros e He. apply repeat_spec in He. exact He.
  - intros i c r x kes Hc Hk H. cbn in Hc, Hk. cbn [kc_sys cconf composite sys_new_pressed_key] in H.
    assert (Hr : r = RCapsWord \/ r <> RCapsWord) by (destruct r; (left; reflexivity) || (right; discriminate)).
    destruct Hr as [->|Hr].
    + cbn in H. inv_ok H. split; [constructor; [reflexivity|constructor]|]. intros v w h q Hb.
      unfold KeymapLedger.matter. cbn. destruct (cwx_active (cx_caps_word c)) eqn:Ea; cbn; destruct lsft eqn:El.
      * eapply balc_add; [exact Hb|now apply MdOff|reflexivity].
      * rewrite app_nil_r. now apply balc_weak.
      * eapply balc_add; [exact Hb|now apply MdOn|reflexivity].
      * rewrite app_nil_r. now apply balc_weak.
    + destruct (calm_all kes (other_keys _ _ _ _ _ Hr H)) as [K1 K2]. split; [exact K1|]. rewrite K2.
      destruct x as [ps|[r'|]|ks]; auto.
      * intros v w h q Hb. rewrite app_nil_r. now apply balc_weak.
      * intros v w h q Hb. rewrite app_nil_r. split; [now apply balc_weak|]. intros o _.
        apply balc_true in Hb as (z & -> & Hv & He & Hu). exists 0%nat, [EvKeymap (KmResolvedKeyOutput i o)], 0%nat, 0%nat, z.
        split; [reflexivity|]. split; [discriminate|]. split; [constructor|]. split; [lia|]. split; [cmps|].
        intros X. destruct (Hu X) as (U1 & U2 & _). repeat split; auto; discriminate.
  - intros i c r ps ev x kes _ _ _ _ H. apply calm_all. exact (waiting_keys _ _ _ _ _ _ _ H).
  - intros i c r ks ev ks' kes _ _ Hk _ H. cbn in Hk. destruct (state_keys _ _ _ _ _ _ _ Hk H) as [K1 [K2|(-> & m & K2 & K3)]].
    + split; [exact K1|now left].
    + split; [exact K1|right]. split; [reflexivity|]. intros v w h q Hr Hb. rewrite K2. destruct (for_ko m) eqn:Em.
      * eapply balc_add; [exact Hb|apply MdStick; auto|reflexivity].
      * eapply balc_add; [exact Hb|apply MdOther; exact Em|reflexivity].
  - intros c ev c' kes Hc He H. exact (caps_ctx _ _ _ _ Hc He H).
  - intros c v w h i x (r1 & m & np & na & r2 & Hq & _ & Hm & Hv & He & Hu). symmetry in Hq. apply app_eq_nil in Hq as [Q1 Q2].
    apply app_eq_nil in Q2 as [-> Q3]. assert (r1 = 0%nat) by (destruct r1; [reflexivity|discriminate]).
    assert (r2 = 0%nat) by (destruct r2; [reflexivity|discriminate]). subst. inversion Hm; subst.
    exists 0%nat, [EvKeymap (KmResolvedKeyOutput i x)], 0%nat, 0%nat, 0%nat. split; [reflexivity|]. split; [discriminate|].
    split; [constructor|]. split; [exact Hv|]. split; [exact He|]. intros X. destruct (Hu X) as (U1 & U2 & _). repeat split; auto; discriminate.
  - intros c v w h q (r1 & m & np & na & r2 & Hq & _ & Hm & Hv & He & Hu). destruct r1; [|discriminate].
    destruct m as [|e m]; [destruct r2; discriminate|]. injection Hq as <- ->. inversion Hm; subst. pose proof (cmp_ge _ _ He).
    exists 0%nat, [], 0%nat, 0%nat, r2. split; [reflexivity|]. split; [auto|]. split; [constructor|]. split; [lia|]. split; [cmps|].
    intros X. destruct (Hu X) as (U1 & U2 & _). repeat split; auto; discriminate.
  - intros b c v w h q (r1 & m & np & na & r2 & Hq & Hb & Hm & Hv & He & Hu). destruct r1 as [|r1].
    + cbn in Hq. destruct m as [|e m].
      * destruct r2 as [|r2]; [discriminate|]. injection Hq as ->. inversion Hm; subst. pose proof (cmp_ge _ _ He).
        exists 0%nat, [], 0%nat, 0%nat, r2. split; [reflexivity|]. split; [auto|]. split; [constructor|]. split; [lia|]. split; [cmps|].
        intros X. destruct (Hu X) as (U1 & U2 & U3). split; [exact U1|]. split; [exact U2|]. intros Y. destruct (U3 Y). discriminate.
      * injection Hq as <- _. inversion Hm.
    + cbn in Hq. injection Hq as ->. exists r1, m, np, na, r2. split; [reflexivity|]. split; [exact Hb|]. split; [exact Hm|].
      split; [lia|]. split; [cmps|].
      intros X. destruct (Hu X) as (U1 & U2 & U3). split; [exact U1|]. split; [exact U2|]. intros Y. destruct (U3 Y). discriminate.
  - intros b c v w h q (r1 & m & np & na & r2 & Hq & Hb & Hm & Hv & He & Hu). exists r1, m, np, na, r2.
    split; [exact Hq|]. split; [exact Hb|]. split; [exact Hm|]. split; [lia|]. split; [cmps|].
    intros X. destruct (Hu X) as (U1 & U2 & U3). split; [exact U1|]. split; [exact U2|]. intros Y. destruct (U3 Y). discriminate.
  - intros c v w h q H. apply balc_true in H as (r & -> & Hv & He & Hu). apply balc_true. exists r. split; [reflexivity|].
    split; [lia|]. split; [cmps|]. intros X. destruct (Hu X) as (U1 & U2 & U3 & U4). discriminate.
  - intros c v w h q H. apply balc_true in H as (r & -> & Hv & He & Hu). apply balc_true. exists r. split; [reflexivity|].
    split; [lia|]. split; [cmps|]. intros X. destruct (Hu X) as (U1 & U2 & U3 & U4). discriminate.
  - intros b c t i v w h q (r1 & m & np & na & r2 & Hq & Hb & Hm & Hv & He & Hu). exists r1, m, np, na, r2.
    split; [exact Hq|]. split; [exact Hb|]. split; [|auto]. inversion Hm; subst; constructor; auto.
  - auto.
Qed.
End CapsSticky.

(** ** In the words of the specification *)
Lemma virt_times ko (k : ckeymap) : virt ko (km_pressed k) = times_pressed ko k.
Proof.
  unfold virt, times_pressed, pressed_shape. induction (km_pressed k) as [|[i r ks|x] l IH]; cbn; [reflexivity|exact IH|].
  destruct (ko_eqb ko x); cbn; congruence.
Qed.
Lemma waiting_releases ko (k : ckeymap) : waiting ko k = releases_waiting ko k.
Proof.
  unfold waiting, releases_waiting, rels, queued. f_equal.
  - f_equal. apply filter_ext. intros [i|i|x|x]; cbn; auto using ko_eqb_sym.
  - destruct (km_pending k) as [p|]; [|reflexivity]. induction (pd_queued p) as [|[[i|i|x|x]|i e|m] l IH]; cbn; try exact IH; [reflexivity|].
    rewrite (ko_eqb_sym x ko). destruct (ko_eqb ko x); cbn; congruence.
Qed.
Lemma other_inputs ko ops : caller_leaves ko ops -> inputs_other ko ops.
Proof.
  intros H o x Hin Ho. assert (G : x <> VirtualKeyPress ko /\ x <> VirtualKeyRelease ko).
  { split; intros ->; (destruct o; cbn in Ho; try discriminate; injection Ho as ->; [eapply (proj1 (H _ _)), Hin|eapply (proj2 (H _ _)), Hin]).
    Unshelve. all: auto. }
  destruct G as [G1 G2]. split; destruct x as [i|i|y|y]; cbn; try reflexivity.
  - destruct (ko_eqb y ko) eqn:E; [|reflexivity]. apply ko_eqb_eq in E. congruence.
  - destruct (ko_eqb y ko) eqn:E; [|reflexivity]. apply ko_eqb_eq in E. congruence.
Qed.
Lemma start_books ko exact used cf : balc ko exact used true (ctx_from_config cf) 0 0 0 [].
Proof.
  apply balc_true. exists 0%nat. split; [reflexivity|]. split; [lia|].
  assert (E1 : Ac ko (ctx_from_config cf) = 0%nat) by (unfold Ac, caps_share; cbn; now destruct (ko_eqb _ _)).
  rewrite E1. split; [unfold cmp; destruct exact; reflexivity|auto].
Qed.
Lemma caps_sticky_at_least refs d pos dbg ko used fuel ops cf k :
  macros_leave refs d (auc_instructions (cf_automation cf)) ko -> (used = false -> ~ sticky_for refs d ko) ->
  caller_leaves ko ops -> ~ In OpInit ops ->
  run_ops (cconf refs d pos dbg) fuel ops (km_new (ctx_from_config cf)) = Ok k ->
  balc ko false used true (km_ctx k) (times_pressed ko k) (releases_waiting ko k) 0 [].
Proof.
  intros Hm Hu Hc Hi H.
  assert (Hr : rest (report_parts refs d (cf_automation cf) ops) ko (caps_ledger ko false used) k).
  { eapply run_rest; [apply report_safe|apply composite_emits|apply caps_ledgers; auto| |exact Hi|apply inputs_fine|now apply other_inputs| |exact H].
    - intros c X. discriminate.
    - apply new_rest; [apply ctx_fine_new|apply start_books]. }
  rewrite <- virt_times, <- waiting_releases. apply Hr.
Qed.
Lemma caps_exact refs d pos dbg ko fuel ops cf k :
  macros_leave refs d (auc_instructions (cf_automation cf)) ko -> ~ sticky_for refs d ko ->
  caller_leaves ko ops -> ~ In OpInit ops ->
  run_ops (cconf refs d pos dbg) fuel ops (km_new (ctx_from_config cf)) = Ok k ->
  balc ko true false true (km_ctx k) (times_pressed ko k) (releases_waiting ko k) 0 [].
Proof.
  intros Hm Hu Hc Hi H.
  assert (Hr : rest (report_parts refs d (cf_automation cf) ops) ko (caps_ledger ko true false) k).
  { eapply run_rest; [apply report_safe|apply composite_emits|apply caps_ledgers; auto| |exact Hi|apply inputs_fine|now apply other_inputs| |exact H].
    - intros c X Y. discriminate.
    - apply new_rest; [apply ctx_fine_new|apply start_books]. }
  rewrite <- virt_times, <- waiting_releases. apply Hr.
Qed.
Lemma sticky_exact refs d pos dbg ko fuel ops cf k :
  macros_leave refs d (auc_instructions (cf_automation cf)) ko ->
  caller_leaves ko ops -> ~ In OpInit ops -> forallb simple_op ops = true ->
  (forall before after k1, ops = before ++ after ->
     run_ops (cconf refs d pos dbg) fuel before (km_new (ctx_from_config cf)) = Ok k1 ->
     (length (stx_active (cx_sticky (km_ctx k1))) < MAX_STICKY_MODIFIERS)%nat) ->
  run_ops (cconf refs d pos dbg) fuel ops (km_new (ctx_from_config cf)) = Ok k ->
  balc ko true true true (km_ctx k) (times_pressed ko k) (releases_waiting ko k) 0 [].
Proof.
  intros Hm Hc Hi Hs Hr0 H.
  assert (Hr : rest (report_parts refs d (cf_automation cf) ops) ko (caps_ledger ko true true) k).
  { eapply run_rest_room; [apply report_safe|apply composite_emits|apply caps_ledgers; [exact Hm|discriminate]|exact Hs|exact Hi|apply inputs_fine|now apply other_inputs| | |exact H].
    - intros before after k1 E1 E2 X Y. eapply Hr0; eauto.
    - apply new_rest; [apply ctx_fine_new|apply start_books]. }
  rewrite <- virt_times, <- waiting_releases. apply Hr.
Qed.
