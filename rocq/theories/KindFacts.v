(** Facts about the composite dispatch (C33, C37). *)
From Verif Require Import BaseFacts Output Types SimpleKeys TapHold TapDance Sticky CapsWord Layered Automation
  Chorded Composite Keymap KeymapFacts CtxFacts SpecKinds.
Local Open Scope N_scope.

Lemma context_own c ki e c' kes : cctx_handle_event c (EvKey ki e) = Ok (c', kes) ->
  same_except (ev_kind e) c c'.
Proof.
  intros H. apply cctx_inv in H as (k1 & k2 & k5 & H1 & H2 & H3 & H4 & H5 & H6 & H7 & _).
  unfold same_except. destruct e; cbn in H1, H2, H3, H4, H5; cbn [ev_kind];
    repeat match goal with
    | H : Ok _ = Ok _ |- _ => injection H as ? ?
    | H : Ok _ = Ok _ |- _ => injection H as ?
    | H : (_, _) = (_, _) |- _ => injection H as ? ?
    end; repeat split; intros; try congruence; auto.
Qed.

Lemma pressed_ignores d s r c ki j e : ref_kind r <> ev_kind e ->
  c_update_state d s r c ki (EvKey j e) = Ok (s, []).
Proof. intros H. destruct r, s; cbn; try reflexivity; destruct e; cbn in *; try reflexivity; congruence. Qed.
Lemma pending_ignores d p r c ki j e : pending_for r p -> ref_kind r <> ev_kind e ->
  c_update_pending d p ki c r (EvKey j e) = Ok (p, None, []).
Proof. intros Hp H. destruct r, p; cbn in Hp; try contradiction; cbn; destruct e; cbn in *; try reflexivity; congruence. Qed.

Lemma own_map {E} (f : E -> cev) k ki (l : key_events E) :
  (forall se i e, In se l -> se_event se = EvKey i e -> ev_kind (f e) = k /\ i = ki) ->
  own_events k ki (ke_map f l).
Proof.
  intros H se i e Hin He. unfold ke_map in Hin. apply in_map_iff in Hin as ([s ev] & <- & Hin). cbn in He.
  destruct ev as [ie|j e0|kk]; cbn in He; try discriminate. injection He as <- <-. now apply (H _ _ _ Hin).
Qed.
Lemma own_nil k ki : own_events k ki []. Proof. intros se i e []. Qed.
Ltac own :=
  first [apply own_nil
  | let se := fresh in let i0 := fresh in let e0 := fresh in let Hin := fresh in let He0 := fresh in
    intros se i0 e0 Hin He0; cbn in Hin;
    repeat (destruct Hin as [<-|Hin]; [cbn in He0; first [discriminate|injection He0 as <- <-; auto]|]);
    try contradiction ].

Lemma new_pressed_own d ki c r p kes : c_new_pressed_key d ki c r = Ok (p, kes) -> own_events (ref_kind r) ki kes.
Proof.
  intros H. destruct r; cbn [c_new_pressed_key ref_kind] in *.
  - inv_bind H. destruct a as [p1 k1]. inv_ok H. unfold auto_new_pressed_key in E. inv_bind E. inv_ok E.
    destruct (exec_is_empty _); own.
  - unfold callback_new_pressed_key in H. inv_bind H. inv_ok H. intros se j e [<-|[]]. discriminate.
  - unfold cw_new_pressed_key in H. inv_ok H. own.
  - inv_bind H. destruct a as [p1 k1]. inv_ok H. destruct r; cbn in E; inv_bind E;
      unfold chk_new_pressed_key, cha_new_pressed_key in E; inv_bind E; destruct (ch_initial_resolution _ _) in E.
    + inv_bind E. inv_ok E. own.
    + inv_ok E. own.
    + inv_ok E. own.
    + inv_ok E. own.
  - inv_ok H. apply own_nil.
  - inv_ok H. apply own_nil.
  - inv_ok H. apply own_nil.
  - inv_bind H. destruct a as [p1 k1]. inv_ok H. destruct r; cbn in E; inv_bind E.
    + destruct (lm_new_pressed_key a) as [b e]. inv_ok E. own.
    + inv_bind E. inv_ok E. own.
  - inv_ok H. apply own_nil.
  - inv_ok H. apply own_nil.
  - unfold td_new_pressed_key in H. inv_ok H. own.
  - inv_bind H. destruct a as [p1 k1]. inv_ok H. unfold th_new_pressed_key, th_new_pending in E.
    destruct (thc_required_idle _); [destruct (_ <=? _)|].
    + inv_ok E. own.
    + inv_bind E. inv_ok E. own.
    + inv_ok E. own.
Qed.
Lemma update_state_own d s r c ki ev s' kes : c_update_state d s r c ki ev = Ok (s', kes) -> own_events (ref_kind r) ki kes.
Proof.
  intros H. destruct r, s; cbn [c_update_state ref_kind] in *; try (inv_ok H; apply own_nil).
  - destruct (try_event _ _) as [e|]; [|inv_ok H; apply own_nil]. inv_bind H. inv_ok H.
    unfold auto_update_state in E. destruct e as [[]|? []|]; try (inv_ok E; own).
    all: destruct (_ =? _); [inv_bind E|]; inv_ok E; own.
  - destruct (try_event _ _) as [e|]; [|inv_ok H; apply own_nil]. inv_bind H. destruct a as [b' k1]. inv_ok H.
    destruct r; cbn in E; [|inv_ok E; own]. inv_bind E. destruct (lm_handle_event _ _ _ _) as [b2 o]. inv_ok E. destruct o; own.
  - destruct (try_event _ _) as [e|]; [|inv_ok H; apply own_nil]. inv_bind H.
    destruct (st_update_state b a ki e) as [b' k1] eqn:Es. inv_ok H. unfold st_update_state in Es.
    destruct b; [|injection Es as <- <-; own]. destruct e as [[]|? []|[]]; try (injection Es as <- <-; own).
    destruct (_ =? _); injection Es as <- <-; own.
Qed.
Lemma update_pending_own d p r c ki ev p' n kes : c_update_pending d p ki c r ev = Ok (p', n, kes) ->
  own_events (ref_kind r) ki kes.
Proof.
  intros H. destruct r, p; cbn [c_update_pending ref_kind] in *; try discriminate;
    (destruct (try_event _ _) as [e|]; [|inv_ok H; apply own_nil]); inv_bind H; destruct a as [[p1 n1] k1]; inv_ok H.
  - destruct r; cbn in E; inv_bind E; unfold chk_update_pending, cha_update_pending in E; inv_bind E; destruct a0 as [p2 o];
      destruct o; try (inv_bind E); inv_ok E; own.
  - unfold td_update_pending in E. inv_bind E. inv_bind E. destruct a0 as [[p2 r2] k2].
    assert (k1 = k2) as ->.
    { destruct r2; [inv_bind E; now inv_ok E|]. destruct (td_count a); [discriminate|]. destruct (Nat.leb _ _); [inv_bind E|]; now inv_ok E. }
    unfold td_handle_event in E1. destruct e as [[k|k|ko|ko]|k [m]|kk]; try (inv_ok E1; own).
    + destruct (k =? ki); [destruct (_ <? _)|]; try discriminate; inv_ok E1; own.
    + destruct (_ && _); inv_ok E1; own.
  - unfold th_update_pending, th_handle_event in E. destruct (hold_resolution _ _ _ _); [inv_bind E|]; inv_ok E; own.
Qed.

(** ** Number of events (C33) *)
Lemma sticky_release_length {E} (l : list modifiers) : length (@st_release_events E l) = length l.
Proof. apply map_length. Qed.
Lemma sticky_ok c ev : (length (stx_active c) <= 4)%nat -> exists c' kes, st_handle_event c ev = Ok (c', kes)
  /\ (length (stx_active c') <= 4)%nat /\ (length kes <= 4)%nat
  /\ (match ev with EvInput (Press _) | EvInput (Release _) => True | _ => kes = [] end).
Proof.
  intros H. assert (Hr : ke_extend [] (@st_release_events st_event (stx_active c)) = Ok (st_release_events (stx_active c))).
  { unfold ke_extend. rewrite push_all_cap_total; [reflexivity|]. rewrite sticky_release_length. cbn. exact H. }
  assert (Hl : (length (@st_release_events st_event (stx_active c)) <= 4)%nat) by (rewrite sticky_release_length; exact H).
  unfold st_handle_event. rewrite Hr. cbn [bind].
  destruct ev as [[k|k|ko|ko]|k [m]|[cb|k ko]].
  - destruct (stx_pressed c), (stc_release (stx_config c)); do 2 eexists; (split; [reflexivity|]); cbn; auto; lia.
  - destruct (stx_active c) eqn:Ea; [|destruct (opt_eqb _ _ _)]; do 2 eexists; (split; [reflexivity|]); cbn in *; rewrite ?Ea; cbn; auto; lia.
  - do 2 eexists. split; [reflexivity|]. cbn. auto with arith.
  - do 2 eexists. split; [reflexivity|]. cbn. auto with arith.
  - unfold MAX_STICKY_MODIFIERS. destruct (Nat.ltb_spec (length (stx_active c)) 4); do 2 eexists; (split; [reflexivity|]); cbn; rewrite ?app_length; cbn; repeat split; lia.
  - do 2 eexists. split; [reflexivity|]. cbn. auto with arith.
  - destruct (stx_active c) eqn:Ea; do 2 eexists; (split; [reflexivity|]); cbn; rewrite ?Ea in *; cbn in *; repeat split; lia.
Qed.
Lemma caps_ok c ev : (length (snd (cw_handle_event c ev)) <= 1)%nat
  /\ (match ev with EvInput _ => snd (cw_handle_event c ev) = [] | _ => True end).
Proof.
  destruct ev as [ie|k [|]|[cb|k ko]]; cbn; auto.
  destruct (cwx_active c); [|cbn; auto]. destruct (ko_usage ko); cbn; auto. destruct (cw_exits _ _); cbn; auto.
Qed.

Lemma fill_slot_Forall (Q : execution -> Prop) q e : Forall Q q -> Q e -> Forall Q (fill_slot q e).
Proof.
  intros Hq He. induction Hq as [|x q Hx Hq IH]; cbn; [constructor|]. destruct (exec_is_empty x); constructor; auto.
Qed.
Lemma fill_slot_nil q e : q <> [] -> fill_slot q e <> [].
Proof. destruct q; [auto|]. intros _. cbn. destruct (exec_is_empty _); discriminate. Qed.
Lemma exec_in_range_incr c e : exec_in_range c e -> exec_in_range c (exec_incr e).
Proof.
  unfold exec_in_range, exec_is_empty, exec_incr. intros [H|H].
  - apply N.eqb_eq in H. rewrite H. cbn. left. rewrite H. reflexivity.
  - destruct (N.ltb_spec 0 (ex_length e)); [right; cbn; lia|left; apply N.eqb_eq; lia].
Qed.
Lemma execute_head_ok c ki h t : aux_queue c = h :: t -> exec_is_empty h = false -> macros_in_range c ->
  exists c' kes, execute_head c ki = Ok (c', kes) /\ macros_in_range c' /\ aux_config c' = aux_config c /\ (length kes <= 4)%nat.
Proof.
  intros Hq Hh [_ Hr]. unfold execute_head. rewrite Hq in *. inversion Hr as [|? ? Hhr Htr]; subst.
  unfold exec_in_range in Hhr. destruct Hhr as [Hhr|Hhr]; [congruence|]. unfold exec_is_empty in Hh. apply N.eqb_neq in Hh.
  unfold key_events_for, index.
  destruct (nth_error (auc_instructions (aux_config c)) (N.to_nat (ex_start h))) as [ins|] eqn:E.
  2:{ apply nth_error_None in E. lia. }
  cbn [bind]. set (kes := match ins with InNoOp => _ | _ => _ end).
  assert (Hk : (length kes <= 3)%nat) by (unfold kes; destruct ins; cbn; lia). clearbody kes. destruct (exec_is_empty (exec_incr h)) eqn:Ei.
  - assert (Hn : Forall (exec_in_range (aux_config c)) (t ++ [exec_empty])).
    { apply Forall_app. split; [exact Htr|]. constructor; [left; reflexivity|constructor]. }
    destruct (t ++ [exec_empty]) as [|h2 q] eqn:Et; [destruct t; discriminate|].
    destruct (exec_is_empty h2).
    + do 2 eexists. split; [reflexivity|]. split; [split; [discriminate|exact Hn]|]. cbn. split; [reflexivity|lia].
    + unfold ke_add. rewrite push_cap_ok_iff by (unfold MAX_KEY_EVENTS; lia). cbn [bind].
      do 2 eexists. split; [reflexivity|]. split; [split; [discriminate|exact Hn]|]. cbn. rewrite app_length. cbn. split; [reflexivity|lia].
  - do 2 eexists. split; [reflexivity|]. split; [|cbn; split; [reflexivity|lia]]. split; [discriminate|]. cbn. constructor; [|exact Htr].
    apply exec_in_range_incr. right. exact Hhr.
Qed.
Lemma automation_ok c ev : macros_in_range c ->
  (match ev with EvKey _ (AuEnqueue e) => exec_in_range (aux_config c) e | _ => True end) ->
  exists c' kes, auto_handle_event c ev = Ok (c', kes) /\ macros_in_range c' /\ aux_config c' = aux_config c /\ (length kes <= 4)%nat
  /\ (match ev with EvKey _ _ => True | _ => kes = [] end).
Proof.
  intros Hr He. destruct ev as [ie|ki [e| |]|kk]; cbn [auto_handle_event];
    try (do 2 eexists; split; [reflexivity|]; cbn; auto with arith).
  - destruct (exec_is_empty e) eqn:Ee; [do 2 eexists; split; [reflexivity|]; cbn; auto with arith|].
    unfold auto_enqueue. rewrite Ee. set (c1 := mkAutoCtx _ _).
    assert (Hc1 : macros_in_range c1).
    { destruct Hr as [Hr1 Hr2]. split; cbn; [now apply fill_slot_nil|now apply fill_slot_Forall]. }
    destruct (auto_head_empty c) eqn:Eh.
    + destruct Hr as [Hr1 _]. unfold auto_head_empty in Eh. destruct (aux_queue c) as [|h t] eqn:Eq; [congruence|].
      destruct (execute_head_ok c1 ki e t) as (c' & kes & E & A & B & C); [cbn; now rewrite Eh|exact Ee|exact Hc1|].
      exists c', kes. auto.
    + exists c1, []. split; [reflexivity|]. cbn. auto with arith.
  - destruct (auto_head_empty c) eqn:Eh; [do 2 eexists; split; [reflexivity|]; cbn; auto with arith|].
    unfold auto_head_empty in Eh. destruct (aux_queue c) as [|h t] eqn:Eq; [discriminate|].
    destruct (execute_head_ok c ki h t Eq Eh Hr) as (c' & kes & E & A & B & C). exists c', kes. auto.
Qed.

Lemma context_total c ev :
  (length (stx_active (cx_sticky c)) <= 4)%nat -> macros_in_range (cx_automation c) ->
  event_in_range (aux_config (cx_automation c)) ev ->
  (exists h, step_chorded (cx_chorded c) ev = Ok h) -> (exists l, step_layered (cx_layered c) ev = Ok l) ->
  exists c' kes, cctx_handle_event c ev = Ok (c', kes) /\ (length kes <= 4)%nat
  /\ (length (stx_active (cx_sticky c')) <= 4)%nat /\ macros_in_range (cx_automation c')
  /\ aux_config (cx_automation c') = aux_config (cx_automation c).
Proof.
  intros Hs Ha He [h Hh] [l Hl].
  assert (Sa : exists a ka, step_automation (cx_automation c) ev = Ok (a, ka) /\ macros_in_range a
    /\ aux_config a = aux_config (cx_automation c) /\ (length ka <= 4)%nat
    /\ (match ev with EvKey _ (CeAutomation _) => True | _ => ka = [] end)).
  { unfold step_automation. destruct ev as [ie|k e|kk]; cbn [try_event].
    - destruct (automation_ok (cx_automation c) (EvInput ie) Ha I) as (a & ka & -> & A & B & C & ->). cbn. exists a, []. auto.
    - destruct e; cbn [as_automation]; try (exists (cx_automation c), []; cbn; auto with arith; fail).
      destruct (automation_ok (cx_automation c) (EvKey k e) Ha) as (a & ka & -> & A & B & C & _); [exact He|].
      cbn [bind]. exists a, (ke_map CeAutomation ka). unfold ke_map. rewrite map_length. auto.
    - destruct (automation_ok (cx_automation c) (EvKeymap kk) Ha I) as (a & ka & -> & A & B & C & ->). cbn. exists a, []. auto. }
  assert (Sc : exists w kw, step_caps_word (cx_caps_word c) ev = (w, kw) /\ (length kw <= 1)%nat
    /\ (match ev with EvInput _ => kw = [] | EvKey _ (CeCapsWord _) => True | EvKey _ _ => kw = [] | _ => True end)).
  { unfold step_caps_word. destruct (try_event as_caps_word ev) as [e|] eqn:E.
    - destruct (caps_ok (cx_caps_word c) e) as [A B]. destruct (cw_handle_event (cx_caps_word c) e) as [w kw]. cbn in A, B.
      exists w, (ke_map CeCapsWord kw). split; [reflexivity|]. unfold ke_map. rewrite map_length. split; [exact A|].
      destruct ev as [ie|k []|kk]; cbn in E; try discriminate; auto. injection E as <-. now rewrite B.
    - exists (cx_caps_word c), []. split; [reflexivity|]. split; [cbn; lia|]. destruct ev as [ie|k []|kk]; auto. }
  assert (Ss : exists s ks, step_sticky (cx_sticky c) ev = Ok (s, ks) /\ (length (stx_active s) <= 4)%nat /\ (length ks <= 4)%nat
    /\ (match ev with EvInput _ => True | _ => ks = [] end)).
  { unfold step_sticky. destruct (try_event as_sticky ev) as [e|] eqn:E.
    - destruct (sticky_ok (cx_sticky c) e Hs) as (s & ks & -> & A & B & C). cbn [bind].
      exists s, (ke_map CeSticky ks). split; [reflexivity|]. unfold ke_map. rewrite map_length. split; [exact A|]. split; [exact B|].
      destruct ev as [ie|k []|kk]; cbn in E; try discriminate; auto; injection E as <-; now rewrite C.
    - exists (cx_sticky c), []. split; [reflexivity|]. split; [exact Hs|]. split; [cbn; lia|]. destruct ev; auto. }
  destruct Sa as (a & ka & Ea & A1 & A2 & A3 & A4), Sc as (w & kw & Ew & W1 & W2), Ss as (s & ks & Es & S1 & S2 & S3).
  assert (Hlen : (length ka + length kw + length ks <= 4)%nat).
  { destruct ev as [ie|k e|kk].
    - subst. cbn. lia.
    - subst ks. destruct e; subst; cbn [length] in *; lia.
    - subst. cbn. lia. }
  unfold cctx_handle_event, ke_extend. rewrite Ea. cbn [bind]. rewrite push_all_cap_total by (unfold MAX_KEY_EVENTS; cbn; lia). cbn [bind app].
  rewrite Ew. rewrite push_all_cap_total by (unfold MAX_KEY_EVENTS; lia). cbn [bind]. rewrite Hh, Hl, Es. cbn [bind].
  rewrite push_all_cap_total by (unfold MAX_KEY_EVENTS; rewrite app_length; lia). cbn [bind].
  do 2 eexists. split; [reflexivity|]. rewrite !app_length. cbn. split; [lia|auto].
Qed.

Lemma new_pressed_few d ki c r p kes : c_new_pressed_key d ki c r = Ok (p, kes) -> (length kes <= 1)%nat.
Proof.
  intros H. destruct r; cbn [c_new_pressed_key] in *; unfold ke_map in *.
  - inv_bind H. destruct a as [p1 k1]. inv_ok H. unfold auto_new_pressed_key in E. inv_bind E. inv_ok E. cbn. lia.
  - unfold callback_new_pressed_key in H. inv_bind H. inv_ok H. cbn. lia.
  - unfold cw_new_pressed_key in H. inv_ok H. cbn. lia.
  - inv_bind H. destruct a as [p1 k1]. inv_ok H. rewrite map_length. destruct r; cbn in E; inv_bind E;
      unfold chk_new_pressed_key, cha_new_pressed_key in E; inv_bind E; destruct (ch_initial_resolution _ _) in E;
      try (inv_bind E); inv_ok E; cbn; lia.
  - inv_ok H. cbn. lia.
  - inv_ok H. cbn. lia.
  - inv_ok H. cbn. lia.
  - inv_bind H. destruct a as [p1 k1]. inv_ok H. rewrite map_length. destruct r; cbn in E; inv_bind E.
    + destruct (lm_new_pressed_key a) as [b e]. inv_ok E. cbn. lia.
    + inv_bind E. inv_ok E. cbn. lia.
  - inv_ok H. cbn. lia.
  - inv_ok H. cbn. lia.
  - unfold td_new_pressed_key in H. inv_ok H. cbn. lia.
  - inv_bind H. destruct a as [p1 k1]. inv_ok H. rewrite map_length. unfold th_new_pressed_key, th_new_pending in E.
    destruct (thc_required_idle _); [destruct (_ <=? _)|]; try (inv_bind E); inv_ok E; cbn; lia.
Qed.
Lemma update_state_few d s r c ki ev s' kes : c_update_state d s r c ki ev = Ok (s', kes) -> (length kes <= 2)%nat.
Proof.
  intros H. destruct r, s; cbn [c_update_state] in *; unfold ke_map in *; try (inv_ok H; cbn; lia).
  - destruct (try_event _ _) as [e|]; [|inv_ok H; cbn; lia]. inv_bind H. inv_ok H. rewrite map_length.
    unfold auto_update_state in E. destruct e as [[]|? []|]; try (inv_ok E; cbn; lia).
    all: destruct (_ =? _); [inv_bind E|]; inv_ok E; cbn; lia.
  - destruct (try_event _ _) as [e|]; [|inv_ok H; cbn; lia]. inv_bind H. destruct a as [b' k1]. inv_ok H. rewrite map_length.
    destruct r; cbn in E; [|inv_ok E; cbn; lia]. inv_bind E. destruct (lm_handle_event _ _ _ _) as [b2 o]. inv_ok E. destruct o; cbn; lia.
  - destruct (try_event _ _) as [e|]; [|inv_ok H; cbn; lia]. inv_bind H.
    destruct (st_update_state b a ki e) as [b' k1] eqn:Es. inv_ok H. rewrite map_length. unfold st_update_state in Es.
    destruct b; [|injection Es as <- <-; cbn; lia]. destruct e as [[]|? []|[]]; try (injection Es as <- <-; cbn; lia).
    destruct (_ =? _); injection Es as <- <-; cbn; lia.
Qed.
Lemma update_pending_few d p r c ki ev p' n kes : c_update_pending d p ki c r ev = Ok (p', n, kes) -> (length kes <= 1)%nat.
Proof.
  intros H. destruct r, p; cbn [c_update_pending] in *; try discriminate; unfold ke_map in *;
    (destruct (try_event _ _) as [e|]; [|inv_ok H; cbn; lia]); inv_bind H; destruct a as [[p1 n1] k1]; inv_ok H; rewrite map_length.
  - destruct r; cbn in E; inv_bind E; unfold chk_update_pending, cha_update_pending in E; inv_bind E; destruct a0 as [p2 o];
      destruct o; try (inv_bind E); inv_ok E; cbn; lia.
  - unfold td_update_pending in E. inv_bind E. inv_bind E. destruct a0 as [[p2 r2] k2].
    assert (k1 = k2) as ->.
    { destruct r2; [inv_bind E; now inv_ok E|]. destruct (td_count a); [discriminate|]. destruct (Nat.leb _ _); [inv_bind E|]; now inv_ok E. }
    unfold td_handle_event in E1. destruct e as [[k|k|ko|ko]|k [m]|kk]; try (inv_ok E1; cbn; lia).
    + destruct (k =? ki); [destruct (_ <? _)|]; try discriminate; inv_ok E1; cbn; lia.
    + destruct (_ && _); inv_ok E1; cbn; lia.
  - unfold th_update_pending, th_handle_event in E. destruct (hold_resolution _ _ _ _); [inv_bind E|]; inv_ok E; cbn; lia.
Qed.
