(** Keyboards whose keys all act at once, computed (C70). *)
From Verif Require Import BaseFacts Output Types Scheduler Reporter Keymap SimpleKeys TapHold TapDance Sticky CapsWord
  Layered Automation Chorded Composite SpecKeymap KeymapHist KeymapQueue KeymapCalls KeymapApi SpecChord ChordFacts ChordHeld SpecPlain PlainFacts
  SpecLayer LayerFacts SpecMods SpecBoard BoardFacts SpecTyping.
From Verif Require ReporterFacts.
Local Open Scope N_scope.

(** ** The contexts of a board *)
Definition act (m : layer_mode) : activity := match m with LOff => Inactive | LOn => Active StRegular | LOnce => Active StSticky end.
Definition lyc (b : tboard) : layered_ctx := mkLyCtx (tb_default b) (map act (tb_layers b)) (tb_once_by b).
Definition stc (sr : sticky_release) (b : tboard) : sticky_ctx := mkStCtx (mkStConfig sr) (tb_latched b) (tb_latched_by b).
Definition cwc (b : tboard) : capsword_ctx := mkCWCtx (tb_caps b).
Definition ctx_for (sr : sticky_release) (c : cctx) (h : chorded_ctx) (b : tboard) : cctx :=
  mkCtx (cx_automation c) (cwc b) h (lyc b) (stc sr b) (cx_tap_dance c) (cx_tap_hold c).

Lemma set_nth_map {A B} (f : A -> B) l i x : set_nth (map f l) i (f x) = map f (set_nth l i x).
Proof. revert i. induction l as [|y l IH]; intros [|i]; cbn; [reflexivity..|]. now rewrite IH. Qed.
Lemma put_layer ls l m : 1 <= l <= N.of_nat (length ls) -> layer_set (map act ls) l (act m) = Ok (map act (put l m ls)).
Proof.
  intros H. unfold layer_set, update_index, put. destruct (N.eqb_spec l 0) as [->|_]; [lia|]. rewrite map_length.
  destruct (Nat.ltb_spec (N.to_nat (l - 1)) (length ls)) as [_|X]; [|lia]. destruct (N.leb_spec 1 l); [|lia]. now rewrite set_nth_map.
Qed.
Lemma put_length l m ls : length (put l m ls) = length ls.
Proof. unfold put. destruct (1 <=? l); [apply set_nth_length|reflexivity]. Qed.
Lemma get_layer b l : 1 <= l <= N.of_nat (length (tb_layers b)) -> layer_get (map act (tb_layers b)) l = Ok (act (mode_of b l)).
Proof.
  intros H. unfold layer_get, index, mode_of. destruct (N.eqb_spec l 0) as [->|_]; [lia|]. destruct (N.leb_spec 1 l); [|lia].
  rewrite nth_error_map. destruct (nth_error (tb_layers b) (N.to_nat (l - 1))) as [m|] eqn:E; [|apply nth_error_None in E; lia].
  cbn. erewrite nth_error_nth by exact E. reflexivity.
Qed.
Lemma put_all_length bits l ls : length (put_all bits l ls) = length ls.
Proof. revert l. induction ls as [|m ls IH]; intros l; cbn; [reflexivity|]. now rewrite IH. Qed.
(** The first [m] layers are set. *)
Fixpoint put_some (bits : N) (l : N) (m : nat) (ls : list layer_mode) : list layer_mode :=
  match m, ls with
  | S m', _ :: t => (if N.testbit bits l then LOn else LOff) :: put_some bits (l + 1) m' t
  | _, _ => ls
  end.
Lemma set_some_gen bits : forall m pre ls, (m <= length ls)%nat ->
  fold_res (set_one bits) (seq (S (length pre)) m) (map act (pre ++ ls)) = Ok (map act (pre ++ put_some bits (N.of_nat (S (length pre))) m ls)).
Proof.
  induction m as [|m IH]; intros pre ls H; [reflexivity|]. destruct ls as [|x ls]; [cbn in H; lia|]. cbn [seq fold_res put_some].
  set (y := if N.testbit bits (N.of_nat (S (length pre))) then LOn else LOff).
  assert (E : set_one bits (map act (pre ++ x :: ls)) (S (length pre)) = Ok (map act ((pre ++ [y]) ++ ls))).
  { unfold set_one, activate, deactivate. assert (E : forall z, layer_set (map act (pre ++ x :: ls)) (N.of_nat (S (length pre))) (act z) = Ok (map act ((pre ++ [z]) ++ ls))).
    { intros z. rewrite put_layer by (rewrite app_length; cbn; lia). f_equal. f_equal. unfold put. destruct (N.leb_spec 1 (N.of_nat (S (length pre)))); [|lia].
      replace (N.to_nat (N.of_nat (S (length pre)) - 1)) with (length pre) by lia. clear. induction pre as [|p pre IH]; cbn; [reflexivity|]. now rewrite IH. }
    subst y. destruct (N.testbit bits (N.of_nat (S (length pre)))); [exact (E LOn)|exact (E LOff)]. }
  rewrite E. cbn [bind]. specialize (IH (pre ++ [y]) ls). rewrite app_length in IH. cbn [length] in IH. replace (S (length pre + 1)) with (S (S (length pre))) in IH by lia.
  rewrite IH by (cbn in H; lia). rewrite <- app_assoc. cbn [app]. do 4 f_equal. f_equal. lia.
Qed.
Lemma put_some_all bits : forall ls l, (1 <= l)%nat -> put_some bits (N.of_nat l) (Nat.min (length ls) (32 - l)) ls = put_all bits (N.of_nat l) ls.
Proof.
  induction ls as [|x ls IH]; intros l Hl; [reflexivity|]. cbn [length put_all]. destruct (N.leb_spec (N.of_nat l) 31) as [H|H].
  - replace (Nat.min (S (length ls)) (32 - l)) with (S (Nat.min (length ls) (32 - S l))) by lia. cbn [put_some]. f_equal.
    replace (N.of_nat l + 1) with (N.of_nat (S l)) by lia. apply IH. lia.
  - replace (Nat.min (S (length ls)) (32 - l)) with 0%nat by lia. cbn [put_some]. f_equal.
    replace (N.of_nat l + 1) with (N.of_nat (S l)) by lia. rewrite <- IH by lia. now replace (Nat.min (length ls) (32 - S l)) with 0%nat by lia; destruct ls.
Qed.
Lemma put_all_layers bits ls : set_layers bits (map act ls) = Ok (map act (put_all bits 1 ls)).
Proof.
  unfold set_layers. rewrite map_length. pose proof (set_some_gen bits (Nat.min (length ls) MAX_BITSET_LAYER) [] ls ltac:(lia)) as E. cbn [app length] in E. rewrite E.
  do 2 f_equal. apply (put_some_all bits ls 1). lia.
Qed.

Definition layer_event_okn (n : nat) (e : layer_event) : Prop :=
  match e with
  | LeActivated l | LeDeactivated l | LeToggled l | LeStickyActivated l => 1 <= l <= N.of_nat n
  | LeSet _ => True
  | LeSetDefault l => l <= N.of_nat n
  end.
Lemma layer_event_ctx b e : layer_event_okn (length (tb_layers b)) e -> handle_layer_event (lyc b) e = Ok (lyc (switch_layers e b)).
Proof.
  intros H. destruct e as [l|l|l|l|bits|l]; cbn [layer_event_okn] in H; unfold handle_layer_event, lyc, activate, deactivate; cbn [lyx_active lyx_default lyx_pressed].
  - change (Active StRegular) with (act LOn). rewrite put_layer by exact H. reflexivity.
  - change Inactive with (act LOff). rewrite put_layer by exact H. reflexivity.
  - rewrite get_layer by exact H. cbn [bind]. cbn [switch_layers layers_with tb_layers tb_default tb_once_by].
    destruct (mode_of b l) eqn:E; cbn [is_active act opposite]; [change (Active StRegular) with (act LOn)|change Inactive with (act LOff)..]; rewrite put_layer by exact H; reflexivity.
  - change (Active StSticky) with (act LOnce). rewrite put_layer by exact H. reflexivity.
  - rewrite put_all_layers. reflexivity.
  - reflexivity.
Qed.
Lemma find_once ls : forall i, find_sticky i (map act ls) = once_from (i + 1) ls.
Proof. induction ls as [|m ls IH]; intros i; cbn; [reflexivity|]. rewrite IH. destruct m; reflexivity. Qed.
Lemma once_from_range ls : forall i l, once_from i ls = Some l -> i <= l < i + N.of_nat (length ls).
Proof.
  induction ls as [|m ls IH]; intros i l H; cbn [once_from length] in H |- *; [discriminate|].
  destruct m; [apply IH in H; lia..|injection H as <-; lia].
Qed.
Lemma layers_hear_ctx b ie : ly_handle_event (lyc b) (EvInput ie) = Ok (lyc (layers_hear ie b)).
Proof.
  unfold ly_handle_event, layers_hear, sticky_layer. cbn [lyc lyx_active lyx_pressed lyx_default]. rewrite find_once. change (0 + 1) with 1.
  destruct (once_from 1 (tb_layers b)) as [l|] eqn:E; [|destruct ie; reflexivity]. apply once_from_range in E.
  assert (P : deactivate (map act (tb_layers b)) l = Ok (map act (put l LOff (tb_layers b)))) by (apply (put_layer _ _ LOff); lia).
  destruct ie as [i|i|ko|ko]; [| |reflexivity..].
  - destruct (tb_once_by b) as [j|] eqn:Ej.
    + rewrite P. reflexivity.
    + reflexivity.
  - destruct (tb_once_by b) as [j|] eqn:Ej; cbn [opt_eqb]; [|unfold lyc; rewrite Ej; reflexivity]. rewrite N.eqb_sym. destruct (i =? j); [|unfold lyc; rewrite Ej; reflexivity].
    rewrite P. reflexivity.
Qed.
Lemma push_all_nil {A} cap (xs : list A) : (length xs <= cap)%nat -> push_all_cap cap [] xs = Ok xs.
Proof. intros H. now rewrite push_all_cap_total by (cbn; lia). Qed.
Lemma mods_hear_ctx sr b ie : (length (tb_latched b) <= 4)%nat ->
  exists kes, st_handle_event (stc sr b) (EvInput ie) = Ok (stc sr (fst (mods_hear sr ie b)), kes)
    /\ kes = map (fun e => match e with EUp ko => immediate (EvInput (VirtualKeyRelease ko)) | _ => immediate (EvInput (VirtualKeyPress ko_none)) end) (snd (mods_hear sr ie b))
    /\ Forall (fun e => exists ko, e = EUp ko) (snd (mods_hear sr ie b)) /\ (length (snd (mods_hear sr ie b)) <= 4)%nat.
Proof.
  intros H.
  assert (P : @ke_extend st_event [] (st_release_events (tb_latched b)) = Ok (st_release_events (tb_latched b))) by (apply push_all_nil; unfold st_release_events; now rewrite map_length).
  assert (Q : forall l, @st_release_events st_event l = map (fun e => match e with EUp ko => immediate (EvInput (VirtualKeyRelease ko)) | _ => immediate (EvInput (VirtualKeyPress ko_none)) end) (map (fun m => EUp (mods_key m)) l)).
  { intros l. rewrite map_map. reflexivity. }
  assert (R : Forall (fun e => exists ko, e = EUp ko) (map (fun m => EUp (mods_key m)) (tb_latched b))).
  { apply Forall_forall. intros e X. apply in_map_iff in X as (m & <- & _). eexists; reflexivity. }
  destruct ie as [i|i|ko|ko]; unfold st_handle_event, mods_hear; cbn [stc stx_active stx_pressed stx_config stc_release];
    [| |exists []; split; [reflexivity|split; [reflexivity|split; [constructor|cbn; lia]]]..].
  - destruct (tb_latched_by b) as [j|] eqn:Ej; [|exists []; split; [unfold stc; cbn; rewrite Ej; reflexivity|split; [reflexivity|split; [constructor|cbn; lia]]]].
    destruct sr; [exists []; split; [unfold stc; cbn; rewrite Ej; reflexivity|split; [reflexivity|split; [constructor|cbn; lia]]]|].
    rewrite P. cbn [bind]. eexists. split; [reflexivity|]. cbn [snd]. split; [apply Q|]. split; [exact R|]. now rewrite map_length.
  - destruct (tb_latched_by b) as [j|] eqn:Ej; destruct (tb_latched b) as [|m0 ms] eqn:El; cbn [opt_eqb];
      try (exists []; split; [unfold stc; cbn; rewrite ?Ej, ?El; reflexivity|split; [reflexivity|split; [constructor|cbn; lia]]]).
    destruct (i =? j); [|exists []; split; [unfold stc; cbn; rewrite ?Ej, ?El; reflexivity|split; [reflexivity|split; [constructor|cbn; lia]]]].
    rewrite P. cbn [bind]. eexists. split; [reflexivity|]. cbn [snd]. split; [apply Q|]. split; [exact R|]. now rewrite map_length.
Qed.

(** ** The contexts take the events *)
Local Notation chcalm := quiet_chords.
Definition cok (sr : sticky_release) (n : nat) (c : cctx) (b : tboard) : Prop :=
  c = ctx_for sr c (cx_chorded c) b /\ chcalm (cx_chorded c) /\ length (tb_layers b) = n
  /\ (forall l, tb_default b = Some l -> 1 <= l <= N.of_nat n) /\ (length (tb_latched b) <= 4)%nat.
Definition quiet (c : cctx) (h : chorded_ctx) : cctx :=
  mkCtx (cx_automation c) cw_ctx_new h (ly_ctx_new 0) (st_ctx_new sticky_config_default) (cx_tap_dance c) (cx_tap_hold c).
Lemma chcalm_step (c : cctx) h ie h' : chcalm h -> step_chorded h (EvInput ie) = Ok h' -> chcalm h'.
Proof.
  apply quiet_step.
Qed.

(** What an event in the queue of the keymap stands for. *)
Definition encodes (ev : event cev) (e : effect) : Prop :=
  match ev, e with
  | EvKey _ (CeLayered e1), ELayer e2 => e1 = e2
  | EvKeymap (KmCallback c1), ECall c2 => c1 = c2
  | EvKey _ (CeCapsWord EnableCapsWord), ECaps true => True
  | EvKey _ (CeCapsWord DisableCapsWord), ECaps false => True
  | EvKey _ (CeSticky (ActivateModifiers m1)), ELatch m2 => m1 = m2
  | EvInput (VirtualKeyPress k1), EDown k2 => k1 = k2
  | EvInput (VirtualKeyRelease k1), EUp k2 => k1 = k2
  | _, _ => False
  end.
Definition effect_ok (n : nat) (e : effect) : Prop := match e with ELayer e => layer_event_okn n e | _ => True end.
Definition queues (kes : key_events cev) (es : list effect) : Prop :=
  Forall2 (fun se e => se_schedule se = Immediate /\ encodes (se_event se) e) kes es.
Definition pend (l : list (option (event cev))) (es : list effect) : Prop :=
  Forall2 (fun o e => match o with Some ev => encodes ev e | None => False end) l es.
Lemma pend_length l es : pend l es -> length l = length es.
Proof. induction 1; cbn; congruence. Qed.
Lemma sched_queue (pos : position_fn) kes es : queues kes es -> forall s es0, pend (sc_pending s) es0 -> (length es0 + length es <= 31)%nat ->
  exists s', sched_all pos s kes = Ok s' /\ pend (sc_pending s') (es0 ++ es) /\ sc_scheduled s' = sc_scheduled s /\ sc_counter s' = sc_counter s.
Proof.
  unfold sched_all. induction 1 as [|se e kes es (Hi & He) _ IH]; intros s es0 Hp Hl; cbn [fold_res].
  - exists s. rewrite app_nil_r. auto.
  - unfold sched_event_in at 1. rewrite Hi. unfold sched_enqueue, push_cap. rewrite (pend_length _ _ Hp). change PENDING_CAPACITY with 31%nat.
    cbn [length] in Hl. destruct (Nat.ltb_spec (length es0) 31) as [_|X]; [|lia]. cbn [bind].
    destruct (IH (mkSched (sc_pending s ++ [Some (se_event se)]) (sc_scheduled s) (sc_counter s)) (es0 ++ [e])) as (s' & E & P & A & B).
    + cbn. apply Forall2_app; [exact Hp|]. constructor; [exact He|constructor].
    + rewrite app_length. cbn. lia.
    + exists s'. rewrite <- app_assoc in P. auto.
Qed.

Lemma input_ctx sr n c b ie : cok sr n c b ->
  match step_chorded (cx_chorded c) (EvInput ie) with
  | Ok h => exists kes, cctx_handle_event c (EvInput ie) = Ok (ctx_for sr c h (fst (mods_hear sr ie (layers_hear ie b))), kes)
      /\ queues kes (snd (mods_hear sr ie (layers_hear ie b))) /\ Forall (effect_ok n) (snd (mods_hear sr ie (layers_hear ie b)))
      /\ (length (snd (mods_hear sr ie (layers_hear ie b))) <= 4)%nat
      /\ cok sr n (ctx_for sr c h (fst (mods_hear sr ie (layers_hear ie b)))) (fst (mods_hear sr ie (layers_hear ie b)))
  | _ => is_ok (cctx_handle_event c (EvInput ie)) = false
  end.
Proof.
  intros (Hc & Hch & Hn & Hd & Hl). unfold cctx_handle_event, step_automation, step_caps_word, step_layered, step_sticky.
  cbn [try_event auto_handle_event cw_handle_event bind ke_map map ke_extend push_all_cap].
  destruct (step_chorded (cx_chorded c) (EvInput ie)) as [h| |] eqn:Eh; try reflexivity. cbn [bind].
  assert (E1 : cx_layered c = lyc b) by (rewrite Hc; reflexivity). assert (E2 : cx_sticky c = stc sr b) by (rewrite Hc; reflexivity). assert (E3 : cx_caps_word c = cwc b) by (rewrite Hc; reflexivity).
  rewrite E1, E2, E3, layers_hear_ctx. cbn [bind]. set (b1 := layers_hear ie b).
  assert (Hb1 : tb_latched b1 = tb_latched b /\ tb_latched_by b1 = tb_latched_by b /\ tb_caps b1 = tb_caps b /\ length (tb_layers b1) = length (tb_layers b) /\ tb_default b1 = tb_default b).
  { unfold b1, layers_hear. destruct (once_from 1 (tb_layers b)) as [l|]; [|auto 10]. destruct ie as [i|i|ko|ko], (tb_once_by b) as [j|]; cbn; rewrite ?put_length; auto 10.
    destruct (i =? j); cbn; rewrite ?put_length; auto 10. }
  destruct Hb1 as (B1 & B2 & B3 & B4 & B5). assert (E4 : stc sr b = stc sr b1) by (unfold stc; now rewrite B1, B2). rewrite E4.
  destruct (mods_hear_ctx sr b1 ie) as (kes & E & Ek & Hf & H4); [now rewrite B1|]. rewrite E. cbn [bind].
  set (b2 := fst (mods_hear sr ie b1)) in *. set (es := snd (mods_hear sr ie b1)) in *.
  assert (Hb2 : tb_caps b2 = tb_caps b1 /\ tb_layers b2 = tb_layers b1 /\ tb_default b2 = tb_default b1 /\ tb_once_by b2 = tb_once_by b1 /\ (length (tb_latched b2) <= 4)%nat).
  { unfold b2, mods_hear. rewrite <- B1 in Hl. destruct ie as [i|i|ko|ko], (tb_latched_by b1) as [j|]; cbn; auto 10.
    - destruct sr; cbn; auto 10 with arith.
    - destruct (tb_latched b1) eqn:El; [cbn; rewrite El; auto 10|]. destruct (i =? j); cbn; auto 10 with arith. rewrite El. auto 10. }
  destruct Hb2 as (C1 & C2 & C3 & C4 & C5).
  assert (Eq : ke_map CeSticky kes = map (fun e => match e with EUp ko => immediate (EvInput (VirtualKeyRelease ko)) | _ => immediate (EvInput (VirtualKeyPress ko_none)) end) es).
  { rewrite Ek. unfold ke_map. rewrite map_map. apply map_ext. intros []; reflexivity. }
  assert (Ex : @ke_extend cev [] (ke_map CeSticky kes) = Ok (ke_map CeSticky kes)) by (apply push_all_nil; rewrite Eq, map_length; exact H4).
  change (push_all_cap MAX_KEY_EVENTS [] ?x) with (ke_extend [] x) in *.
  assert (Q : queues (ke_map CeSticky kes) es).
  { rewrite Eq. clear -Hf. induction Hf as [|e es (ko & ->) _ IH]; cbn; constructor; [split; reflexivity|exact IH]. }
  assert (Ec : mkCtx (cx_automation c) (cwc b) h (lyc b1) (stc sr b2) (cx_tap_dance c) (cx_tap_hold c) = ctx_for sr c h b2).
  { unfold ctx_for. f_equal; [unfold cwc; now rewrite C1, B3|unfold lyc; now rewrite C2, C3, C4]. }
  exists (ke_map CeSticky kes). split; [|split; [exact Q|split; [|split; [exact H4|]]]].
  - fold (ke_map CeSticky kes). unfold ke_map in Ex |- *. rewrite Ex. cbn [bind]. now rewrite Ec.
  - eapply Forall_impl; [|exact Hf]. intros e (ko & ->). exact Logic.I.
  - split; [reflexivity|]. split; [eapply chcalm_step; [exact c|exact Hch|exact Eh]|]. rewrite C2, C3, B4, B5. auto.
Qed.
Lemma caps_shift_code : ko_from_key_code 225 = caps_shift. Proof. reflexivity. Qed.
Lemma vk_ctx sr n c b ie : cok sr n c b -> match ie with VirtualKeyPress _ | VirtualKeyRelease _ => True | _ => False end ->
  cctx_handle_event c (EvInput ie) = Ok (c, []).
Proof. intros (Hc & _) H. rewrite Hc. destruct ie; try contradiction; reflexivity. Qed.
(** Events other than inputs. *)
Definition after_event (e : effect) (b : tboard) : tboard :=
  match e with ECaps on => caps_with on b | _ => carry b e end.
Definition leaves (e : effect) : list effect :=
  match e with ECaps true => [EDown caps_shift] | ECaps false => [EUp caps_shift] | _ => [] end.
Lemma effect_ctx sr n c b ev e : cok sr n c b -> encodes ev e -> effect_ok n e ->
  match e with EDown _ | EUp _ => False | _ => True end ->
  exists kes, cctx_handle_event c ev = Ok (ctx_for sr c (cx_chorded c) (after_event e b), kes) /\ queues kes (leaves e)
    /\ cok sr n (ctx_for sr c (cx_chorded c) (after_event e b)) (after_event e b).
Proof.
  intros (Hc & Hch & Hn & Hd & Hl) He Hok Hnv. rewrite Hc.
  change (cx_chorded (ctx_for sr c (cx_chorded c) b)) with (cx_chorded c).
  assert (Q : forall h b', ctx_for sr (ctx_for sr c h b) h b' = ctx_for sr c h b') by reflexivity.
  unfold cctx_handle_event, step_automation, step_caps_word, step_chorded, step_layered, step_sticky. cbn [cx_automation cx_caps_word cx_chorded cx_layered cx_sticky cx_tap_dance cx_tap_hold ctx_for].
  destruct ev as [ie|j ce|ke].
  - destruct ie; destruct e as [|?|[]| | |]; cbn in He, Hnv; try contradiction.
  - destruct ce as [ae|[|]|che|le|[m]|tde|the]; destruct e as [le'|?|[]|m'|ko|ko]; cbn [encodes] in He; try contradiction.
    + cbn. eexists. split; [reflexivity|]. split; [constructor; [split; reflexivity|constructor]|]. split; [reflexivity|]. auto.
    + cbn. eexists. split; [reflexivity|]. split; [constructor; [split; reflexivity|constructor]|]. split; [reflexivity|]. auto.
    + subst le'. cbn [try_event as_automation as_caps_word as_chorded as_layered as_sticky bind ke_extend push_all_cap ly_handle_event]. cbn [effect_ok] in Hok.
      rewrite layer_event_ctx by (now rewrite Hn). cbn [bind]. exists []. cbn [after_event carry leaves].
      split; [destruct le; reflexivity|]. split; [constructor|]. split; [destruct le; reflexivity|]. split; [exact Hch|].
      destruct le as [l|l|l|l|bits|l]; cbn [switch_layers layers_with tb_layers tb_default tb_latched layer_event_okn] in *; rewrite ?put_length, ?put_all_length; split; try exact Hn; split; try exact Hl; try exact Hd.
      intros x Hx. destruct (N.eqb_spec l 0); [discriminate|]. injection Hx as <-. lia.
    + subst m'. cbn [try_event as_automation as_caps_word as_chorded as_layered as_sticky bind ke_extend push_all_cap st_handle_event stc stx_active stx_config stx_pressed].
      change MAX_STICKY_MODIFIERS with 4%nat. exists []. cbn [after_event carry leaves]. destruct (Nat.ltb_spec (length (tb_latched b)) 4) as [X|X].
      * split; [reflexivity|]. split; [constructor|]. split; [reflexivity|]. split; [exact Hch|]. cbn. rewrite app_length. cbn. split; [exact Hn|]. split; [exact Hd|]. lia.
      * split; [reflexivity|]. split; [constructor|]. split; [reflexivity|]. auto.
  - destruct ke as [cb|i ko]; destruct e as [le'|?|[]|m'|ko'|ko']; cbn [encodes] in He; try contradiction. subst. cbn. eexists. split; [reflexivity|]. split; [constructor|]. split; [reflexivity|]. auto.
Qed.
Lemma shift_bits m : has_modifiers m (mods_union LEFT_SHIFT_U8 RIGHT_SHIFT_U8) = shift_held m.
Proof.
  unfold has_modifiers, shift_held. change (mods_union LEFT_SHIFT_U8 RIGHT_SHIFT_U8) with 34.
  destruct (N.testbit m 1) eqn:E1; cbn [orb].
  - apply negb_true_iff, N.eqb_neq. intros H. assert (X : N.testbit (N.land m 34) 1 = false) by (rewrite H; reflexivity).
    rewrite N.land_spec, E1 in X. discriminate.
  - destruct (N.testbit m 5) eqn:E5.
    + apply negb_true_iff, N.eqb_neq. intros H. assert (X : N.testbit (N.land m 34) 5 = false) by (rewrite H; reflexivity).
      rewrite N.land_spec, E5 in X. discriminate.
    + apply negb_false_iff, N.eqb_eq. apply N.bits_inj. intros n. rewrite N.land_spec, N.bits_0.
      destruct (N.testbit 34 n) eqn:E; [|apply andb_false_r]. rewrite andb_true_r.
      assert (Hn : n = 1 \/ n = 5).
      { destruct (N.le_gt_cases n 5) as [Hle|Hgt].
        - assert (n = 0 \/ n = 1 \/ n = 2 \/ n = 3 \/ n = 4 \/ n = 5) as [->|[->|[->|[->|[->| ->]]]]] by lia; auto; discriminate.
        - rewrite N.bits_above_log2 in E; [discriminate|]. cbn. lia. }
      destruct Hn as [->| ->]; assumption.
Qed.
Lemma exits_word kc m : cw_exits kc m = negb (in_word (mkKO (Keyboard kc) m)).
Proof.
  unfold cw_exits, in_word. cbn [ko_usage ko_mods]. rewrite shift_bits. cbn [existsb].
  change 0x04 with 4. change 0x1D with 29. change 0x1E with 30. change 0x27 with 39. change 0x2A with 42. change 0x2D with 45. change 0x4C with 76. change 0xE1 with 225. change 0xE5 with 229.
  destruct ((4 <=? kc) && (kc <=? 29)); [reflexivity|]. cbn [orb]. destruct ((30 <=? kc) && (kc <=? 39) && negb (shift_held m)); [reflexivity|]. cbn [orb].
  destruct (kc =? 42); [reflexivity|]. destruct (kc =? 45); [reflexivity|]. destruct (kc =? 76); [reflexivity|]. destruct (kc =? 225); [reflexivity|]. destruct (kc =? 229); [reflexivity|]. destruct (kc =? 0); reflexivity.
Qed.
Lemma typed_ctx sr n c b i ko : cok sr n c b ->
  exists kes, cctx_handle_event c (EvKeymap (KmResolvedKeyOutput i ko)) = Ok (ctx_for sr c (cx_chorded c) (fst (typed i ko b)), kes)
    /\ queues kes (snd (typed i ko b)) /\ cok sr n (ctx_for sr c (cx_chorded c) (fst (typed i ko b))) (fst (typed i ko b)).
Proof.
  intros (Hc & Hch & Hn & Hd & Hl). rewrite Hc. change (cx_chorded (ctx_for sr c (cx_chorded c) b)) with (cx_chorded c).
  assert (Hok : cok sr n (ctx_for sr c (cx_chorded c) (fst (typed i ko b))) (fst (typed i ko b))).
  { split; [reflexivity|]. split; [exact Hch|]. cbn. auto. }
  assert (Est : step_sticky (stc sr b) (EvKeymap (KmResolvedKeyOutput i ko)) = Ok (stc sr (fst (typed i ko b)), [])).
  { unfold step_sticky, stc. cbn. destruct (tb_latched b) eqn:El; reflexivity. }
  assert (Ecw : exists kes, step_caps_word (cwc b) (EvKeymap (KmResolvedKeyOutput i ko)) = (cwc (fst (typed i ko b)), kes) /\ queues kes (snd (typed i ko b)) /\ (length kes <= 4)%nat).
  { unfold step_caps_word, cwc. cbn [try_event cw_handle_event cwx_active typed fst snd tb_caps]. destruct (tb_caps b); cbn [andb].
    - destruct ko as [[kc|cc|cu|mo] ms]; cbn [ko_usage ko_mods];
        try (cbn; eexists; split; [reflexivity|]; split; [constructor|cbn; lia]).
      rewrite exits_word. destruct (in_word (mkKO (Keyboard kc) ms)); cbn [negb].
      + eexists; split; [reflexivity|]; split; [constructor|cbn; lia].
      + eexists; split; [reflexivity|]. split; [constructor; [split; reflexivity|constructor]|cbn; lia].
    - eexists; split; [reflexivity|]; split; [constructor|cbn; lia]. }
  destruct Ecw as (kes & Ecw & Q & L). exists kes. split; [|split; [exact Q|exact Hok]].
  unfold cctx_handle_event. cbn [cx_automation cx_caps_word cx_chorded cx_layered cx_sticky cx_tap_dance cx_tap_hold ctx_for].
  unfold step_automation at 1. cbn [try_event auto_handle_event bind ke_map map ke_extend push_all_cap]. rewrite Ecw.
  unfold ke_extend. rewrite push_all_nil by exact L. cbn [bind]. unfold step_chorded, step_layered. cbn [try_event ch_handle_event ly_handle_event bind]. rewrite Est. reflexivity.
Qed.

Section Typing.
Variables (refs : list ref) (d : key_data) (pos : position_fn) (dbg : bool) (sr : sticky_release) (n height : nat).
Local Notation conf := (cconf refs d pos dbg).

(** ** The keys that are down *)
Definition behaves (lm : layer_modifier) (used : bool) : behavior :=
  match lm with LmSticky _ => if used then BhRegular else BhSticky | _ => BhRegular end.
Definition theld (pi : pressed_input ref cks) (x : thing) : Prop :=
  match pi, x with
  | PiKey i r ks, inl (j, m, used) =>
      i = j /\ match m with
      | TSends ko => plain_key d r ko /\ ks = ks_plain r
      | TSwitches lm => exists q, r = RLayered (LyModifier q) /\ nth_error (kd_layer_mods d) (N.to_nat q) = Some lm
                          /\ tmodifier_ok n lm /\ ks = KsLayerModifier (behaves lm used)
      | TCalls cb => exists q, r = RCallback q /\ ks = KsNoOp
      | TCapsWord => r = RCapsWord /\ ks = KsNoOp
      | TOneShot ms => exists q k, r = RSticky q /\ nth_error (kd_sticky d) (N.to_nat q) = Some k /\ ms = sk_mods k
                          /\ ks = KsSticky (if used then BhRegular else BhSticky)
      end
  | PiVirtual ko, inr ko' => ko = ko'
  | _, _ => False
  end.
Definition notice_ev (ev : event cev) (x : thing) : thing :=
  match ev with EvInput ie => notice ie x | EvKeymap (KmResolvedKeyOutput _ _) => used_together x | _ => x end.
Definition react_ev (ev : event cev) (x : thing) : list effect :=
  match ev with EvInput ie => reacts ie x | _ => [] end.
Local Ltac fq := first [apply Forall2_nil | apply Forall2_cons; [split; reflexivity|apply Forall2_nil]].
Local Ltac fe H := first [apply Forall_nil | apply Forall_cons; [exact H|apply Forall_nil]].
Lemma key_hears c ev i r ks x : theld (PiKey i r ks) x ->
  exists ks' kes, c_update_state d ks r c i ev = Ok (ks', kes) /\ theld (PiKey i r ks') (notice_ev ev x)
    /\ queues kes (react_ev ev x) /\ Forall (effect_ok n) (react_ev ev x).
Proof.
  destruct x as [[[j m] used]|ko]; [|contradiction]. intros (<- & H).
  destruct m as [ko|lm|cb| |ms].
  - destruct H as (H & ->). exists (ks_plain r), []. rewrite (plain_update d r ko _ c i ev H). split; [reflexivity|].
    assert (E : notice_ev ev (inl (i, TSends ko, used)) = inl (i, TSends ko, used)) by (destruct ev as [[]| |[]]; reflexivity).
    assert (F : react_ev ev (inl (i, TSends ko, used)) = []) by (destruct ev as [[k|k| |]| |[]]; cbn; try reflexivity; destruct (k =? i); reflexivity).
    rewrite E, F. split; [split; [reflexivity|auto]|split; constructor].
  - destruct H as (q & -> & Hm & Hok & ->). cbn [c_update_state].
    destruct ev as [ie|j ce|ke]; cbn [try_event].
    + cbn [ly_update_state]. unfold index. rewrite Hm. cbn [bind].
      destruct ie as [k|k|ko|ko]; destruct lm as [l|l|l|bits|l]; cbn [lm_handle_event behaves notice_ev notice react_ev reacts at_release release_effect];
        try (eexists _, _; split; [reflexivity|]; split; [split; [reflexivity|exists q; auto]|split; constructor]).
      * destruct used; (eexists _, _; split; [reflexivity|]; split; [split; [reflexivity|exists q; auto]|split; [fq|fe Hok]]).
      * rewrite (N.eqb_sym i k). destruct (k =? i); (eexists _, _; split; [reflexivity|]; split; [split; [reflexivity|exists q; auto]|split; [fq|fe Hok]]).
      * destruct (k =? i); (eexists _, _; split; [reflexivity|]; split; [split; [reflexivity|exists q; auto]|split; constructor]).
      * rewrite (N.eqb_sym i k). destruct used; destruct (k =? i); (eexists _, _; split; [reflexivity|]; split; [split; [reflexivity|exists q; auto]|split; [fq|fe Hok]]).
      * destruct (k =? i); (eexists _, _; split; [reflexivity|]; split; [split; [reflexivity|exists q; auto]|split; constructor]).
      * rewrite (N.eqb_sym i k). destruct (k =? i); (eexists _, _; split; [reflexivity|]; split; [split; [reflexivity|exists q; auto]|split; [fq|fe Hok]]).
    + destruct (as_layered ce) as [le|]; [|eexists _, _; split; [reflexivity|]; split; [split; [reflexivity|exists q; auto]|split; constructor]].
      cbn [ly_update_state]. unfold index. rewrite Hm. cbn [bind].
      destruct lm as [l|l|l|bits|l]; cbn [lm_handle_event behaves notice_ev react_ev];
        try (eexists _, _; split; [reflexivity|]; split; [split; [reflexivity|exists q; auto]|split; constructor]).
    + cbn [ly_update_state]. unfold index. rewrite Hm. cbn [bind].
      destruct ke; destruct lm as [l|l|l|bits|l]; cbn [lm_handle_event behaves notice_ev used_together react_ev];
        (eexists _, _; split; [reflexivity|]; split; [split; [reflexivity|exists q; auto]|split; constructor]).
  - destruct H as (q & -> & ->). exists KsNoOp, []. split; [reflexivity|].
    assert (E : notice_ev ev (inl (i, TCalls cb, used)) = inl (i, TCalls cb, used)) by (destruct ev as [[]| |[]]; reflexivity).
    assert (F : react_ev ev (inl (i, TCalls cb, used)) = []) by (destruct ev as [[k|k| |]| |[]]; cbn; try reflexivity; destruct (k =? i); reflexivity).
    rewrite E, F. split; [split; [reflexivity|exists q; auto]|split; constructor].
  - destruct H as (-> & ->). exists KsNoOp, []. split; [reflexivity|].
    assert (E : notice_ev ev (inl (i, TCapsWord, used)) = inl (i, TCapsWord, used)) by (destruct ev as [[]| |[]]; reflexivity).
    assert (F : react_ev ev (inl (i, TCapsWord, used)) = []) by (destruct ev as [[k|k| |]| |[]]; cbn; try reflexivity; destruct (k =? i); reflexivity).
    rewrite E, F. split; [split; [reflexivity|auto]|split; constructor].
  - destruct H as (q & sk & -> & Hm & -> & ->). cbn [c_update_state]. unfold index. rewrite Hm. cbn [bind].
    destruct ev as [ie|j ce|ke]; cbn [try_event].
    + destruct ie as [k|k|ko|ko]; destruct used; cbn [bind st_update_state notice_ev notice react_ev reacts at_release];
        try (eexists _, _; split; [reflexivity|]; split; [split; [reflexivity|exists q, sk; auto]|split; constructor]).
      * destruct (k =? i); (eexists _, _; split; [reflexivity|]; split; [split; [reflexivity|exists q, sk; auto]|split; constructor]).
      * destruct (k =? i); (eexists _, _; split; [reflexivity|]; split; [split; [reflexivity|exists q, sk; auto]|split; [repeat (apply Forall2_cons; [split; reflexivity|]); apply Forall2_nil|repeat constructor]]).
    + destruct (as_sticky ce) as [se|]; cbn [bind]; [destruct used|]; (eexists _, _; split; [reflexivity|]; split; [split; [reflexivity|exists q, sk; auto]|split; constructor]).
    + destruct ke, used; (eexists _, _; split; [reflexivity|]; split; [split; [reflexivity|exists q, sk; auto]|split; constructor]).
Qed.
Lemma keys_hear c ev pis l : Forall2 theld pis l -> forall s es0, pend (sc_pending s) es0 ->
  (length es0 + length (flat_map (react_ev ev) l) <= 31)%nat ->
  exists pis' s', update_pressed_list conf c ev pis s = Ok (pis', s') /\ Forall2 theld pis' (map (notice_ev ev) l)
    /\ pend (sc_pending s') (es0 ++ flat_map (react_ev ev) l) /\ Forall (effect_ok n) (flat_map (react_ev ev) l)
    /\ sc_scheduled s' = sc_scheduled s /\ sc_counter s' = sc_counter s.
Proof.
  induction 1 as [|pi x pis l H Hl IH]; intros s es0 Hp Hb; cbn [update_pressed_list map flat_map].
  - exists [], s. rewrite app_nil_r. auto 10.
  - destruct pi as [i r ks|ko].
    + cbn [kc_sys cconf composite sys_update_state kc_pos]. destruct (key_hears c ev i r ks x H) as (ks' & kes & E & H' & Q & Hok). rewrite E. cbn [bind].
      cbn [flat_map] in Hb. rewrite app_length in Hb.
      destruct (sched_queue pos _ _ Q s es0 Hp ltac:(lia)) as (s1 & E1 & P1 & A1 & B1). rewrite E1. cbn [bind].
      destruct (IH s1 (es0 ++ react_ev ev x) P1) as (pis' & s' & E2 & H2 & P2 & Hok2 & A2 & B2); [rewrite app_length; lia|].
      rewrite E2. cbn [bind]. exists (PiKey i r ks' :: pis'), s'. split; [reflexivity|]. split; [constructor; assumption|]. rewrite app_assoc. split; [exact P2|].
      split; [apply Forall_app; split; assumption|]. split; congruence.
    + destruct x as [[[j m] u]|ko']; [contradiction|]. cbn in H. subst ko'.
      assert (E1 : notice_ev ev (inr ko) = inr ko) by (destruct ev as [[]| |[]]; reflexivity). assert (E2 : react_ev ev (inr ko) = []) by (destruct ev as [[]| |[]]; reflexivity).
      cbn [flat_map] in Hb. rewrite E1, E2 in *. cbn [app length] in *. destruct (IH s es0 Hp Hb) as (pis' & s' & E & H' & X). rewrite E. cbn [bind].
      exists (PiVirtual ko :: pis'), s'. split; [reflexivity|]. split; [constructor; [reflexivity|exact H']|exact X].
Qed.

(** ** The keymap stands for a board *)
Definition tstate (sch : list (sch_entry cev)) (b : tboard) (k : ckeymap) : Prop :=
  cok sr n (km_ctx k) b /\ Forall2 theld (km_pressed k) (tb_down b) /\ NoDup (keys_of b) /\ (length (tb_down b) <= 16)%nat
  /\ sc_scheduled (km_sched k) = sch /\ km_pending k = None /\ km_calls k = filter_map (lm_get (km_callbacks k)) (tb_calls b).

Definition outcome {A} (room : Prop) (m : res A) (Q : A -> Prop) : Prop :=
  match m with Ok a => Q a | Panic => ~ room | NoFuel => False end.
Lemma outcome_impl {A} (r1 r2 : Prop) (m : res A) (Q1 Q2 : A -> Prop) : outcome r1 m Q1 -> (r2 -> r1) -> (forall a, Q1 a -> Q2 a) -> outcome r2 m Q2.
Proof. destruct m; cbn; auto. Qed.

Lemma theld_length pis l : Forall2 theld pis l -> length pis = length l.
Proof. induction 1; cbn; congruence. Qed.
Lemma theld_has pis l i : Forall2 theld pis l -> existsb (pi_has_index i) pis = existsb (key_is i) l.
Proof.
  induction 1 as [|pi x pis l H _ IH]; [reflexivity|]. cbn [existsb]. rewrite IH.
  destruct pi as [j r ks|ko], x as [[[j' m] u]|ko']; cbn in H; try contradiction; [|reflexivity]. destruct H as (-> & _). reflexivity.
Qed.
Lemma theld_remove pis l i : Forall2 theld pis l -> Forall2 theld (remove_first (pi_has_index i) pis) (remove_first (key_is i) l).
Proof.
  induction 1 as [|pi x pis l H Hl IH]; [constructor|]. cbn [remove_first].
  destruct pi as [j r ks|ko], x as [[[j' m] u]|ko']; cbn in H; try contradiction; cbn [pi_has_index key_is].
  - destruct H as (-> & H). destruct (i =? j'); [exact Hl|]. constructor; [split; [reflexivity|exact H]|exact IH].
  - constructor; [exact H|exact IH].
Qed.
Lemma theld_remove_virtual pis l ko : Forall2 theld pis l ->
  Forall2 theld (remove_first (fun pi => match pi with PiVirtual ko' => ko_eqb ko ko' | PiKey _ _ _ => false end) pis) (remove_first (virtual_is ko) l).
Proof.
  induction 1 as [|pi x pis l H Hl IH]; [constructor|]. cbn [remove_first].
  destruct pi as [j r ks|ko1], x as [[[j' m] u]|ko2]; cbn in H; try contradiction; cbn [virtual_is].
  - constructor; [exact H|exact IH].
  - subst ko2. destruct (ko_eqb ko ko1); [exact Hl|]. constructor; [reflexivity|exact IH].
Qed.
Definition keysl (l : list thing) : list u16 := filter_map (fun x => match x with inl (i, _, _) => Some i | inr _ => None end) l.
Lemma keysl_app l m : keysl (l ++ m) = keysl l ++ keysl m. Proof. apply filter_map_app. Qed.
Lemma keysl_virtual ko l : keysl (remove_first (virtual_is ko) l) = keysl l.
Proof. induction l as [|[[[j m] u]|ko'] l IH]; cbn; [reflexivity| |]; [fold (keysl l); now rewrite <- IH|]. destruct (ko_eqb ko ko'); [reflexivity|]. exact IH. Qed.
Lemma keysl_map f l : (forall i m u, exists m' u', f (inl (i, m, u)) = inl (i, m', u')) -> (forall ko, f (inr ko) = inr ko) -> keysl (map f l) = keysl l.
Proof.
  intros H1 H2. induction l as [|[[[j m] u]|ko'] l IH]; cbn; [reflexivity| |].
  - destruct (H1 j m u) as (m' & u' & ->). fold (keysl l). now rewrite <- IH.
  - rewrite H2. exact IH.
Qed.
Lemma keysl_In i l : existsb (key_is i) l = true <-> In i (keysl l).
Proof.
  induction l as [|[[[j m] u]|ko'] l IH]; cbn; [split; [discriminate|contradiction]| |exact IH].
  rewrite orb_true_iff, IH, N.eqb_eq. fold (keysl l). split; intros [H|H]; auto.
Qed.
Lemma keysl_remove i l : NoDup (keysl l) -> NoDup (keysl (remove_first (key_is i) l)) /\ forall x, In x (keysl (remove_first (key_is i) l)) <-> In x (keysl l) /\ x <> i.
Proof.
  induction l as [|[[[j m] u]|ko'] l IH]; intros H.
  - cbn. split; [constructor|]. tauto.
  - change (keysl (inl (j, m, u) :: l)) with (j :: keysl l) in *. inversion H as [|? ? Hni Hnd]; subst. cbn [remove_first key_is].
    destruct (N.eqb_spec i j) as [->|Hne].
    + split; [exact Hnd|]. intros x. split; [intros Hx; split; [now right|]; intros ->; contradiction|intros ([->|Hx] & Hn); [congruence|exact Hx]].
    + destruct (IH Hnd) as (A & B). change (keysl (inl (j, m, u) :: remove_first (key_is i) l)) with (j :: keysl (remove_first (key_is i) l)). split.
      * constructor; [|exact A]. intros X. apply B in X. tauto.
      * intros x. cbn [In]. rewrite B. split; [intros [->|X]; [split; [now left|congruence]|tauto]|tauto].
  - exact (IH H).
Qed.
Lemma remove_length {A} (f : A -> bool) l : (length (remove_first f l) <= length l)%nat.
Proof. induction l as [|x l IH]; cbn; [lia|]. destruct (f x); cbn; lia. Qed.

Local Notation tkeep Q k := (fun k' => Q k' /\ sc_pending (km_sched k') = [] /\ frame k k').

(** An event that is not an input. *)
Lemma effect_step sch f b (k : ckeymap) ev e es : tstate sch b k -> pend (sc_pending (km_sched k)) es -> (length es <= 30)%nat -> encodes ev e -> effect_ok n e ->
  match e with EDown _ | EUp _ => False | _ => True end ->
  exists k', exec conf (S (S f)) (JHandleEvent ev) k = Ok k' /\ tstate sch (after_event e b) k' /\ pend (sc_pending (km_sched k')) (es ++ leaves e) /\ frame k k'.
Proof.
  intros H Hpe Hl He Hok Hnv. pose proof H as (Hc & Hh & Hnd & H16 & Hs & Hp & Hcl).
  change (exec conf (S (S f)) (JHandleEvent ev) k) with (step_handle_event conf (exec conf (S f)) ev k). unfold step_handle_event.
  assert (Hup : forall k0 : ckeymap, km_pending k0 = None -> exec conf (S f) (JUpdatePending ev) k0 = Ok k0) by (intros k0 X; cbn; unfold step_update_pending; now rewrite X).
  assert (Hn : forall x, notice_ev ev x = x) by (destruct ev as [[]| |[]]; destruct e as [|?|[]| | |]; try contradiction; reflexivity).
  assert (Hr : forall l, flat_map (react_ev ev) l = []) by (intros l; destruct ev as [[]| |[]]; destruct e as [|?|[]| | |]; try contradiction; induction l; auto).
  set (k0 := run_callback k ev).
  assert (F0 : frame k k0 /\ km_ctx k0 = km_ctx k /\ km_pressed k0 = km_pressed k /\ km_sched k0 = km_sched k /\ km_pending k0 = None
            /\ km_calls k0 = filter_map (lm_get (km_callbacks k)) (tb_calls (after_event e b))).
  { unfold k0. destruct ev as [[?|?|?|?]|i [?|[]|?|le1|[m1]|?|?]|[cb|i ko]]; destruct e as [le|cb'|[]|m'|ko'|ko']; cbn [encodes] in He; try contradiction; cbn [run_callback];
      try (split; [apply frame_refl|]; do 3 (split; [reflexivity|]); split; [exact Hp|]; rewrite Hcl; cbn; try reflexivity).
    - destruct le; reflexivity.
    - match goal with |- context [if ?x then _ else _] => destruct x end; reflexivity.
    - subst cb'. destruct (lm_get (km_callbacks k) cb) eqn:E; (split; [unfold frame; cbn; auto 10|]; do 3 (split; [reflexivity|]); split; [exact Hp|]); cbn; rewrite filter_map_app; cbn; rewrite E, Hcl; [reflexivity|now rewrite app_nil_r]. }
  destruct F0 as (F0 & C0 & P0 & S0 & N0 & L0). rewrite (Hup k0 N0). cbn [bind]. unfold update_pressed. rewrite C0, P0, S0.
  destruct (keys_hear (km_ctx k) ev _ _ Hh (km_sched k) es Hpe) as (pis' & s' & E & Hh' & P' & _ & A' & B'); [rewrite Hr; cbn; lia|].
  rewrite Hr, app_nil_r in P'. rewrite (map_ext _ _ Hn), map_id in Hh'. rewrite E. cbn [bind].
  unfold update_context. cbn [km_ctx set_sched set_pressed kc_sys cconf composite sys_ctx_handle_event]. rewrite C0.
  destruct (effect_ctx sr n _ b ev e Hc He Hok Hnv) as (kes & E2 & Q & Hc'). rewrite E2. cbn [bind]. unfold schedule_all. cbn [km_sched set_ctx set_sched set_pressed kc_pos cconf].
  destruct (sched_queue pos _ _ Q s' es P') as (s2 & E3 & P2 & A2 & B2); [destruct e as [|?|[]| | |]; cbn; lia|]. rewrite E3. cbn [bind].
  eexists. split; [destruct ev as [[]| |]; destruct e as [|?|[]| | |]; try contradiction; reflexivity|]. split; [|split; [exact P2|]].
  - assert (Hd : tb_down (after_event e b) = tb_down b).
    { destruct e as [le|cb'|[]|m'|ko'|ko']; try contradiction; cbn; try reflexivity; [destruct le; reflexivity|match goal with |- context [if ?x then _ else _] => destruct x end; reflexivity]. }
    split; [exact Hc'|]. rewrite Hd. unfold keys_of. rewrite Hd. split; [exact Hh'|]. split; [exact Hnd|]. split; [exact H16|]. split; [cbn; congruence|]. split; [exact N0|].
    cbn. rewrite L0. destruct F0 as (_ & _ & _ & _ & _ & _ & G). now rewrite G.
  - eapply frame_trans; [exact F0|]. destruct F0 as (A & B & C & D & X & Y & Z). unfold frame. cbn. rewrite B2, B', C0, S0. auto 10.
Qed.
(** Virtual keys go unnoticed by keys and contexts. *)
Definition vk_of (e : effect) : option input_event :=
  match e with EDown ko => Some (VirtualKeyPress ko) | EUp ko => Some (VirtualKeyRelease ko) | _ => None end.
Lemma vk_pass sch b (k : ckeymap) e ie es : tstate sch b k -> pend (sc_pending (km_sched k)) es -> (length es <= 31)%nat -> vk_of e = Some ie ->
  exists k', (let! k1 := update_pressed conf k (EvInput ie) in update_context conf k1 (EvInput ie)) = Ok k'
    /\ tstate sch b k' /\ pend (sc_pending (km_sched k')) es /\ frame k k'.
Proof.
  intros (Hc & Hh & Hnd & H16 & Hs & Hp & Hcl) Hpe Hl He.
  assert (Hie : match ie with VirtualKeyPress _ | VirtualKeyRelease _ => True | _ => False end) by (destruct e; try discriminate; injection He as <-; exact Logic.I).
  assert (Hn : forall x, notice_ev (EvInput ie) x = x) by (destruct ie; try contradiction; reflexivity).
  assert (Hr : forall l, flat_map (react_ev (EvInput ie)) l = []) by (intros l; destruct ie; try contradiction; induction l; auto).
  unfold update_pressed. destruct (keys_hear (km_ctx k) (EvInput ie) _ _ Hh (km_sched k) es Hpe) as (pis' & s' & E & Hh' & P' & _ & A' & B'); [rewrite Hr; cbn; lia|].
  rewrite Hr, app_nil_r in P'. rewrite (map_ext _ _ Hn), map_id in Hh'. rewrite E. cbn [bind].
  unfold update_context. cbn [km_ctx set_sched set_pressed kc_sys cconf composite sys_ctx_handle_event]. rewrite (vk_ctx sr n _ b ie Hc Hie). cbn [bind].
  unfold schedule_all, sched_all. cbn [fold_res bind]. eexists. split; [reflexivity|]. split; [|split; [exact P'|unfold frame; cbn; auto 10]].
  split; [exact Hc|]. split; [exact Hh'|]. split; [exact Hnd|]. split; [exact H16|]. split; [cbn; congruence|]. split; [exact Hp|exact Hcl].
Qed.
Lemma vk_dispatch sch rec b (k : ckeymap) e ie es : tstate sch b k -> pend (sc_pending (km_sched k)) es -> vk_of e = Some ie ->
  outcome ((length (tb_down (carry b e)) <= 16)%nat) (step_input_dispatch conf rec ie k) (fun k' => tstate sch (carry b e) k' /\ pend (sc_pending (km_sched k')) es /\ frame k k').
Proof.
  intros (Hc & Hh & Hnd & H16 & Hs & Hp & Hcl) Hpe He. destruct e as [?|?|?|?|ko|ko]; try discriminate; injection He as <-; cbn [step_input_dispatch carry].
  - unfold push_cap. rewrite (theld_length _ _ Hh). change MAX_PRESSED_KEYS with 16%nat.
    destruct (Nat.ltb_spec (length (tb_down b)) 16) as [L|L]; cbn [bind outcome].
    + split; [|split; [exact Hpe|unfold frame; cbn; auto 10]]. split; [exact Hc|]. split; [cbn; apply Forall2_app; [exact Hh|constructor; [reflexivity|constructor]]|].
      split; [unfold keys_of; cbn; fold (keysl (tb_down b ++ [inr ko])); rewrite keysl_app; cbn; now rewrite app_nil_r|]. split; [cbn; rewrite app_length; cbn; lia|]. auto.
    + cbn. rewrite app_length. cbn. lia.
  - cbn [outcome]. split; [|split; [exact Hpe|unfold frame; cbn; auto 10]]. split; [exact Hc|]. split; [cbn; now apply theld_remove_virtual|].
    split; [unfold keys_of; cbn; fold (keysl (remove_first (virtual_is ko) (tb_down b))); now rewrite keysl_virtual|]. split; [cbn; pose proof (remove_length (virtual_is ko) (tb_down b)); lia|]. auto.
Qed.

(** ** Draining the queue *)
Definition tdone sch (k : ckeymap) (b : tboard) (k' : ckeymap) : Prop := tstate sch b k' /\ sc_pending (km_sched k') = [] /\ frame k k'.
Lemma outcome_bind {A B} (room : Prop) (m : res A) (f : A -> res B) (P : A -> Prop) (Q : B -> Prop) :
  outcome room m P -> (forall a, P a -> outcome room (f a) Q) -> outcome room (bind m f) Q.
Proof. destruct m; cbn; auto. Qed.
Lemma drain_step sch (room : Prop) b1 F b (k : ckeymap) e es : tstate sch b k -> pend (sc_pending (km_sched k)) (e :: es) -> (length es <= 30)%nat -> effect_ok n e ->
  match e with ECaps _ => False | _ => True end -> (room -> (length (tb_down (carry b e)) <= 16)%nat) ->
  (forall f' (k' : ckeymap), (F <= f')%nat -> tstate sch (carry b e) k' -> pend (sc_pending (km_sched k')) es -> outcome room (exec conf f' JHandlePending k') (tdone sch k' b1)) ->
  forall f, (F + 3 <= f)%nat -> outcome room (exec conf f JHandlePending k) (tdone sch k b1).
Proof.
  intros H Hpe Hl Hok Hnc Hroom Hnext f Hf. destruct f as [|f]; [lia|].
  change (exec conf (S f) JHandlePending k) with (step_handle_pending (exec conf f) k). unfold step_handle_pending, sched_dequeue.
  inversion Hpe as [|o ? l ? He Hpe' E1 E2]; subst. destruct o as [ev|]; [|contradiction].
  set (k0 := set_sched k _). assert (H0 : tstate sch b k0) by exact H. assert (F0 : frame k k0) by (unfold frame; cbn; auto 10).
  assert (P0 : pend (sc_pending (km_sched k0)) es) by exact Hpe'.
  destruct (vk_of e) as [ie|] eqn:Ev.
  - assert (ev = EvInput ie) as -> by (destruct ev as [[?|?|?|?]|i [?|[]|?|?|[?]|?|?]|[?|? ?]]; destruct e as [?|?|[]|?|?|?]; cbn in He, Ev; try contradiction; try discriminate; congruence).
    destruct f as [|f]; [lia|]. change (exec conf (S f) (JHandleEvent (EvInput ie)) k0) with (step_handle_event conf (exec conf f) (EvInput ie) k0).
    unfold step_handle_event. cbn [run_callback]. destruct f as [|f]; [lia|]. cbn [exec step]. unfold step_update_pending.
    assert (N0 : km_pending k0 = None) by apply H0. rewrite N0. cbn [bind].
    destruct (vk_pass sch b k0 e ie es H0 P0 ltac:(lia) Ev) as (k1 & E1' & H1 & P1 & F1).
    assert (X : forall (g : ckeymap -> res ckeymap), (let! k2 := update_pressed conf k0 (EvInput ie) in let! k3 := update_context conf k2 (EvInput ie) in g k3) = g k1).
    { intros g. destruct (update_pressed conf k0 (EvInput ie)) as [x| |]; cbn [bind] in E1' |- *; try discriminate. rewrite E1'. reflexivity. }
    rewrite X. unfold step_process_input. assert (N1 : km_pending k1 = None) by apply H1. rewrite N1.
    destruct (vk_pass sch b k1 e ie es H1 P1 ltac:(lia) Ev) as (k2 & E2' & H2 & P2 & F2).
    assert (X2 : forall (g : ckeymap -> res ckeymap), (let! k3 := update_pressed conf k1 (EvInput ie) in let! k4 := update_context conf k3 (EvInput ie) in g k4) = g k2).
    { intros g. destruct (update_pressed conf k1 (EvInput ie)) as [x| |]; cbn [bind] in E2' |- *; try discriminate. rewrite E2'. reflexivity. }
    rewrite X2. eapply outcome_bind.
    + eapply outcome_bind; [eapply outcome_impl; [eapply (vk_dispatch sch (exec conf f) b k2 e ie es H2 P2 Ev)|exact Hroom|intros a X3; exact X3]|].
      cbn beta. intros k3 (H3 & P3 & F3). eapply outcome_impl; [apply (Hnext f k3); [lia|exact H3|exact P3]|auto|].
      intros k4 (H4 & P4 & F4). instantiate (1 := fun k4 => tdone sch k b1 k4). split; [exact H4|]. split; [exact P4|].
      eapply frame_trans; [exact F0|]. eapply frame_trans; [exact F1|]. eapply frame_trans; [exact F2|]. eapply frame_trans; [exact F3|exact F4].
    + cbn beta. intros k4 (H4 & P4 & F4). change (outcome room (exec conf (S (S f)) JHandlePending k4) (tdone sch k b1)).
      rewrite (drain0 refs d pos dbg (S f) k4 P4). cbn. split; [exact H4|split; [exact P4|exact F4]].
  - assert (Hnv : match e with EDown _ | EUp _ => False | _ => True end) by (destruct e; try exact Logic.I; discriminate).
    destruct f as [|[|f]]; [lia..|]. destruct (effect_step sch f b k0 ev e es H0 P0 Hl He Hok Hnv) as (k1 & E & H1 & P1 & F1). rewrite E. cbn [bind].
    assert (Ea : after_event e b = carry b e) by (destruct e; try contradiction; reflexivity). assert (El : leaves e = []) by (destruct e; try contradiction; reflexivity).
    rewrite Ea in H1. rewrite El, app_nil_r in P1. eapply outcome_impl; [apply (Hnext (S (S f)) k1); [lia|exact H1|exact P1]|auto|].
    intros k4 (H4 & P4 & F4). split; [exact H4|]. split; [exact P4|]. eapply frame_trans; [exact F0|]. eapply frame_trans; [exact F1|exact F4].
Qed.
Fixpoint roomy (es : list effect) (b : tboard) : Prop :=
  match es with [] => True | e :: t => (length (tb_down (carry b e)) <= 16)%nat /\ roomy t (carry b e) end.
Fixpoint caps_last (es : list effect) : Prop :=
  match es with [] => True | ECaps _ :: t => t = [] | _ :: t => caps_last t end.
Lemma drain_all sch (room : Prop) es : forall b (k : ckeymap), tstate sch b k -> pend (sc_pending (km_sched k)) es -> (length es <= 31)%nat -> Forall (effect_ok n) es ->
  caps_last es -> (room -> roomy es b) ->
  forall f, (3 * length es + 6 <= f)%nat -> outcome room (exec conf f JHandlePending k) (tdone sch k (carry_out es b)).
Proof.
  induction es as [|e es IH]; intros b k H Hpe Hl Hok Hcl Hroom f Hf.
  - inversion Hpe as [E|]. destruct f as [|f]; [lia|]. symmetry in E. rewrite (drain0 refs d pos dbg f k E). cbn. split; [exact H|split; [exact E|apply frame_refl]].
  - inversion Hok as [|? ? Hok1 Hok2]; subst. cbn [length] in *. cbn [roomy] in Hroom. cbn [carry_out fold_left].
    destruct (match e with ECaps on => Some on | _ => None end) as [on|] eqn:Ec.
    + assert (e = ECaps on) as -> by (destruct e; congruence). cbn in Hcl. subst es.
      destruct f as [|f]; [lia|]. change (exec conf (S f) JHandlePending k) with (step_handle_pending (exec conf f) k). unfold step_handle_pending, sched_dequeue.
      inversion Hpe as [|o ? l ? He Hpe' E1 E2]; subst. destruct o as [ev|]; [|contradiction].
      set (k0 := set_sched k _). assert (H0 : tstate sch b k0) by exact H. assert (F0 : frame k k0) by (unfold frame; cbn; auto 10).
      assert (P0 : pend (sc_pending (km_sched k0)) []) by exact Hpe'. destruct f as [|[|f]]; [lia..|].
      destruct (effect_step sch f b k0 ev (ECaps on) [] H0 P0 ltac:(cbn; lia) He Logic.I Logic.I) as (k1 & E & H1 & P1 & F1). rewrite E. cbn [bind].
      assert (El : exists e', leaves (ECaps on) = [e'] /\ carry (after_event (ECaps on) b) e' = carry b (ECaps on) /\ effect_ok n e' /\ match e' with ECaps _ => False | _ => True end)
        by (destruct on; eexists; (split; [reflexivity|]); repeat split).
      destruct El as (e' & El & Ecar & Hok' & Hnc). rewrite El in P1. cbn [app] in P1.
      eapply outcome_impl; [eapply (drain_step sch room (carry b (ECaps on)) 1 _ k1 e' [] H1 P1)|auto|].
      * cbn. lia.
      * exact Hok'.
      * exact Hnc.
      * rewrite Ecar. intros R. exact (proj1 (Hroom R)).
      * intros f' k' Hf' H' P'. inversion P' as [E'|]. symmetry in E'. destruct f' as [|f']; [lia|]. rewrite (drain0 refs d pos dbg f' k' E'). rewrite Ecar in H'. split; [exact H'|split; [exact E'|apply frame_refl]].
      * lia.
      * intros k4 (H4 & P4 & F4). split; [exact H4|split; [exact P4|]]. eapply frame_trans; [exact F0|]. eapply frame_trans; [exact F1|exact F4].
    + assert (Hnc : match e with ECaps _ => False | _ => True end) by (destruct e; try exact Logic.I; discriminate).
      assert (Hcl' : caps_last es) by (destruct e; try exact Hcl; contradiction).
      apply (drain_step sch room _ (3 * length es + 6) b k e es H Hpe); [lia|exact Hok1|exact Hnc|intros R; exact (proj1 (Hroom R))| |lia].
      intros f' k' Hf' H' P'. apply (IH (carry b e) k' H' P'); [lia|exact Hok2|exact Hcl'|intros R; exact (proj2 (Hroom R))|exact Hf'].
Qed.

(** ** A key goes down *)
Lemma typed_step sch f b (k : ckeymap) i ko es : tstate sch b k -> pend (sc_pending (km_sched k)) es -> (length es <= 30)%nat ->
  exists k', exec conf (S (S f)) (JHandleEvent (EvKeymap (KmResolvedKeyOutput i ko))) k = Ok k' /\ tstate sch (fst (typed i ko b)) k'
    /\ pend (sc_pending (km_sched k')) (es ++ snd (typed i ko b)) /\ frame k k'.
Proof.
  intros H Hpe Hl. pose proof H as (Hc & Hh & Hnd & H16 & Hs & Hp & Hcl). set (ev := EvKeymap (KmResolvedKeyOutput i ko)).
  change (exec conf (S (S f)) (JHandleEvent ev) k) with (step_handle_event conf (exec conf (S f)) ev k). unfold step_handle_event.
  change (run_callback k ev) with k. assert (Hup : exec conf (S f) (JUpdatePending ev) k = Ok k) by (cbn; unfold step_update_pending; now rewrite Hp).
  rewrite Hup. cbn [bind]. unfold update_pressed.
  assert (Hr : forall l, flat_map (react_ev ev) l = []) by (intros l; induction l; auto).
  destruct (keys_hear (km_ctx k) ev _ _ Hh (km_sched k) es Hpe) as (pis' & s' & E & Hh' & P' & _ & A' & B'); [rewrite Hr; cbn; lia|].
  rewrite Hr, app_nil_r in P'. change (map (notice_ev ev) (tb_down b)) with (map used_together (tb_down b)) in Hh'. rewrite E. cbn [bind].
  unfold update_context. cbn [km_ctx set_sched set_pressed kc_sys cconf composite sys_ctx_handle_event].
  destruct (typed_ctx sr n _ b i ko Hc) as (kes & E2 & Q & Hc'). unfold ev. rewrite E2. cbn [bind]. unfold schedule_all. cbn [km_sched set_ctx set_sched set_pressed kc_pos cconf].
  destruct (sched_queue pos _ _ Q s' es P') as (s2 & E3 & P2 & A2 & B2).
  { unfold typed. cbn [snd]. destruct (tb_caps b && negb (in_word ko)); cbn; lia. }
  rewrite E3. cbn [bind]. eexists. split; [reflexivity|]. split; [|split; [exact P2|]].
  - split; [exact Hc'|]. split; [exact Hh'|]. split; [|split; [cbn; now rewrite map_length|split; [cbn; congruence|split; [exact Hp|exact Hcl]]]].
    unfold keys_of. cbn. fold (keysl (map used_together (tb_down b))). rewrite keysl_map; [exact Hnd| |reflexivity].
    intros j m u. destruct m; cbn; eauto.
  - unfold frame. cbn. rewrite B2, B'. auto 10.
Qed.
Lemma nodup_new i m u b : NoDup (keys_of b) -> key_down i b = false -> NoDup (keysl (tb_down b ++ [inl (i, m, u)])).
Proof.
  intros H Hi. rewrite keysl_app. cbn. apply nodup_snoc; [exact H|]. intros X. apply keysl_In in X. unfold key_down in Hi. congruence.
Qed.
Lemma lookup_total (lk : layered_key ref) c b : cok sr n c b -> length (lk_layered lk) = n ->
  exists r', lk_new_pressed_key lk (cx_layered c) = Ok (NpkKey r') /\ acts_as lk (fun l => tb_on b l = true) (tb_default b) r'.
Proof.
  intros (Hc & _ & Hn & Hd & _) Hlen. assert (El : cx_layered c = lyc b) by (rewrite Hc; reflexivity).
  destruct (layered_total lk (lyc b)) as (r' & Er); [cbn; rewrite map_length; lia|cbn; rewrite map_length, Hn; exact Hd|].
  exists r'. rewrite El. split; [exact Er|]. apply layered_lookup in Er. cbn [lyc lyx_default] in Er. eapply acts_as_ext; [|exact Er].
  intros l. cbn beta. rewrite layer_on_is_on. unfold is_on. cbn [lyc lyx_active]. unfold tb_on, mode_of. rewrite nth_error_map.
  destruct (1 <=? l); [|reflexivity]. cbn [andb]. destruct (nth_error (tb_layers b) (N.to_nat (l - 1))) as [m|] eqn:E.
  - rewrite (nth_error_nth _ _ _ E). destruct m; reflexivity.
  - rewrite (nth_overflow _ _ (proj1 (nth_error_None _ _) E)). reflexivity.
Qed.
Lemma press_typing h r : tkey n d h r -> forall sch f i b (k : ckeymap) es, tstate sch b k -> pend (sc_pending (km_sched k)) es -> (length es <= 30)%nat -> key_down i b = false ->
  if (length (tb_down b) <? 16)%nat
  then exists m k', tmeans d (tb_on b) (tb_default b) r m /\ exec conf (S (S (S (h + f)))) (JPressLoop i r) k = Ok k'
    /\ tstate sch (fst (key_goes_down i m b)) k' /\ pend (sc_pending (km_sched k')) (es ++ snd (key_goes_down i m b)) /\ frame k k'
    /\ Forall (effect_ok n) (snd (key_goes_down i m b))
  else exec conf (S (S (S (h + f)))) (JPressLoop i r) k = Panic.
Proof.
  induction 1 as [h r ko Hk|h q lm Hm Hok|h q cb Hcb|h|h q sk Hk|h q lk Hk Hlen _ IHb _ IHl]; intros sch f i b k es H Hpe Hl Hi;
    pose proof H as (Hc & Hh & Hnd & H16 & Hs & Hp & Hcl); pose proof (theld_length _ _ Hh) as HL;
    match goal with |- context [exec conf (S ?f0) (JPressLoop i ?r0) k] => change (exec conf (S f0) (JPressLoop i r0) k) with (step_press_loop conf (exec conf f0) i r0 k) end;
    unfold step_press_loop; cbn [kc_sys cconf composite sys_new_pressed_key].
  - rewrite (plain_new d _ _ i (km_ctx k) Hk). cbn [bind schedule_all sched_all fold_res]. rewrite set_sched_id. unfold push_cap. rewrite HL. change MAX_PRESSED_KEYS with 16%nat.
    destruct (Nat.ltb_spec (length (tb_down b)) 16) as [Hlt|_]; [|reflexivity]. cbn [bind]. unfold emit_resolved. cbn [kc_sys cconf composite sys_key_output].
    rewrite (plain_output _ _ _ Hk). cbn [bind].
    set (k1 := set_pressed k _). assert (H1 : tstate sch (down_with b (tb_down b ++ [inl (i, TSends ko, false)])) k1).
    { split; [exact Hc|]. split; [cbn; apply Forall2_app; [exact Hh|constructor; [split; [reflexivity|auto]|constructor]]|]. split; [now apply nodup_new|].
      split; [cbn; rewrite app_length; cbn; lia|]. auto. }
    destruct (typed_step sch (h + f) _ k1 i ko es H1 Hpe Hl) as (k2 & E2 & B2 & P2 & F2).
    exists (TSends ko), k2. split; [now constructor|]. split; [exact E2|]. split; [exact B2|]. split; [exact P2|]. split; [exact (frame_trans _ _ _ ltac:(unfold frame; cbn; auto 10) F2)|].
    cbn [key_goes_down typed snd]. match goal with |- context [if ?x then _ else _] => destruct x end; repeat constructor.
  - cbn [c_new_pressed_key ly_new_pressed_key]. unfold index. rewrite Hm. cbn [bind].
    assert (E : lm_new_pressed_key lm = (behaves lm false, press_effect lm)) by (destruct lm; reflexivity). rewrite E. cbn [bind].
    unfold schedule_all. cbn [ke_map map map_sched immediate se_schedule se_event map_event].
    destruct (sched_queue pos [mkSE Immediate (EvKey i (CeLayered (press_effect lm)))] [ELayer (press_effect lm)] ltac:(constructor; [split; reflexivity|constructor]) (km_sched k) es Hpe) as (s1 & E1 & P1 & A1 & B1); [cbn; lia|].
    cbn [kc_pos cconf]. change (sched_all pos (km_sched k) _) with (sched_all pos (km_sched k) [mkSE Immediate (EvKey i (CeLayered (press_effect lm)))]). rewrite E1. cbn [bind map_pkr]. unfold push_cap. cbn [km_pressed set_sched]. rewrite HL. change MAX_PRESSED_KEYS with 16%nat.
    destruct (Nat.ltb_spec (length (tb_down b)) 16) as [Hlt|_]; [|reflexivity]. cbn [bind]. unfold emit_resolved. cbn [kc_sys cconf composite sys_key_output c_key_output bind].
    eexists (TSwitches lm), _. split; [now constructor|]. split; [reflexivity|]. split; [|split; [exact P1|split; [unfold frame; cbn; auto 10|]]].
    + split; [exact Hc|]. split; [cbn; apply Forall2_app; [exact Hh|constructor; [split; [reflexivity|exists q; auto]|constructor]]|]. split; [now apply nodup_new|].
      split; [cbn; rewrite app_length; cbn; lia|]. split; [cbn; congruence|]. auto.
    + cbn. apply Forall_cons; [|constructor]. destruct lm; exact Hok.
  - cbn [c_new_pressed_key]. unfold callback_new_pressed_key, index. rewrite Hcb. cbn [bind].
    unfold schedule_all. destruct (sched_queue pos [immediate (EvKeymap (KmCallback cb))] [ECall cb] ltac:(constructor; [split; reflexivity|constructor]) (km_sched k) es Hpe) as (s1 & E1 & P1 & A1 & B1); [cbn; lia|].
    cbn [kc_pos cconf]. rewrite E1. cbn [bind map_pkr]. unfold push_cap. cbn [km_pressed set_sched]. rewrite HL. change MAX_PRESSED_KEYS with 16%nat.
    destruct (Nat.ltb_spec (length (tb_down b)) 16) as [Hlt|_]; [|reflexivity]. cbn [bind].
    eexists (TCalls cb), _. split; [now constructor|]. split; [reflexivity|]. split; [|split; [exact P1|split; [unfold frame; cbn; auto 10|repeat constructor]]].
    split; [exact Hc|]. split; [cbn; apply Forall2_app; [exact Hh|constructor; [split; [reflexivity|exists q; auto]|constructor]]|]. split; [now apply nodup_new|].
    split; [cbn; rewrite app_length; cbn; lia|]. split; [cbn; congruence|]. auto.
  - cbn [c_new_pressed_key]. assert (Ec : cx_caps_word (km_ctx k) = cwc b) by (destruct Hc as (-> & _); reflexivity). rewrite Ec.
    unfold cw_new_pressed_key, cwc. cbn [cwx_active bind].
    unfold schedule_all. set (kes := (ke_map CeCapsWord _ : key_events cev)).
    destruct (sched_queue pos kes [ECaps (negb (tb_caps b))] ltac:(unfold kes; constructor; [split; [reflexivity|destruct (tb_caps b); exact Logic.I]|constructor]) (km_sched k) es Hpe) as (s1 & E1 & P1 & A1 & B1); [cbn; lia|].
    cbn [kc_pos cconf]. rewrite E1. cbn [bind map_pkr]. unfold push_cap. cbn [km_pressed set_sched]. rewrite HL. change MAX_PRESSED_KEYS with 16%nat.
    destruct (Nat.ltb_spec (length (tb_down b)) 16) as [Hlt|_]; [|reflexivity]. cbn [bind].
    eexists TCapsWord, _. split; [now constructor|]. split; [reflexivity|]. split; [|split; [exact P1|split; [unfold frame; cbn; auto 10|repeat constructor]]].
    split; [exact Hc|]. split; [cbn; apply Forall2_app; [exact Hh|constructor; [split; [reflexivity|auto]|constructor]]|]. split; [now apply nodup_new|].
    split; [cbn; rewrite app_length; cbn; lia|]. split; [cbn; congruence|]. auto.
  - cbn [c_new_pressed_key bind schedule_all sched_all fold_res]. rewrite set_sched_id. unfold push_cap. rewrite HL. change MAX_PRESSED_KEYS with 16%nat.
    destruct (Nat.ltb_spec (length (tb_down b)) 16) as [Hlt|_]; [|reflexivity]. cbn [bind]. unfold emit_resolved. cbn [kc_sys cconf composite sys_key_output c_key_output].
    unfold index. rewrite Hk. cbn [bind st_key_output st_ks_new].
    eexists (TOneShot (sk_mods sk)), _. split; [now constructor|]. split; [reflexivity|]. cbn [key_goes_down fst snd]. rewrite app_nil_r. split; [|split; [exact Hpe|split; [unfold frame; cbn; auto 10|constructor]]].
    split; [exact Hc|]. split; [cbn; apply Forall2_app; [exact Hh|constructor; [split; [reflexivity|exists q, sk; auto]|constructor]]|]. split; [now apply nodup_new|].
    split; [cbn; rewrite app_length; cbn; lia|]. auto.
  - cbn [c_new_pressed_key ly_new_pressed_key]. unfold index. rewrite Hk. cbn [bind].
    destruct (lookup_total lk _ b Hc Hlen) as (r' & Er & Ha). rewrite Er. cbn [bind map_pkr ke_map map]. unfold schedule_all, sched_all. cbn [fold_res bind]. rewrite set_sched_id.
    assert (IH : if (length (tb_down b) <? 16)%nat
      then exists m k', tmeans d (tb_on b) (tb_default b) r' m /\ exec conf (S (S (S (h + f)))) (JPressLoop i r') k = Ok k'
        /\ tstate sch (fst (key_goes_down i m b)) k' /\ pend (sc_pending (km_sched k')) (es ++ snd (key_goes_down i m b)) /\ frame k k'
        /\ Forall (effect_ok n) (snd (key_goes_down i m b))
      else exec conf (S (S (S (h + f)))) (JPressLoop i r') k = Panic).
    { destruct (acts_as_entry _ _ _ _ Ha) as [->|Hin]; [now apply IHb|now apply (IHl r' Hin)]. }
    change (S h + f)%nat with (S (h + f)).
    destruct (length (tb_down b) <? 16)%nat; [|exact IH]. destruct IH as (m & k' & M & E & X). exists m, k'. split; [|split; [exact E|exact X]].
    eapply tm_layered; eassumption.
Qed.

(** ** One input *)
Lemma hear_same ie b : let b' := fst (hear sr ie b) in tb_down b' = map (notice ie) (tb_down b) /\ tb_default b' = tb_default b /\ tb_calls b' = tb_calls b.
Proof.
  unfold hear. set (b0 := down_with b _). assert (H0 : tb_down b0 = map (notice ie) (tb_down b) /\ tb_default b0 = tb_default b /\ tb_calls b0 = tb_calls b) by auto.
  assert (H1 : tb_down (layers_hear ie b0) = tb_down b0 /\ tb_default (layers_hear ie b0) = tb_default b0 /\ tb_calls (layers_hear ie b0) = tb_calls b0).
  { unfold layers_hear. destruct (once_from 1 (tb_layers b0)); [|auto]. destruct ie as [i|i|ko|ko]; destruct (tb_once_by b0) as [j|]; try destruct (i =? j); auto. }
  generalize dependent (layers_hear ie b0). intros b1 (A & B & C). destruct H0 as (A' & B' & C').
  assert (H2 : tb_down (fst (mods_hear sr ie b1)) = tb_down b1 /\ tb_default (fst (mods_hear sr ie b1)) = tb_default b1 /\ tb_calls (fst (mods_hear sr ie b1)) = tb_calls b1).
  { unfold mods_hear. destruct ie as [i|i|ko|ko]; destruct (tb_latched_by b1) as [j|]; destruct sr; auto; destruct (tb_latched b1); auto; destruct (i =? j); auto. }
  destruct (mods_hear sr ie b1) as [b2 es]. cbn in H2 |- *. destruct H2 as (A2 & B2 & C2). repeat split; congruence.
Qed.
Lemma react_release i l : NoDup (keysl l) -> (length (flat_map (reacts (Release i)) l) <= 2)%nat
  /\ (flat_map (reacts (Release i)) l <> [] -> In i (keysl l)).
Proof.
  induction l as [|[[[j m] u]|ko] l IH]; intros H.
  - cbn. split; [lia|congruence].
  - change (keysl (inl (j, m, u) :: l)) with (j :: keysl l) in *. inversion H as [|? ? Hni Hnd]; subst. destruct (IH Hnd) as (A & B). cbn [flat_map reacts].
    destruct (N.eqb_spec i j) as [->|Hne].
    + assert (E : flat_map (reacts (Release j)) l = []) by (destruct (flat_map (reacts (Release j)) l); [reflexivity|exfalso; apply Hni, B; discriminate]).
      rewrite E, app_nil_r. split; [|now left]. destruct m as [| [l1|l1|l1|l1|l1] | | |]; try destruct u; cbn; lia.
    + cbn [app]. split; [exact A|]. intros X. right. auto.
  - exact (IH H).
Qed.
Lemma react_press i l : (length (flat_map (reacts (Press i)) l) <= length l)%nat.
Proof.
  induction l as [|x l IH]; cbn [flat_map length]; [lia|]. rewrite app_length.
  assert (length (reacts (Press i) x) <= 1)%nat by (destruct x as [[[j [| [l1|l1|l1|l1|l1] | | |]] []]|]; cbn; lia). lia.
Qed.
Definition shrinks (e : effect) : Prop := match e with ECaps _ | EDown _ => False | _ => True end.
Lemma mods_shrink ie b : Forall shrinks (snd (mods_hear sr ie b)).
Proof.
  assert (X : Forall shrinks (map (fun m => EUp (mods_key m)) (tb_latched b))) by (apply Forall_forall; intros e He; apply in_map_iff in He as (m & <- & _); exact Logic.I).
  unfold mods_hear. destruct ie as [i|i|ko|ko]; destruct (tb_latched_by b) as [j|]; destruct sr; try constructor; try exact X; destruct (tb_latched b) eqn:E; try constructor; destruct (i =? j); try constructor; rewrite <- ?E; inversion X; assumption.
Qed.
Lemma press_shrink i l : Forall shrinks (flat_map (reacts (Press i)) l).
Proof.
  induction l as [|x l IH]; cbn [flat_map]; [constructor|]. apply Forall_app. split; [|exact IH].
  destruct x as [[[j [| [l1|l1|l1|l1|l1] | | |]] []]|]; cbn; repeat constructor.
Qed.
Lemma shrink_length b e : shrinks e -> (length (tb_down (carry b e)) <= length (tb_down b))%nat.
Proof.
  destruct e as [le|cb|on|m|ko|ko]; cbn [shrinks]; try contradiction; intros _; cbn [carry].
  - destruct le; cbn; lia.
  - cbn. lia.
  - match goal with |- context [if ?x then _ else _] => destruct x end; cbn; lia.
  - cbn. apply remove_length.
Qed.
Lemma shrink_roomy es : forall b, Forall shrinks es -> (length (tb_down b) <= 16)%nat -> roomy es b.
Proof.
  induction es as [|e es IH]; intros b H Hb; [exact Logic.I|]. inversion H; subst. pose proof (shrink_length b e ltac:(assumption)). split; [lia|]. apply IH; [assumption|lia].
Qed.
Lemma last_roomy e es : forall b, Forall shrinks es -> (length (tb_down b) <= 16)%nat -> (length (tb_down (carry_out (es ++ [e]) b)) <= 16)%nat -> roomy (es ++ [e]) b.
Proof.
  induction es as [|x es IH]; intros b H Hb Hl; [cbn; split; [exact Hl|exact Logic.I]|]. inversion H; subst. pose proof (shrink_length b x ltac:(assumption)).
  cbn [app roomy]. split; [lia|]. apply IH; [assumption|lia|exact Hl].
Qed.
Lemma shrink_caps_last es : Forall shrinks es -> caps_last es.
Proof. induction 1 as [|e es H _ IH]; [exact Logic.I|]. destruct e; cbn in *; try contradiction; exact IH. Qed.
Lemma caps_last_app es es' : Forall shrinks es -> caps_last es' -> caps_last (es ++ es').
Proof. induction 1 as [|e es H _ IH]; intros X; [exact X|]. destruct e; cbn in *; try contradiction; exact (IH X). Qed.

Lemma hear_step sch b (k : ckeymap) ie : tstate sch b k -> sc_pending (km_sched k) = [] ->
  match step_chorded (cx_chorded (km_ctx k)) (EvInput ie) with
  | Ok h => exists k2, (let! k1 := update_pressed conf k (EvInput ie) in update_context conf k1 (EvInput ie)) = Ok k2
      /\ tstate sch (fst (hear sr ie b)) k2 /\ pend (sc_pending (km_sched k2)) (snd (hear sr ie b)) /\ (length (snd (hear sr ie b)) <= 20)%nat
      /\ Forall (effect_ok n) (snd (hear sr ie b)) /\ framed k k2 h
  | _ => is_ok (let! k1 := update_pressed conf k (EvInput ie) in update_context conf k1 (EvInput ie)) = false
  end.
Proof.
  intros (Hc & Hh & Hnd & H16 & Hs & Hp & Hcl) Hpe.
  assert (Hb : (length (flat_map (reacts ie) (tb_down b)) <= 16)%nat).
  { destruct ie as [i|i|ko|ko]; [pose proof (react_press i (tb_down b)); lia|pose proof (react_release i (tb_down b) Hnd); lia|..];
      (assert (X : flat_map (reacts (VirtualKeyPress ko)) (tb_down b) = [] /\ flat_map (reacts (VirtualKeyRelease ko)) (tb_down b) = []) by (clear; induction (tb_down b); auto)); destruct X as (X1 & X2); rewrite ?X1, ?X2; cbn; lia. }
  unfold update_pressed. destruct (keys_hear (km_ctx k) (EvInput ie) _ _ Hh (km_sched k) [] ltac:(rewrite Hpe; constructor)) as (pis' & s' & E & Hh' & P' & Hok & A' & B'); [change (length (flat_map (reacts ie) (tb_down b)) <= 31)%nat; lia|].
  cbn [app] in P'. change (flat_map (react_ev (EvInput ie)) (tb_down b)) with (flat_map (reacts ie) (tb_down b)) in *. change (map (notice_ev (EvInput ie)) (tb_down b)) with (map (notice ie) (tb_down b)) in Hh'.
  rewrite E. cbn [bind]. unfold update_context. cbn [km_ctx set_sched set_pressed kc_sys cconf composite sys_ctx_handle_event].
  assert (Hc0 : cok sr n (km_ctx k) (down_with b (map (notice ie) (tb_down b)))) by exact Hc.
  pose proof (input_ctx sr n _ _ ie Hc0) as X. pose proof (hear_same ie b) as (D1 & D2 & D3). unfold hear in *.
  destruct (step_chorded (cx_chorded (km_ctx k)) (EvInput ie)) as [h| |].
  - destruct X as (kes & E2 & Q & Hok2 & L4 & Hc'). rewrite E2. cbn [bind]. unfold schedule_all. cbn [km_sched set_ctx set_sched set_pressed kc_pos cconf].
    destruct (mods_hear sr ie _) as [b2 es2]. cbn [fst snd] in *.
    destruct (sched_queue pos _ _ Q s' _ P') as (s2 & E3 & P2 & A2 & B2); [lia|]. rewrite E3. cbn [bind].
    eexists. split; [reflexivity|]. split; [|split; [exact P2|split; [rewrite app_length; lia|split; [apply Forall_app; split; assumption|]]]].
    + split; [exact Hc'|]. unfold keys_of. rewrite D1, D3. split; [exact Hh'|]. split; [|split; [now rewrite map_length|split; [cbn; congruence|split; [exact Hp|exact Hcl]]]].
      fold (keysl (map (notice ie) (tb_down b))). rewrite keysl_map; [exact Hnd| |destruct ie; reflexivity].
      intros j m u. destruct ie; destruct m as [| [l1|l1|l1|l1|l1] | | |]; cbn; eauto.
    + unfold framed. cbn. rewrite B2, B'. auto 10.
  - match type of X with is_ok ?m = false => destruct m; [discriminate|reflexivity..] end.
  - match type of X with is_ok ?m = false => destruct m; [discriminate|reflexivity..] end.
Qed.
Lemma tmeans_total m on def h r : tkey m d h r -> exists t, tmeans d on def r t.
Proof.
  induction 1 as [h r ko H|h i lm H H0|h i cb H|h|h i sk H|h i k H Hl _ IHb _ IHl]; try (eexists; econstructor; eassumption).
  destruct (acts_as_total k on def) as (r & Ha).
  assert (X : exists t, tmeans d on def r t) by (destruct (acts_as_entry _ _ _ _ Ha) as [->|Hin]; [exact IHb|now apply IHl]).
  destruct X as (t & Ht). exists t. eapply tm_layered; eassumption.
Qed.
Definition in_reach (b : tboard) (ie : input_event) : bool :=
  match ie with Press i => key_down i b || (N.to_nat i <? length refs)%nat | _ => true end.
Local Notation fuel4 f := (S (S (S (S (height + f))))).
Lemma process_typing sch f b (k : ckeymap) ie : (70 <= f)%nat -> tstate sch b k -> sc_pending (km_sched k) = [] ->
  (forall i r, ie = Press i -> nth_error refs (N.to_nat i) = Some r -> tkey n d height r) ->
  match step_chorded (cx_chorded (km_ctx k)) (EvInput ie) with
  | Ok h => if in_reach b ie
            then exists b', tstep sr refs d b ie b' /\ outcome (room_for b ie b') (exec conf (fuel4 f) (JProcessInput ie) k)
                   (fun k' => tstate sch b' k' /\ framed k k' h /\ sc_pending (km_sched k') = [])
            else exec conf (fuel4 f) (JProcessInput ie) k = Panic
  | _ => is_ok (exec conf (fuel4 f) (JProcessInput ie) k) = false
  end.
Proof.
  intros Hf H Hpe Hrefs. assert (Hp : km_pending k = None) by apply H. assert (Hnd0 : NoDup (keys_of b)) by apply H. assert (H160 : (length (tb_down b) <= 16)%nat) by apply H.
  change (exec conf (fuel4 f) (JProcessInput ie) k) with (step_process_input conf (exec conf (S (S (S (height + f))))) ie k).
  unfold step_process_input. rewrite Hp. pose proof (hear_step sch b k ie H Hpe) as X. pose proof (hear_same ie b) as (D1 & D2 & D3).
  destruct (step_chorded (cx_chorded (km_ctx k)) (EvInput ie)) as [h| |].
  2,3: destruct (update_pressed conf k (EvInput ie)) as [x| |]; cbn [bind] in X |- *; try reflexivity; destruct (update_context conf x (EvInput ie)); cbn [bind] in X |- *; [discriminate|reflexivity..].
  destruct X as (k2 & E2 & H2 & P2 & L2 & Hok2 & F2).
  assert (Z : forall (g : ckeymap -> res ckeymap), (let! k3 := update_pressed conf k (EvInput ie) in let! k4 := update_context conf k3 (EvInput ie) in g k4) = g k2).
  { intros g. destruct (update_pressed conf k (EvInput ie)) as [x| |]; cbn [bind] in E2 |- *; try discriminate. rewrite E2. reflexivity. }
  rewrite Z. clear Z E2.
  assert (Fin : forall k', frame k2 k' -> framed k k' h).
  { intros k' (A & B & C & D & E & G & J). destruct F2 as (A' & B' & C' & D' & E' & G' & J'). unfold framed. repeat split; congruence. }
  assert (Hsh : match ie with Press _ => Forall shrinks (snd (hear sr ie b)) | _ => True end).
  { destruct ie as [i| | |]; try exact Logic.I. unfold hear. pose proof (mods_shrink (Press i) (layers_hear (Press i) (down_with b (map (notice (Press i)) (tb_down b))))) as Y.
    destruct (mods_hear sr (Press i) _) as [b2 es2]. cbn [snd] in *. apply Forall_app. split; [apply press_shrink|exact Y]. }
  destruct ie as [i|i|ko|ko]; cbn [step_input_dispatch in_reach].
  - unfold has_pressed. assert (Hh2 : Forall2 theld (km_pressed k2) (tb_down (fst (hear sr (Press i) b)))) by apply H2. rewrite (theld_has _ _ i Hh2).
    assert (Ek : existsb (key_is i) (tb_down (fst (hear sr (Press i) b))) = key_down i b).
    { rewrite D1. unfold key_down. clear. induction (tb_down b) as [|[[[j [| [l1|l1|l1|l1|l1] | | |]] u]|ko] l IH]; cbn; [reflexivity|now rewrite IH..]. }
    rewrite Ek. destruct (key_down i b) eqn:Ei; cbn [orb].
    + cbn [bind]. eexists. split; [apply t_again; exact Ei|]. destruct (hear sr (Press i) b) as [b1 es] eqn:Eh. cbn [fst snd] in *.
      eapply outcome_impl; [eapply (drain_all sch True es b1 k2 H2 P2); [lia|exact Hok2|now apply shrink_caps_last|intros _; apply shrink_roomy; [exact Hsh|rewrite D1, map_length; exact H160]|lia]|auto|].
      intros k' (A & B & C). split; [exact A|split; [now apply Fin|exact B]].
    + unfold index. cbn [kc_refs cconf]. destruct (Nat.ltb_spec (N.to_nat i) (length refs)) as [El|El].
      2: { apply nth_error_None in El. rewrite El. reflexivity. }
      destruct (nth_error refs (N.to_nat i)) as [r|] eqn:Er; [|apply nth_error_None in Er; lia]. cbn [bind].
      pose proof (Hrefs i r eq_refl Er) as Hk.
      pose proof (press_typing height r Hk sch f i _ k2 _ H2 P2 ltac:(lia) ltac:(exact Ek)) as Y.
      assert (Hlen : length (tb_down (fst (hear sr (Press i) b))) = length (tb_down b)) by (rewrite D1; apply map_length). rewrite Hlen in Y.
      destruct (Nat.ltb_spec (length (tb_down b)) 16) as [Hlt|Hge].
      * destruct Y as (m & k3 & M & E3 & H3 & P3 & F3 & Hok3). rewrite E3. cbn [bind]. rewrite D2 in M.
        eexists. split; [eapply t_press; eassumption|]. destruct (hear sr (Press i) b) as [b1 es] eqn:Eh. cbn [fst snd] in *.
        destruct (key_goes_down i m b1) as [b2 es2] eqn:Eg. cbn [fst snd] in *.
        assert (H16' : (length (tb_down b2) <= 16)%nat) by apply H3.
        assert (Hes2 : es2 = [] \/ exists e, es2 = [e]).
        { unfold key_goes_down, typed in Eg. destruct m as [ko|lm|cb| |ms]; injection Eg as _ <-; eauto. match goal with |- context [if ?x then _ else _] => destruct x end; eauto. }
        eapply outcome_impl; [eapply (drain_all sch (room_for b (Press i) (carry_out (es ++ es2) b2)) (es ++ es2) b2 k3 H3 P3)|auto|].
        -- rewrite app_length. destruct Hes2 as [->|(e & ->)]; cbn; lia.
        -- apply Forall_app. split; assumption.
        -- apply caps_last_app; [exact Hsh|]. destruct Hes2 as [->|(e & ->)]; [exact Logic.I|destruct e; cbn; auto].
        -- intros (R & _). destruct Hes2 as [->|(e & ->)]; [rewrite app_nil_r in *; now apply shrink_roomy|now apply last_roomy].
        -- rewrite app_length. destruct Hes2 as [->|(e & ->)]; cbn; lia.
        -- intros k' (A & B & C). split; [exact A|split; [apply Fin; exact (frame_trans _ _ _ F3 C)|exact B]].
      * rewrite Y. cbn [bind outcome]. destruct (tmeans_total n (tb_on (fst (hear sr (Press i) b))) (tb_default b) height r Hk) as (m & M).
        eexists. split; [eapply t_press; eassumption|]. intros (_ & [R|R]); [congruence|lia].
  - cbn [bind]. eexists. split; [apply t_release|]. destruct (hear sr (Release i) b) as [b1 es] eqn:Eh. cbn [fst snd] in *.
    set (k3 := set_pressed k2 _). set (b3 := down_with b1 _).
    assert (H3 : tstate sch b3 k3).
    { destruct H2 as (A & B & C & D & E & G & J). split; [exact A|]. split; [cbn; now apply theld_remove|]. split; [apply keysl_remove; exact C|]. split; [cbn; pose proof (remove_length (key_is i) (tb_down b1)); lia|]. auto. }
    assert (F3 : frame k2 k3) by (unfold frame; cbn; auto 10).
    assert (Hin : In i (keys_of b) -> (length (tb_down b3) <= 15)%nat).
    { intros Hi. apply keysl_In in Hi. cbn. rewrite D1. assert (Y : length (remove_first (key_is i) (map (notice (Release i)) (tb_down b))) = pred (length (tb_down b))).
      { clear -Hi. induction (tb_down b) as [|x l IH]; [discriminate|]. cbn [map remove_first existsb] in *. cbn [notice]. destruct (key_is i x); [now rewrite map_length|].
        cbn [orb] in Hi. cbn [length]. rewrite (IH Hi). destruct l; [discriminate|reflexivity]. }
      rewrite Y. lia. }
    assert (Hes : exists es1 es2, es = es1 ++ es2 /\ Forall shrinks es2 /\ (Forall shrinks es1 \/ (exists ms ko, es1 = [ELatch ms; EDown ko]) /\ In i (keys_of b))).
    { unfold hear in Eh. pose proof (mods_shrink (Release i) (layers_hear (Release i) (down_with b (map (notice (Release i)) (tb_down b))))) as Y.
      destruct (mods_hear sr (Release i) _) as [b2 es2]. injection Eh as _ <-. exists (flat_map (reacts (Release i)) (tb_down b)), es2. split; [reflexivity|]. split; [exact Y|].
      clear -Hnd0. unfold keys_of in *. fold (keysl (tb_down b)) in *. induction (tb_down b) as [|[[[j m] u]|ko] l IH]; [left; constructor| |].
      - change (keysl (inl (j, m, u) :: l)) with (j :: keysl l) in *. inversion Hnd0 as [|? ? Hni Hnd]; subst. cbn [flat_map reacts].
        destruct (N.eqb_spec i j) as [->|Hne].
        + assert (E : flat_map (reacts (Release j)) l = []) by (destruct (flat_map (reacts (Release j)) l) eqn:E; [reflexivity|exfalso; apply Hni, (react_release j l Hnd); congruence]).
          rewrite E, app_nil_r. destruct m as [| [l1|l1|l1|l1|l1] | | |]; try destruct u; cbn; try (left; repeat constructor; fail). right. split; [eauto|now left].
        + cbn [app]. destruct (IH Hnd) as [A|(A & B)]; [now left|right; split; [exact A|now right]].
      - exact (IH Hnd0). }
    destruct Hes as (es1 & es2 & -> & S2 & S1).
    assert (R3 : roomy (es1 ++ es2) b3 /\ caps_last (es1 ++ es2)).
    { assert (L3 : (length (tb_down b3) <= 16)%nat) by apply H3. destruct S1 as [S1|((ms & ko & ->) & Hi)].
      - assert (S3 : Forall shrinks (es1 ++ es2)) by (apply Forall_app; split; assumption). split; [now apply shrink_roomy|now apply shrink_caps_last].
      - specialize (Hin Hi). split; [|exact (shrink_caps_last _ S2)]. cbn [app roomy]. pose proof (shrink_length b3 (ELatch ms) Logic.I) as Q1. split; [lia|].
        assert (Q2 : (length (tb_down (carry (carry b3 (ELatch ms)) (EDown ko))) <= 16)%nat) by (change (length (tb_down (carry b3 (ELatch ms)) ++ [inr ko]) <= 16)%nat; rewrite app_length; cbn [length]; lia).
        split; [exact Q2|]. now apply shrink_roomy. }
    eapply outcome_impl; [eapply (drain_all sch True (es1 ++ es2) b3 k3 H3 P2); [lia|exact Hok2|apply R3|intros _; apply R3|lia]|auto|].
    intros k' (A & B & C). split; [exact A|split; [apply Fin; exact (frame_trans _ _ _ F3 C)|exact B]].
  - assert (Eh : hear sr (VirtualKeyPress ko) b = (b, [])).
    { unfold hear, mods_hear, layers_hear. rewrite (map_ext _ (fun x => x)) by reflexivity. rewrite map_id. change (down_with b (tb_down b)) with b || (replace (down_with b (tb_down b)) with b by (destruct b; reflexivity)).
      assert (Y : flat_map (reacts (VirtualKeyPress ko)) (tb_down b) = []) by (clear; induction (tb_down b); auto). rewrite Y. destruct (once_from 1 (tb_layers b)); reflexivity. }
    rewrite Eh in *. cbn [fst snd] in *. eexists. split; [apply t_vpress|].
    eapply outcome_bind; [eapply outcome_impl; [eapply (vk_dispatch sch (exec conf (S (S (S (height + f))))) b k2 (EDown ko) (VirtualKeyPress ko) [] H2 P2 eq_refl)|intros (R & _); exact R|intros a Y; exact Y]|].
    cbn beta. intros k3 (H3 & P3 & F3). inversion P3 as [E3|]. symmetry in E3. rewrite (drain0 refs d pos dbg _ k3 E3). cbn. split; [exact H3|split; [now apply Fin|exact E3]].
  - assert (Eh : hear sr (VirtualKeyRelease ko) b = (b, [])).
    { unfold hear, mods_hear, layers_hear. rewrite (map_ext _ (fun x => x)) by reflexivity. rewrite map_id. change (down_with b (tb_down b)) with b || (replace (down_with b (tb_down b)) with b by (destruct b; reflexivity)).
      assert (Y : flat_map (reacts (VirtualKeyRelease ko)) (tb_down b) = []) by (clear; induction (tb_down b); auto). rewrite Y. destruct (once_from 1 (tb_layers b)); reflexivity. }
    rewrite Eh in *. cbn [fst snd] in *. eexists. split; [apply t_vrelease|].
    eapply outcome_bind; [eapply outcome_impl; [eapply (vk_dispatch sch (exec conf (S (S (S (height + f))))) b k2 (EUp ko) (VirtualKeyRelease ko) [] H2 P2 eq_refl)|intros (R & _); exact R|intros a Y; exact Y]|].
    cbn beta. intros k3 (H3 & P3 & F3). inversion P3 as [E3|]. symmetry in E3. rewrite (drain0 refs d pos dbg _ k3 E3). cbn. split; [exact H3|split; [now apply Fin|exact E3]].
Qed.

(** ** Histories *)
Hypothesis Hrefs : Forall (tkey n d height) refs.
Lemma trefs_at ie : forall i r, ie = Press i -> nth_error refs (N.to_nat i) = Some r -> tkey n d height r.
Proof. intros i r _ Er. eapply Forall_forall; [exact Hrefs|eapply nth_error_In; exact Er]. Qed.
Lemma touts pis l : Forall2 theld pis l -> outputs_of conf pis =
  Ok (filter_map (fun x => match x with inl (_, TSends ko, _) => Some ko | inl (_, TOneShot m, true) => Some (mods_key m) | inl _ => None | inr ko => Some ko end) l).
Proof.
  clear Hrefs. induction 1 as [|pi x pis l H _ IH]; [reflexivity|].
  destruct pi as [j r ks|ko], x as [[[j' m] u]|ko']; cbn in H; try contradiction; cbn [outputs_of filter_map].
  - destruct H as (-> & H). cbn [kc_sys cconf composite sys_key_output]. destruct m as [ko|lm|cb| |ms].
    + destruct H as (H & ->). rewrite (plain_output _ _ _ H). cbn [bind]. rewrite IH. reflexivity.
    + destruct H as (q & -> & _ & _ & ->). cbn [c_key_output bind]. rewrite IH. reflexivity.
    + destruct H as (q & -> & ->). cbn [c_key_output bind]. rewrite IH. reflexivity.
    + destruct H as (-> & ->). cbn [c_key_output bind]. rewrite IH. reflexivity.
    + destruct H as (q & sk & -> & Hk & -> & ->). cbn [c_key_output]. unfold index. rewrite Hk. cbn [bind]. destruct u; cbn [st_key_output bind]; rewrite IH; reflexivity.
  - subst. rewrite IH. reflexivity.
Qed.
Variable L : list (callback * callback_fn).
Definition tsim (q : queue) (k : ckeymap) : Prop :=
  (exists b, trun sr n refs d (q_done q) b /\ tstate [] b k) /\ sc_pending (km_sched k) = []
  /\ km_inq k = q_waiting q /\ km_delay k = (if q_busy q then 1 else 0) /\ km_callbacks k = L.
Lemma take_typing f q (k : ckeymap) x w k' : (70 <= f)%nat -> tsim q k -> q_waiting q = x :: w ->
  exec conf (fuel4 f) (JProcessInput x) (set_inq k w) = Ok k' ->
  tsim (queue_take q) (set_delay k' INPUT_QUEUE_TICK_DELAY) /\ km_idle k' = km_idle k /\ km_ms_per_tick k' = km_ms_per_tick k
  /\ sc_counter (km_sched k') = sc_counter (km_sched k) /\ step_chorded (cx_chorded (km_ctx k)) (EvInput x) = Ok (cx_chorded (km_ctx k')).
Proof.
  intros Hf ((b & Hr & Hb) & Hs & Hq & Hd & HL) Hw H.
  pose proof (process_typing [] f b (set_inq k w) x Hf Hb Hs (trefs_at x)) as X. change (km_ctx (set_inq k w)) with (km_ctx k) in X.
  destruct (step_chorded (cx_chorded (km_ctx k)) (EvInput x)) as [h| |] eqn:Eh; [|rewrite H in X; discriminate..].
  destruct (in_reach b x); [|congruence]. destruct X as (b' & Hst & Hout). rewrite H in Hout. cbn [outcome] in Hout. destruct Hout as (B1 & (A & B & C & D & F & G & J) & P1).
  split; [|split; [exact C|split; [exact D|split; [exact F|now rewrite G]]]].
  unfold queue_take. rewrite Hw. split; [|split; [exact P1|split; [exact A|split; [reflexivity|cbn in J |- *; congruence]]]].
  exists b'. split; [|exact B1]. cbn [q_done]. eapply trun_input; eassumption.
Qed.
Lemma tsim_clock q (k : ckeymap) t i : tsim q k -> tsim q (set_ctx k (sys_ctx_set_keymap_context (composite d) (km_ctx k) t i)).
Proof.
  intros ((b & Hr & ((A & A') & Hb)) & Hs). split; [|exact Hs]. exists b. split; [exact Hr|].
  split; [|exact Hb]. split; [|exact A']. cbn. rewrite A. reflexivity.
Qed.
Lemma op_typing f q (k : ckeymap) o k' : (70 <= f)%nat -> tsim q k -> plain_op o = true -> run_op conf (fuel4 f) k o = Ok k' -> tsim (queue_step q o) k'.
Proof.
  intros Hf Hs Ho H. pose proof Hs as (Hp & Hpe & Hq & Hb & HL). destruct o as [ev| |dd ev| | | |ms|c g]; try discriminate Ho; cbn [run_op queue_step] in *.
  - unfold km_handle_input in H. cbn zeta in H. change (km_inq (set_idle k 0)) with (km_inq k) in H. unfold queue_input. rewrite <- Hq.
    change INPUT_QUEUE_CAPACITY with 31%nat in H. destruct (length (km_inq k) <? 31)%nat; [|injection H as <-; exact Hs].
    change (km_delay (set_inq (set_idle k 0) (km_inq k ++ [ev]))) with (km_delay k) in H. rewrite Hb in H.
    set (q1 := mkQueue (q_done q) (km_inq k ++ [ev]) (q_busy q)).
    assert (Hs1 : tsim q1 (set_inq (set_idle k 0) (km_inq k ++ [ev]))) by (split; [exact Hp|split; [exact Hpe|split; [reflexivity|split; [exact Hb|exact HL]]]]).
    destruct (q_busy q) eqn:Eb; cbn [N.eqb] in H.
    + injection H as <-. exact Hs1.
    + change (0 =? 0) with true in H. cbn iota in H. change (km_inq (set_inq (set_idle k 0) (km_inq k ++ [ev]))) with (km_inq k ++ [ev]) in H.
      destruct (km_inq k ++ [ev]) as [|x w] eqn:Ew; [discriminate|]. inv_bind H. injection H as <-.
      eapply take_typing; [exact Hf|exact Hs1|reflexivity|exact E].
  - unfold km_tick in H. cbn zeta in H. set (k0 := set_ctx k _) in H.
    assert (Hs0 : tsim q k0) by (apply tsim_clock; exact Hs).
    inv_bind H. assert (H1 : tsim (if q_busy q then q else queue_take q) a).
    { change (km_inq k0) with (km_inq k) in E. rewrite Hq in E. change (km_delay k0) with (km_delay k) in E. rewrite Hb in E.
      destruct (q_waiting q) as [|x w] eqn:Ew.
      - injection E as <-. destruct (q_busy q); [exact Hs0|]. unfold queue_take. rewrite Ew. exact Hs0.
      - destruct (q_busy q) eqn:Eb.
        + change (1 =? 0) with false in E. cbn iota in E. injection E as <-. exact Hs0.
        + change (0 =? 0) with true in E. cbn iota in E. inv_bind E. injection E as <-. eapply take_typing; [exact Hf|exact Hs0|exact Ew|exact E0]. }
    unfold queue_tick. set (q1 := if q_busy q then q else queue_take q) in *. destruct H1 as (Hp1 & Hpe1 & Hq1 & Hb1 & HL1).
    set (k2 := if 0 <? km_delay a then set_delay a (km_delay a - 1) else a) in H.
    assert (H2 : tsim (mkQueue (q_done q1) (q_waiting q1) false) k2).
    { unfold k2. rewrite Hb1. destruct (q_busy q1); cbn; (split; [exact Hp1|split; [exact Hpe1|split; [exact Hq1|split; [try exact Hb1; reflexivity|exact HL1]]]]). }
    destruct H2 as ((b & Hr2 & Hb2) & Hpe2 & Hq2 & Hd2 & HL2).
    inv_bind H. assert (Hp2 : tstate [] b (set_sched k2 a0) /\ sc_pending a0 = []).
    { destruct Hb2 as (A & B & C & D & F & G). unfold sched_tick in E0. inv_bind E0. rewrite F in E0. cbn in E0. injection E0 as <-.
      split; [|exact Hpe2]. split; [exact A|]. split; [exact B|]. split; [exact C|]. split; [exact D|]. split; [reflexivity|exact G]. }
    destruct Hp2 as (Hb3 & Hpe3). rewrite (drain0 refs d pos dbg) in H by exact Hpe3. cbn [bind] in H. inv_bind H. injection H as <-.
    split; [exists b; split; [exact Hr2|exact Hb3]|]. split; [exact Hpe3|]. split; [exact Hq2|]. split; [exact Hd2|exact HL2].
  - unfold km_report_output in H. inv_bind H. inv_bind E. injection E as <-. injection H as <-. exact Hs.
  - injection H as <-. exact Hs.
Qed.
Lemma ops_typing f ops : (70 <= f)%nat -> Forall (fun o => plain_op o = true) ops -> forall q k k', tsim q k ->
  run_ops conf (fuel4 f) ops k = Ok k' -> tsim (fold_left queue_step ops q) k'.
Proof.
  unfold run_ops. intros Hf. induction 1 as [|o ops Ho _ IH]; intros q k k' Hs H; cbn [fold_res] in H; [injection H as <-; exact Hs|].
  inv_bind H. cbn [fold_left]. eapply IH; [|exact H]. eapply op_typing; eassumption.
Qed.
Local Notation start cf := (set_callbacks (km_new (ctx_from_config cf)) L).
Lemma tsim_new cf : cf_layer_count cf = n -> stc_release (cf_sticky cf) = sr -> tsim queue_new (start cf).
Proof.
  intros Hn Hsr. split; [|split; [reflexivity|split; [reflexivity|split; reflexivity]]]. exists (tboard_new n). split; [constructor|].
  split; [|split; [constructor|split; [constructor|split; [cbn; lia|split; [reflexivity|split; reflexivity]]]]].
  split; [|split; [|split; [|split]]].
  - unfold ctx_for, lyc, stc, cwc, km_new, ctx_from_config. cbn. f_equal.
    + unfold ly_ctx_new. f_equal. rewrite Hn. clear. induction n as [|m IH]; cbn; [reflexivity|]. now rewrite <- IH.
    + unfold st_ctx_new. rewrite <- Hsr. destruct (cf_sticky cf); reflexivity.
  - apply quiet_new.
  - cbn. apply repeat_length.
  - discriminate.
  - cbn. lia.
Qed.
Lemma run_typing fuel ops cf k : cf_layer_count cf = n -> stc_release (cf_sticky cf) = sr -> Forall (fun o => plain_op o = true) ops ->
  run_ops conf fuel ops (start cf) = Ok k -> tsim (queue_run ops) k.
Proof.
  intros Hn Hsr Ho H. assert (H4 : run_ops conf (fuel4 (70 + fuel)) ops (start cf) = Ok k).
  { destruct (run_le conf fuel (fuel4 (70 + fuel)) ops ltac:(lia) (start cf)) as [X|X]; congruence. }
  refine (ops_typing (70 + fuel) ops _ Ho _ _ _ (tsim_new _ Hn Hsr) H4). lia.
Qed.

(** ** No panic *)
Lemma carry_keys b e : keys_of (carry b e) = keys_of b.
Proof.
  clear Hrefs. unfold keys_of. fold (keysl (tb_down (carry b e))) (keysl (tb_down b)). destruct e as [le|cb|[]|m|ko|ko]; cbn [carry].
  - destruct le; reflexivity.
  - reflexivity.
  - cbn. rewrite keysl_app. cbn. apply app_nil_r.
  - cbn. apply keysl_virtual.
  - match goal with |- context [if ?x then _ else _] => destruct x end; reflexivity.
  - cbn. rewrite keysl_app. cbn. apply app_nil_r.
  - cbn. apply keysl_virtual.
Qed.
Lemma carry_out_keys es : forall b, keys_of (carry_out es b) = keys_of b.
Proof. clear Hrefs. induction es as [|e es IH]; intros b; [reflexivity|]. cbn [carry_out fold_left]. fold (carry_out es (carry b e)). rewrite IH. apply carry_keys. Qed.
Lemma notice_keys ie l : keysl (map (notice ie) l) = keysl l.
Proof. clear Hrefs. apply keysl_map; [|destruct ie; reflexivity]. intros j m u. destruct ie; destruct m as [| [l1|l1|l1|l1|l1] | | |]; cbn; eauto. Qed.
Lemma hear_keys ie b : keys_of (fst (hear sr ie b)) = keys_of b.
Proof. clear Hrefs. unfold keys_of. rewrite (proj1 (hear_same ie b)). apply notice_keys. Qed.
Lemma down_keys i m b : keys_of (fst (key_goes_down i m b)) = keys_of b ++ [i].
Proof.
  clear Hrefs. unfold keys_of. destruct m as [ko|lm|cb| |ms]; cbn [key_goes_down fst typed down_with tb_down].
  2-5: fold (keysl (tb_down b ++ [inl (i, TSends (mkKO (Keyboard 0) 0), false)])); rewrite filter_map_app; reflexivity.
  change (keysl (map used_together (tb_down b ++ [inl (i, TSends ko, false)])) = keysl (tb_down b) ++ [i]).
  rewrite keysl_map; [rewrite keysl_app; reflexivity| |reflexivity]. intros j m u. destruct m; cbn; eauto.
Qed.
Lemma remove_keys i l : keysl (remove_first (key_is i) l) = remove_first (N.eqb i) (keysl l).
Proof.
  clear Hrefs. induction l as [|[[[j m] u]|ko] l IH]; [reflexivity| |exact IH]. cbn [remove_first key_is].
  change (keysl (inl (j, m, u) :: l)) with (j :: keysl l). cbn [remove_first]. destruct (i =? j); [reflexivity|].
  change (keysl (inl (j, m, u) :: remove_first (key_is i) l)) with (j :: keysl (remove_first (key_is i) l)). now rewrite IH.
Qed.
Lemma down_remove_keys i l : keys_down (remove_first (is_key i) l) = remove_first (N.eqb i) (keys_down l).
Proof.
  clear Hrefs. induction l as [|[j|ko] l IH]; [reflexivity| |exact IH]. cbn [remove_first is_key]. rewrite keys_key. cbn [remove_first].
  destruct (i =? j); [reflexivity|]. now rewrite keys_key, IH.
Qed.
Lemma key_down_In i b : key_down i b = true <-> In i (keys_of b).
Proof. clear Hrefs. apply keysl_In. Qed.
Lemma step_keys b ie b' l : tstep sr refs d b ie b' -> keys_down l = keys_of b -> keys_down (down_step l ie) = keys_of b'.
Proof.
  clear Hrefs. intros H Hl.
  assert (Hi : forall i, existsb (is_key i) l = key_down i b).
  { intros i. apply Bool.eq_iff_eq_true. rewrite is_key_In, key_down_In, Hl. reflexivity. }
  destruct H as [i Hd|i r m Hd Hr Hm|i|ko|ko]; cbn [down_step].
  - rewrite Hi, Hd, Hl. pose proof (hear_keys (Press i) b) as E. destruct (hear sr (Press i) b) as [b1 es]. rewrite carry_out_keys. now symmetry.
  - rewrite Hi, Hd, keys_app, Hl. pose proof (hear_keys (Press i) b) as E. destruct (hear sr (Press i) b) as [b1 es]. cbn [fst] in E.
    pose proof (down_keys i m b1) as E2. destruct (key_goes_down i m b1) as [b2 es2]. rewrite carry_out_keys. cbn [fst] in E2. rewrite E2, E. reflexivity.
  - rewrite down_remove_keys, Hl. pose proof (hear_keys (Release i) b) as E. destruct (hear sr (Release i) b) as [b1 es]. cbn [fst] in E. rewrite carry_out_keys. rewrite <- E.
    symmetry. exact (remove_keys i (tb_down b1)).
  - rewrite keys_app, Hl. change (goes_down ko b) with (carry b (EDown ko)). rewrite carry_keys. apply app_nil_r.
  - rewrite keys_virtual, Hl. change (goes_up ko b) with (carry b (EUp ko)). rewrite carry_keys. reflexivity.
Qed.
Lemma run_keys h b : trun sr n refs d h b -> keys_down (down_after h) = keys_of b.
Proof. clear Hrefs. induction 1 as [|h b ie b' _ IH H]; [reflexivity|]. rewrite down_snoc. eapply step_keys; eassumption. Qed.

Lemma process_typing_total f b (k : ckeymap) h x : (70 <= f)%nat -> tstate [] b k -> sc_pending (km_sched k) = [] -> trun sr n refs d h b ->
  chord_tracks (down_after h) (cx_chorded (km_ctx k)) -> N.of_nat (length refs) <= 65535 ->
  tfits sr n refs d (chc_max_pressed (chx_config (cx_chorded (km_ctx k)))) (h ++ [x]) ->
  exists k', exec conf (fuel4 f) (JProcessInput x) k = Ok k'
    /\ chord_tracks (down_after (h ++ [x])) (cx_chorded (km_ctx k')) /\ chx_config (cx_chorded (km_ctx k')) = chx_config (cx_chorded (km_ctx k)).
Proof.
  intros Hf Hb Hs Hr Ht Hl (Hin & Hfit). rewrite down_snoc.
  assert (Hix : forall i, x = Press i -> (N.to_nat i < length refs)%nat) by (intros i ->; apply Hin, in_or_app; right; now left).
  assert (Hex : exists b', tstep sr refs d b x b').
  { destruct x as [i|i|ko|ko]; try (eexists; constructor; fail). destruct (key_down i b) eqn:E; [eexists; now apply t_again|].
    destruct (nth_error refs (N.to_nat i)) as [r|] eqn:Er; [|apply nth_error_None in Er; specialize (Hix i eq_refl); lia].
    destruct (tmeans_total n (tb_on (fst (hear sr (Press i) b))) (tb_default b) height r (trefs_at (Press i) i r eq_refl Er)) as (m & M). eexists. eapply t_press; eassumption. }
  destruct Hex as (b0 & Hst0). destruct (Hfit h x [] b b0 eq_refl Hr Hst0) as (_ & Hcap0).
  destruct (chord_total refs (quiet (km_ctx k) (cx_chorded (km_ctx k))) (down_after h) x) as (h' & E & Ht' & Hc); try assumption.
  { rewrite (step_keys b x b0 (down_after h) Hst0 (run_keys _ _ Hr)). exact Hcap0. }
  cbn [quiet cx_chorded] in E, Hc.
  pose proof (process_typing [] f b k x Hf Hb Hs (trefs_at x)) as X. rewrite E in X.
  assert (Hok : in_reach b x = true).
  { unfold in_reach. destruct x as [i|i|ko|ko]; try reflexivity. apply orb_true_iff. right. apply Nat.ltb_lt. now apply Hix. }
  rewrite Hok in X. destruct X as (b' & Hst & Hout). destruct (Hfit h x [] b b' eq_refl Hr Hst) as (Hroom & _).
  destruct (exec conf (fuel4 f) (JProcessInput x) k) as [k'| |]; cbn [outcome] in Hout; [|contradiction..].
  destruct Hout as (_ & (_ & _ & _ & _ & _ & G & _) & _). exists k'. rewrite G. auto.
Qed.
Lemma tfits_app m h1 h2 : tfits sr n refs d m (h1 ++ h2) -> tfits sr n refs d m h1.
Proof.
  clear Hrefs. intros (A & B). split; [intros i Hi; apply A, in_or_app; now left|].
  intros a ie c b b' E. apply (B a ie (c ++ h2)). rewrite E, <- app_assoc. reflexivity.
Qed.
Lemma op_typing_total f cf q (k : ckeymap) o : (70 <= f)%nat -> N.of_nat (length refs) <= 65535 -> tsim q k ->
  chord_tracks (down_after (q_done q)) (cx_chorded (km_ctx k)) -> chx_config (cx_chorded (km_ctx k)) = cf -> plain_op o = true ->
  tfits sr n refs d (chc_max_pressed cf) (q_done (queue_step q o)) ->
  let c := clocks_step (mkClocks (sc_counter (km_sched k)) (km_idle k) (km_ms_per_tick k)) o in
  ck_now c <= u32_max -> ck_idle c <= u32_max ->
  exists k', run_op conf (fuel4 f) k o = Ok k' /\ chord_tracks (down_after (q_done (queue_step q o))) (cx_chorded (km_ctx k'))
    /\ chx_config (cx_chorded (km_ctx k')) = cf.
Proof.
  intros Hf Hr Hs Ht Hcf Ho Hfit c Hn Hi. pose proof Hs as ((b & Hrun & Hb) & Hpe & Hq & Hd & HL).
  destruct o as [ev| |dd ev| | | |ms|cb g]; try discriminate Ho; cbn [run_op queue_step] in *.
  - unfold km_handle_input. cbn zeta. change (km_inq (set_idle k 0)) with (km_inq k).
    change INPUT_QUEUE_CAPACITY with 31%nat. unfold queue_input in *. rewrite <- Hq in Hfit |- *.
    destruct (length (km_inq k) <? 31)%nat; [|eexists; split; [reflexivity|]; split; [exact Ht|exact Hcf]].
    change (km_delay (set_inq (set_idle k 0) (km_inq k ++ [ev]))) with (km_delay k). rewrite Hd.
    destruct (q_busy q) eqn:Eb; [eexists; split; [reflexivity|]; split; [exact Ht|exact Hcf]|].
    change (0 =? 0) with true. cbn iota. change (km_inq (set_inq (set_idle k 0) (km_inq k ++ [ev]))) with (km_inq k ++ [ev]).
    unfold queue_take in *. cbn [q_waiting q_done] in *.
    destruct (km_inq k ++ [ev]) as [|x w] eqn:Ew; [destruct (km_inq k); discriminate|]. cbn [q_done] in *.
    set (k1 := set_inq (set_inq (set_idle k 0) (x :: w)) w).
    destruct (process_typing_total f b k1 (q_done q) x) as (k' & E & T & C); [exact Hf|exact Hb|exact Hpe|exact Hrun|exact Ht|exact Hr|cbn; now rewrite Hcf|].
    rewrite E. cbn [bind]. eexists. split; [reflexivity|]. split; [exact T|]. cbn in *. now rewrite C.
  - unfold km_tick. cbn zeta. set (k0 := set_ctx k _).
    assert (Hs0 : tsim q k0) by (apply tsim_clock; exact Hs).
    assert (X : exists k1, match km_inq k0 with
       | ie :: q0 => if km_delay k0 =? 0 then let! k1 := exec conf (fuel4 f) (JProcessInput ie) (set_inq k0 q0) in Ok (set_delay k1 INPUT_QUEUE_TICK_DELAY) else Ok k0
       | [] => Ok k0 end = Ok k1
       /\ sc_counter (km_sched k1) = sc_counter (km_sched k) /\ km_idle k1 = km_idle k /\ km_ms_per_tick k1 = km_ms_per_tick k
       /\ tsim (if q_busy q then q else queue_take q) k1
       /\ chord_tracks (down_after (q_done (if q_busy q then q else queue_take q))) (cx_chorded (km_ctx k1))
       /\ chx_config (cx_chorded (km_ctx k1)) = cf).
    { change (km_inq k0) with (km_inq k). rewrite Hq. change (km_delay k0) with (km_delay k). rewrite Hd. unfold queue_tick in Hfit.
      destruct (q_waiting q) as [|x w] eqn:Ew.
      - exists k0. do 4 (split; [reflexivity|]). assert (Eq : (if q_busy q then q else queue_take q) = q) by (unfold queue_take; rewrite Ew; now destruct (q_busy q)).
        rewrite Eq. split; [exact Hs0|split; [exact Ht|exact Hcf]].
      - destruct (q_busy q) eqn:Eb.
        + change (1 =? 0) with false. cbn iota. exists k0. do 4 (split; [reflexivity|]). split; [exact Hs0|split; [exact Ht|exact Hcf]].
        + change (0 =? 0) with true. cbn iota. pose proof (take_typing f q k0 x w) as Tp. unfold queue_take in *. rewrite Ew in *. cbn [q_done] in *.
          destruct Hs0 as ((b0 & Hrun0 & Hb0) & Hpe0 & Hq0).
          destruct (process_typing_total f b0 (set_inq k0 w) (q_done q) x) as (k' & E & T & C); [exact Hf|exact Hb0|exact Hpe0|exact Hrun0|exact Ht|exact Hr|cbn; now rewrite Hcf|].
          destruct (Tp k') as (T1 & T2 & T3 & T4 & _); [exact Hf|split; [now exists b0|split; assumption]|reflexivity|exact E|].
          rewrite E. cbn [bind]. eexists. split; [reflexivity|]. split; [exact T4|]. split; [exact T2|]. split; [exact T3|]. split; [exact T1|].
          split; [exact T|]. cbn in *. now rewrite C. }
    destruct X as (k1 & E1 & Ec & Ei & Em & ((b1 & Hrun1 & Hb1) & Hpe1 & Hq1 & Hd1 & HL1) & T1 & C1). rewrite E1. cbn [bind].
    set (k2 := if 0 <? km_delay k1 then set_delay k1 (km_delay k1 - 1) else k1).
    assert (H2 : km_sched k2 = km_sched k1 /\ km_idle k2 = km_idle k1 /\ km_ms_per_tick k2 = km_ms_per_tick k1 /\ km_ctx k2 = km_ctx k1).
    { unfold k2. destruct (0 <? km_delay k1); auto. }
    destruct H2 as (Es2 & Ei2 & Em2 & Ec2). rewrite Es2, Em2. unfold sched_tick. rewrite Ec, Em.
    unfold u32_add. cbn [ck_now ck_idle clocks_step c] in *.
    destruct (sc_counter (km_sched k) + km_ms_per_tick k <=? u32_max) eqn:L1; [|apply N.leb_gt in L1; unfold c in Hn; cbn in Hn; lia].
    cbn [bind]. destruct Hb1 as (_ & _ & _ & _ & F & _). rewrite F. cbn [last_opt bind].
    rewrite (drain0 refs d pos dbg) by exact Hpe1. cbn [bind].
    match goal with |- context [u32_add (km_idle ?x) _] => set (k3 := x) | |- context [km_idle ?x + _] => set (k3 := x) end.
    change (km_idle k3) with (km_idle k2). change (km_ms_per_tick k3) with (km_ms_per_tick k2). rewrite Ei2, Em2, Ei, Em.
    destruct (km_idle k + km_ms_per_tick k <=? u32_max) eqn:L2; [|apply N.leb_gt in L2; unfold c in Hi; cbn in Hi; lia].
    cbn [bind]. eexists. split; [reflexivity|]. unfold queue_tick. cbn [q_done]. change (km_ctx (set_idle k3 _)) with (km_ctx k2). rewrite Ec2. split; assumption.
  - unfold km_report_output, km_pressed_keys. destruct Hb as (_ & Hh & _). rewrite (touts _ _ Hh). cbn [bind]. eexists. split; [reflexivity|]. split; assumption.
  - eexists. split; [reflexivity|]. split; assumption.
Qed.
Lemma run_typing_total f cf ops : (70 <= f)%nat -> cf_layer_count cf = n -> stc_release (cf_sticky cf) = sr -> N.of_nat (length refs) <= 65535 -> Forall (fun o => plain_op o = true) ops ->
  tfits sr n refs d (chc_max_pressed (cf_chorded cf)) (q_done (queue_run ops)) -> ck_now (clocks_run ops) <= u32_max ->
  exists k, run_ops conf (fuel4 f) ops (start cf) = Ok k
    /\ tsim (queue_run ops) k /\ chord_tracks (down_after (q_done (queue_run ops))) (cx_chorded (km_ctx k)) /\ chx_config (cx_chorded (km_ctx k)) = cf_chorded cf.
Proof.
  intros Hfu Hly Hsr Hr. induction ops as [|o ops IH] using rev_ind; intros Ho Hf Hc.
  - exists (start cf). split; [reflexivity|]. split; [now apply tsim_new|]. split; [|reflexivity]. split; [apply quiet_new|]. split; [constructor|].
    right. split; [intros a x b y c H; destruct a; discriminate H|]. split; [constructor|]. intros x. reflexivity.
  - apply Forall_app in Ho as (Ho & Ho1). pose proof (Forall_inv Ho1) as Hop.
    unfold queue_run, clocks_run in Hf, Hc. rewrite !fold_left_app in Hf, Hc. cbn [fold_left] in Hf, Hc.
    change (fold_left queue_step ops queue_new) with (queue_run ops) in Hf. change (fold_left clocks_step ops clocks_new) with (clocks_run ops) in Hc.
    destruct IH as (k & E & Hs & Ht & Hcf); [exact Ho| | |].
    + destruct (queue_one_per_call (queue_run ops) o) as (l & El & _). rewrite El in Hf. eapply tfits_app. exact Hf.
    + eapply N.le_trans; [|exact Hc]. apply (clocks_mono [o]). now constructor.
    + pose proof (run_ops_clock conf _ ops (Forall_impl _ plain_timed Ho) _ _ E) as Ek. unfold clocks_of in Ek.
      change (fold_left clocks_step ops _) with (fold_left clocks_step ops (mkClocks 0 0 1)) in Ek.
      change (fold_left clocks_step ops (mkClocks 0 0 1)) with (clocks_run ops) in Ek.
      destruct (op_typing_total f (cf_chorded cf) (queue_run ops) k o Hfu Hr Hs Ht Hcf Hop Hf) as (k' & E' & T & C).
      * rewrite Ek. exact Hc.
      * rewrite Ek. eapply N.le_trans; [|exact Hc]. change (clocks_step (clocks_run ops) o) with (fold_left clocks_step [o] (clocks_run ops)).
        apply clocks_idle; [now constructor|]. apply (clocks_idle ops Ho). cbn. lia.
      * exists k'. split.
        { unfold run_ops in *. rewrite fold_res_app. rewrite E. cbn [bind fold_res]. now rewrite E'. }
        unfold queue_run. rewrite fold_left_app. cbn [fold_left]. split; [|split; assumption].
        eapply op_typing; [exact Hfu|apply Hs|exact Hop|exact E'].
Qed.
End Typing.

(** ** The board is determined by its inputs *)
Lemma tmeans_fun d on def r m1 : tmeans d on def r m1 -> forall m2, tmeans d on def r m2 -> m1 = m2.
Proof.
  induction 1 as [r ko Hk|i m Hm|i cb Hc| |i sk Hs|i k r m Hk Ha Hm IH]; intros m2 H2.
  - inversion H2 as [r' ko' Hk'|i' m' Hm'|i' cb' Hc'| |i' sk' Hs'|i' k' r' m' Hk' Ha' Hm']; subst; try contradiction. f_equal.
    destruct r as [| | | |[c]|[c]|[kc|mm|i]| |mm| | |]; cbn in Hk, Hk'; try contradiction; try congruence.
    destruct Hk as (x & E & ->), Hk' as (y & E' & ->). congruence.
  - inversion H2; subst; try contradiction. congruence.
  - inversion H2; subst; try contradiction. congruence.
  - inversion H2; subst; try contradiction. reflexivity.
  - inversion H2; subst; try contradiction. congruence.
  - inversion H2 as [r' ko' Hk'|i' m' Hm'|i' cb' Hc'| |i' sk' Hs'|i' k' r' m' Hk' Ha' Hm']; subst; try contradiction.
    apply IH. assert (k' = k) as -> by congruence. assert (r' = r) as -> by (eapply acts_as_fun; [|exact Ha]; exact Ha'). exact Hm'.
Qed.
Lemma tstep_fun sr refs d b ie b1 b2 : tstep sr refs d b ie b1 -> tstep sr refs d b ie b2 -> b1 = b2.
Proof.
  intros H1 H2. destruct H1 as [i Hd|i r m Hd Hr Hm|i|ko|ko]; inversion H2; subst; try congruence.
  match goal with X : nth_error refs _ = Some ?r0, Y : tmeans _ _ _ ?r0 ?m0 |- _ => assert (r0 = r) as -> by congruence; assert (m0 = m) as -> by (eapply tmeans_fun; eassumption) end.
  reflexivity.
Qed.
Lemma trun_fun sr n refs d h b1 : trun sr n refs d h b1 -> forall b2, trun sr n refs d h b2 -> b1 = b2.
Proof.
  induction 1 as [|h b ie b' Hr IH Hs]; intros b2 H2.
  - inversion H2 as [E|h0 b0 ie0 b0' _ _ E]; [reflexivity|]. destruct h0; discriminate.
  - inversion H2 as [E|h0 b0 ie0 b0' H0 S0 E]; [destruct h; discriminate|]. subst. apply app_inj_tail in E as (-> & ->).
    assert (b0 = b) as -> by (symmetry; now apply IH). eapply tstep_fun; eassumption.
Qed.
Lemma trun_total sr n refs d height h : Forall (tkey n d height) refs ->
  (forall i, In (Press i) h -> (N.to_nat i < length refs)%nat) -> exists b, trun sr n refs d h b.
Proof.
  intros Hr. induction h as [|ie h IH] using rev_ind; intros Hin; [exists (tboard_new n); constructor|].
  destruct IH as (b & Hb); [intros i Hi; apply Hin, in_or_app; now left|].
  assert (X : exists b', tstep sr refs d b ie b'); [|destruct X as (b' & Hs); exists b'; eapply trun_input; eassumption].
  destruct ie as [i|i|ko|ko]; try (eexists; constructor; fail).
  destruct (key_down i b) eqn:E; [eexists; now apply t_again|].
  assert (Hi : (N.to_nat i < length refs)%nat) by (apply Hin, in_or_app; right; now left).
  destruct (nth_error refs (N.to_nat i)) as [r|] eqn:Er; [|apply nth_error_None in Er; lia].
  rewrite Forall_forall in Hr. destruct (tmeans_total d n (tb_on (fst (hear sr (Press i) b))) (tb_default b) height r (Hr r (nth_error_In _ _ Er))) as (m & Hm).
  eexists. eapply t_press; eassumption.
Qed.
Lemma on_typing b l : is_on (lyc b) l = tb_on b l.
Proof.
  unfold is_on. cbn [lyc lyx_active]. unfold tb_on, mode_of. rewrite nth_error_map.
  destruct (1 <=? l); [|reflexivity]. cbn [andb]. destruct (nth_error (tb_layers b) (N.to_nat (l - 1))) as [m|] eqn:E.
  - rewrite (nth_error_nth _ _ _ E). destruct m; reflexivity.
  - rewrite (nth_overflow _ _ (proj1 (nth_error_None _ _) E)). reflexivity.
Qed.

(** ** What the keyboard does in words *)
Lemma trun_snoc sr n refs d h ie b b' : trun sr n refs d h b -> trun sr n refs d (h ++ [ie]) b' -> tstep sr refs d b ie b'.
Proof.
  intros H H'. inversion H' as [E|h0 b0 ie0 b0' H0 S0 E]; [destruct h; discriminate|]. subst. apply app_inj_tail in E as (-> & ->).
  assert (b0 = b) as -> by (exact (trun_fun _ _ _ _ _ _ H0 _ H)). exact S0.
Qed.
Lemma trun_next sr n refs d h ie b b1 b2 : trun sr n refs d h b -> tstep sr refs d b ie b1 -> trun sr n refs d (h ++ [ie]) b2 -> b2 = b1.
Proof. intros H S1 H2. exact (tstep_fun _ _ _ _ _ _ _ (trun_snoc _ _ _ _ _ _ _ _ H H2) S1). Qed.
Lemma no_once ls : forall i, (forall j, nth j ls LOff <> LOnce) -> once_from i ls = None.
Proof.
  induction ls as [|m ls IH]; intros i H; [reflexivity|]. cbn. assert (X : m <> LOnce) by exact (H O).
  destruct m; [apply IH; intros j; exact (H (S j))..|congruence].
Qed.
Lemma rest_no_once b : at_rest b -> once_from 1 (tb_layers b) = None.
Proof.
  intros (_ & _ & _ & _ & H). apply no_once. intros j X. apply (H (N.of_nat (S j))). unfold mode_of.
  destruct (N.leb_spec 1 (N.of_nat (S j))); [|lia]. replace (N.to_nat (N.of_nat (S j) - 1)) with j by lia. exact X.
Qed.
Lemma hear_still sr ie b : once_from 1 (tb_layers b) = None -> tb_latched_by b = None ->
  flat_map (reacts ie) (tb_down b) = [] -> map (notice ie) (tb_down b) = tb_down b -> hear sr ie b = (b, []).
Proof.
  intros H1 H2 H3 H4. unfold hear. rewrite H3, H4. replace (down_with b (tb_down b)) with b by (destruct b; reflexivity).
  unfold layers_hear. rewrite H1. unfold mods_hear. rewrite H2. destruct ie; reflexivity.
Qed.
Lemma once_put ls : forall i m, (forall j, nth j ls LOff <> LOnce) -> (m < length ls)%nat -> once_from i (set_nth ls m LOnce) = Some (i + N.of_nat m).
Proof.
  induction ls as [|x ls IH]; intros i m H Hm; [cbn in Hm; lia|]. assert (X : x <> LOnce) by exact (H O). destruct m as [|m]; cbn.
  - f_equal. lia.
  - rewrite (IH (i + 1) m); [|intros j; exact (H (S j))|cbn in Hm; lia]. replace (i + 1 + N.of_nat m) with (i + N.of_nat (S m)) by lia. destruct x; [reflexivity..|congruence].
Qed.
Lemma set_nth_twice {A} (ls : list A) m x y : set_nth (set_nth ls m x) m y = set_nth ls m y.
Proof. revert m. induction ls as [|z ls IH]; intros [|m]; cbn; [reflexivity..|]. now rewrite IH. Qed.
Lemma set_nth_same {A} (ls : list A) m x y : (m < length ls)%nat -> nth m (set_nth ls m x) y = x.
Proof. revert m. induction ls as [|z ls IH]; intros [|m] H; cbn in *; [lia..|reflexivity|apply IH; lia]. Qed.
Lemma set_nth_other {A} (ls : list A) m m' x y : m <> m' -> nth m (set_nth ls m' x) y = nth m ls y.
Proof. revert m m'. induction ls as [|z ls IH]; intros [|m] [|m'] H; cbn; try reflexivity; [congruence|apply IH; congruence]. Qed.
Lemma key_same (ko : key_output) : ko_eqb ko ko = true.
Proof. apply ReporterFacts.ko_eqb_eq. reflexivity. Qed.

Section Words.
Variables (sr : sticky_release) (n : nat) (refs : list ref) (d : key_data) (b : tboard).
Hypothesis Hb : at_rest b.
Local Notation step := (tstep sr refs d).
Local Ltac bo := destruct Hb as (Bd & Bl & Bb & Bc & Bo); pose proof (rest_no_once b Hb) as B1; clear Hb; destruct b as [dn ly df ob cw la lb ca]; cbn in Bd, Bl, Bb, Bc, B1; subst dn la lb cw.

Definition with_things (l : list thing) := down_with b l.
(** A one-shot modifier tapped, an ordinary key pressed and released. *)
Lemma one_shot_tap i q sk j r ko : nth_error refs (N.to_nat i) = Some (RSticky q) -> nth_error (kd_sticky d) (N.to_nat q) = Some sk ->
  nth_error refs (N.to_nat j) = Some r -> plain_key d r ko ->
  exists b1 b2 b3, step b (Press i) b1 /\ step b1 (Release i) b2 /\ step b2 (Press j) b3 /\ step b3 (Release j) b
    /\ tboard_output b1 = [] /\ tboard_output b2 = [mods_key (sk_mods sk)] /\ tboard_output b3 = [mods_key (sk_mods sk); ko]
    /\ tb_layers b3 = tb_layers b.
Proof.
  intros Hi Hs Hj Hp. bo. set (ms := sk_mods sk).
  set (b1 := mkT [inl (i, TOneShot ms, false)] ly df ob false [] None ca).
  set (b2 := mkT [inr (mods_key ms)] ly df ob false [ms] None ca).
  set (b3 := mkT [inr (mods_key ms); inl (j, TSends ko, false)] ly df ob false [ms] (Some j) ca).
  exists b1, b2, b3. split; [|split; [|split; [|split; [|auto]]]].
  - pose proof (t_press sr refs d (mkT [] ly df ob false [] None ca) i (RSticky q) (TOneShot ms) eq_refl Hi (tm_oneshot _ _ _ _ _ Hs)) as X.
    rewrite hear_still in X; [exact X|exact B1|reflexivity..].
  - pose proof (t_release sr refs d b1 i) as X. unfold hear, layers_hear in X. unfold b1 in X. cbn [map notice tb_down down_with tb_layers flat_map reacts] in X. rewrite B1, N.eqb_refl in X. unfold mods_hear in X.
    cbn -[ko_eqb mods_key N.eqb] in X. rewrite ?N.eqb_refl in X. exact X.
  - pose proof (t_press sr refs d b2 j r (TSends ko) eq_refl Hj (tm_sends _ _ _ _ _ Hp)) as X.
    rewrite hear_still in X; [exact X|exact B1|reflexivity..].
  - pose proof (t_release sr refs d b3 j) as X. unfold hear, layers_hear in X. unfold b3 in X. cbn [map notice tb_down down_with tb_layers flat_map reacts] in X. rewrite B1, N.eqb_refl in X. unfold mods_hear in X.
    cbn -[ko_eqb mods_key N.eqb] in X. rewrite ?N.eqb_refl in X. cbn -[ko_eqb mods_key N.eqb] in X. rewrite ?N.eqb_refl in X. cbn -[ko_eqb mods_key N.eqb] in X.
    unfold goes_up, down_with, latched_with in X. cbn -[ko_eqb mods_key N.eqb] in X. rewrite key_same in X. exact X.
Qed.
(** Held together with an ordinary key it is an ordinary modifier. *)
Lemma one_shot_held i q sk j r ko : nth_error refs (N.to_nat i) = Some (RSticky q) -> nth_error (kd_sticky d) (N.to_nat q) = Some sk ->
  nth_error refs (N.to_nat j) = Some r -> plain_key d r ko ->
  exists b1 b2 b3 b4, step b (Press i) b1 /\ step b1 (Press j) b2 /\ step b2 (Release i) b3 /\ step b3 (Release j) b
    /\ step b2 (Release j) b4 /\ step b4 (Release i) b
    /\ tboard_output b2 = [mods_key (sk_mods sk); ko] /\ tboard_output b3 = [ko] /\ tboard_output b4 = [mods_key (sk_mods sk)].
Proof.
  intros Hi Hs Hj Hp. assert (Hij : i =? j = false) by (apply N.eqb_neq; intros ->; rewrite Hi in Hj; injection Hj as <-; exact Hp).
  bo. set (ms := sk_mods sk).
  set (b1 := mkT [inl (i, TOneShot ms, false)] ly df ob false [] None ca).
  set (b2 := mkT [inl (i, TOneShot ms, true); inl (j, TSends ko, false)] ly df ob false [] None ca).
  set (b3 := mkT [inl (j, TSends ko, false)] ly df ob false [] None ca).
  set (b4 := mkT [inl (i, TOneShot ms, true)] ly df ob false [] None ca).
  exists b1, b2, b3, b4. repeat (split; [|]); try reflexivity.
  - pose proof (t_press sr refs d (mkT [] ly df ob false [] None ca) i (RSticky q) (TOneShot ms) eq_refl Hi (tm_oneshot _ _ _ _ _ Hs)) as X.
    rewrite hear_still in X; [exact X|exact B1|reflexivity..].
  - assert (Hd : key_down j b1 = false) by (cbn; rewrite N.eqb_sym, Hij; reflexivity).
    pose proof (t_press sr refs d b1 j r (TSends ko) Hd Hj (tm_sends _ _ _ _ _ Hp)) as X.
    rewrite hear_still in X; [exact X|exact B1|reflexivity..].
  - pose proof (t_release sr refs d b2 i) as X. rewrite hear_still in X; [|exact B1|reflexivity|cbn; rewrite N.eqb_refl, Hij; reflexivity|reflexivity].
    cbn in X. rewrite N.eqb_refl in X. exact X.
  - pose proof (t_release sr refs d b3 j) as X. rewrite hear_still in X; [|exact B1|reflexivity|cbn; rewrite N.eqb_refl; reflexivity|reflexivity].
    cbn in X. rewrite N.eqb_refl in X. exact X.
  - pose proof (t_release sr refs d b2 j) as X. rewrite hear_still in X; [|exact B1|reflexivity|cbn; rewrite N.eqb_refl; destruct (j =? i); reflexivity|reflexivity].
    cbn in X. rewrite (N.eqb_sym j i), Hij, N.eqb_refl in X. exact X.
  - pose proof (t_release sr refs d b4 i) as X. rewrite hear_still in X; [|exact B1|reflexivity|cbn; rewrite N.eqb_refl; reflexivity|reflexivity].
    cbn in X. rewrite N.eqb_refl in X. exact X.
Qed.
(** Caps word: a shift until the end of the word. *)
Lemma caps_word i j r ko j' r' ko' : nth_error refs (N.to_nat i) = Some RCapsWord ->
  nth_error refs (N.to_nat j) = Some r -> plain_key d r ko -> in_word ko = true ->
  nth_error refs (N.to_nat j') = Some r' -> plain_key d r' ko' -> in_word ko' = false ->
  exists b1 b2 b3 b4, step b (Press i) b1 /\ step b1 (Release i) b2 /\ step b2 (Press j) b3 /\ step b3 (Release j) b2
    /\ step b2 (Press j') b4 /\ step b4 (Release j') b
    /\ tboard_output b2 = [caps_shift] /\ tboard_output b3 = [caps_shift; ko] /\ tboard_output b4 = [ko']
    /\ tb_caps b2 = true /\ tb_caps b3 = true /\ tb_caps b4 = false.
Proof.
  intros Hi Hj Hp Hw Hj' Hp' Hw'. bo.
  set (b1 := mkT [inl (i, TCapsWord, false); inr caps_shift] ly df ob true [] None ca).
  set (b2 := mkT [inr caps_shift] ly df ob true [] None ca).
  set (b3 := mkT [inr caps_shift; inl (j, TSends ko, false)] ly df ob true [] None ca).
  set (b4 := mkT [inl (j', TSends ko', false)] ly df ob false [] None ca).
  exists b1, b2, b3, b4. repeat (split; [|]); try reflexivity.
  - pose proof (t_press sr refs d (mkT [] ly df ob false [] None ca) i RCapsWord TCapsWord eq_refl Hi (tm_caps _ _ _)) as X.
    rewrite hear_still in X; [exact X|exact B1|reflexivity..].
  - pose proof (t_release sr refs d b1 i) as X. rewrite hear_still in X; [|exact B1|reflexivity|cbn; rewrite N.eqb_refl; reflexivity|reflexivity].
    cbn in X. rewrite N.eqb_refl in X. exact X.
  - pose proof (t_press sr refs d b2 j r (TSends ko) eq_refl Hj (tm_sends _ _ _ _ _ Hp)) as X.
    rewrite hear_still in X; [|exact B1|reflexivity..]. unfold key_goes_down, typed in X. rewrite Hw in X. exact X.
  - pose proof (t_release sr refs d b3 j) as X. rewrite hear_still in X; [|exact B1|reflexivity|cbn; rewrite N.eqb_refl; reflexivity|reflexivity].
    cbn in X. rewrite N.eqb_refl in X. exact X.
  - pose proof (t_press sr refs d b2 j' r' (TSends ko') eq_refl Hj' (tm_sends _ _ _ _ _ Hp')) as X.
    rewrite hear_still in X; [|exact B1|reflexivity..]. unfold key_goes_down, typed in X. rewrite Hw' in X. exact X.
  - pose proof (t_release sr refs d b4 j') as X. rewrite hear_still in X; [|exact B1|reflexivity|cbn; rewrite N.eqb_refl; reflexivity|reflexivity].
    cbn in X. rewrite N.eqb_refl in X. exact X.
Qed.
(** A one-shot layer: for one key. *)
Lemma one_shot_layer i q l j p lk r ko : nth_error refs (N.to_nat i) = Some (RLayered (LyModifier q)) -> nth_error (kd_layer_mods d) (N.to_nat q) = Some (LmSticky l) ->
  1 <= l <= N.of_nat (length (tb_layers b)) ->
  nth_error refs (N.to_nat j) = Some (RLayered (LyLayered p)) -> nth_error (kd_layered d) (N.to_nat p) = Some lk ->
  acts_as lk (fun x => x = l \/ tb_on b x = true) (tb_default b) r -> plain_key d r ko ->
  exists b1 b2 b3 b4, step b (Press i) b1 /\ step b1 (Release i) b2 /\ step b2 (Press j) b3 /\ step b3 (Release j) b4
    /\ tboard_output b1 = [] /\ tboard_output b2 = [] /\ tboard_output b3 = [ko] /\ tboard_output b4 = []
    /\ tb_layers b4 = put l LOff (tb_layers b) /\ at_rest b4 /\ tb_on b2 l = true.
Proof.
  intros Hi Hq Hl Hj Hk Ha Hp. bo. cbn [tb_layers] in Hl. set (ly' := put l LOnce ly).
  assert (Bo' : forall x, nth x ly LOff <> LOnce).
  { intros x X. apply (Bo (N.of_nat (S x))). unfold mode_of. destruct (N.leb_spec 1 (N.of_nat (S x))); [|lia]. replace (N.to_nat (N.of_nat (S x) - 1)) with x by lia. exact X. }
  assert (E1 : put l LOnce ly = set_nth ly (N.to_nat (l - 1)) LOnce) by (unfold put; destruct (N.leb_spec 1 l); [reflexivity|lia]).
  assert (O1 : once_from 1 ly' = Some l).
  { unfold ly'. rewrite E1, once_put; [f_equal; lia|exact Bo'|lia]. }
  set (b1 := mkT [inl (i, TSwitches (LmSticky l), false)] ly' df None false [] None ca).
  set (b2 := mkT [] ly' df None false [] None ca).
  set (b3 := mkT [inl (j, TSends ko, false)] ly' df (Some j) false [] None ca).
  set (b4 := mkT [] (put l LOff ly) df None false [] None ca).
  exists b1, b2, b3, b4. split; [|split; [|split; [|split; [|]]]].
  - pose proof (t_press sr refs d (mkT [] ly df ob false [] None ca) i (RLayered (LyModifier q)) (TSwitches (LmSticky l)) eq_refl Hi (tm_switches _ _ _ _ _ Hq)) as X.
    rewrite hear_still in X; [exact X|exact B1|reflexivity..].
  - pose proof (t_release sr refs d b1 i) as X. unfold hear, layers_hear in X. unfold b1 in X. cbn [map notice tb_down down_with tb_layers flat_map reacts tb_once_by] in X. rewrite O1, N.eqb_refl in X.
    cbn in X. rewrite N.eqb_refl in X. exact X.
  - assert (Eh : hear sr (Press j) b2 = (mkT [] ly' df (Some j) false [] None ca, [])).
    { unfold hear, layers_hear. cbn [map notice b2 tb_down down_with tb_layers flat_map reacts tb_once_by]. rewrite O1. reflexivity. }
    assert (Hm : tmeans d (tb_on (fst (hear sr (Press j) b2))) df (RLayered (LyLayered p)) (TSends ko)).
    { rewrite Eh. cbn [fst]. eapply tm_layered; [exact Hk| |exact (tm_sends _ _ _ _ _ Hp)]. eapply acts_as_ext; [|exact Ha]. intros x. cbn beta.
      unfold tb_on, mode_of. cbn [tb_layers]. unfold ly'. rewrite E1. destruct (N.leb_spec 1 x) as [Hx|Hx].
      - destruct (N.eq_dec x l) as [->|Hne].
        + split; [intros _|now left]. rewrite set_nth_same by lia. reflexivity.
        + rewrite set_nth_other by lia. split; [intros [X|X]; [congruence|exact X]|now right].
      - split; [intros [->|X]; [lia|exact X]|intros X; discriminate X]. }
    pose proof (t_press sr refs d b2 j (RLayered (LyLayered p)) (TSends ko) eq_refl Hj Hm) as X. rewrite Eh in X. exact X.
  - pose proof (t_release sr refs d b3 j) as X. unfold hear, layers_hear in X. unfold b3 in X. cbn [map notice tb_down down_with tb_layers flat_map reacts tb_once_by] in X. rewrite O1, N.eqb_refl in X.
    cbn in X. rewrite N.eqb_refl in X. cbn in X.
    assert (E2 : put l LOff ly' = put l LOff ly) by (unfold ly', put; destruct (1 <=? l); [apply set_nth_twice|reflexivity]). rewrite E2 in X. exact X.
  - do 4 (split; [reflexivity|]). split; [reflexivity|].
    split; [|unfold tb_on, mode_of; cbn [b2 tb_layers]; unfold ly'; rewrite E1; destruct (N.leb_spec 1 l); [|lia]; rewrite set_nth_same by lia; reflexivity].
    do 4 (split; [reflexivity|]). intros x. unfold mode_of. cbn [b4 tb_layers]. destruct (N.leb_spec 1 x); [|discriminate].
    unfold put. destruct (N.leb_spec 1 l); [|lia]. destruct (Nat.eq_dec (N.to_nat (x - 1)) (N.to_nat (l - 1))) as [->|Hne].
    + rewrite set_nth_same by lia. discriminate.
    + rewrite set_nth_other by congruence. apply Bo'.
Qed.
(** An ordinary key on a keyboard at rest. *)
Lemma plain_tap j r ko : nth_error refs (N.to_nat j) = Some r -> plain_key d r ko -> exists b1, step b (Press j) b1 /\ tboard_output b1 = [ko].
Proof.
  intros Hj Hp. bo. exists (mkT [inl (j, TSends ko, false)] ly df ob false [] None ca). split; [|reflexivity].
  pose proof (t_press sr refs d (mkT [] ly df ob false [] None ca) j r (TSends ko) eq_refl Hj (tm_sends _ _ _ _ _ Hp)) as X.
  rewrite hear_still in X; [exact X|exact B1|reflexivity..].
Qed.
End Words.
Lemma rest_output b : at_rest b -> tboard_output b = [].
Proof. intros (H & _). unfold tboard_output. now rewrite H. Qed.
(** The number of layers never changes. *)
Lemma carry_layers b e : length (tb_layers (carry b e)) = length (tb_layers b).
Proof.
  destruct e as [le|cb|[]|m|ko|ko]; try reflexivity.
  - destruct le; cbn; rewrite ?put_length, ?put_all_length; reflexivity.
  - cbn [carry]. match goal with |- context [if ?x then _ else _] => destruct x end; reflexivity.
Qed.
Lemma carry_out_layers es : forall b, length (tb_layers (carry_out es b)) = length (tb_layers b).
Proof. induction es as [|e es IH]; intros b; [reflexivity|]. cbn [carry_out fold_left]. fold (carry_out es (carry b e)). now rewrite IH, carry_layers. Qed.
Lemma hear_layers sr ie b : length (tb_layers (fst (hear sr ie b))) = length (tb_layers b).
Proof.
  unfold hear. set (b0 := down_with b _). assert (E : length (tb_layers (layers_hear ie b0)) = length (tb_layers b)).
  { unfold layers_hear. change (tb_layers b0) with (tb_layers b). destruct (once_from 1 (tb_layers b)); [|reflexivity].
    destruct ie as [i|i|ko|ko]; destruct (tb_once_by b0) as [j|]; try destruct (i =? j); cbn; rewrite ?put_length; reflexivity. }
  rewrite <- E. generalize (layers_hear ie b0). intros b1. unfold mods_hear.
  destruct ie as [i|i|ko|ko]; destruct (tb_latched_by b1) as [j|]; destruct sr; try reflexivity; destruct (tb_latched b1); try reflexivity; destruct (i =? j); reflexivity.
Qed.
Lemma trun_layers sr n refs d h b : trun sr n refs d h b -> length (tb_layers b) = n.
Proof.
  induction 1 as [|h b ie b' Hr IH Hs]; [apply repeat_length|]. rewrite <- IH. destruct Hs as [i Hd|i r m Hd Hr' Hm|i|ko|ko]; try reflexivity.
  - pose proof (hear_layers sr (Press i) b) as E. destruct (hear sr (Press i) b) as [b1 es]. now rewrite carry_out_layers.
  - pose proof (hear_layers sr (Press i) b) as E. destruct (hear sr (Press i) b) as [b1 es]. cbn [fst] in E.
    assert (E2 : length (tb_layers (fst (key_goes_down i m b1))) = length (tb_layers b1)) by (destruct m; reflexivity).
    destruct (key_goes_down i m b1) as [b2 es2]. rewrite carry_out_layers. cbn [fst] in E2. congruence.
  - pose proof (hear_layers sr (Release i) b) as E. destruct (hear sr (Release i) b) as [b1 es]. now rewrite carry_out_layers.
Qed.

(** ** Room *)
Lemma shrink_out es : forall b, Forall shrinks es -> (length (tb_down (carry_out es b)) <= length (tb_down b))%nat.
Proof.
  induction es as [|e es IH]; intros b H; [cbn; lia|]. inversion H; subst. cbn [carry_out fold_left]. fold (carry_out es (carry b e)).
  pose proof (IH (carry b e) ltac:(assumption)). pose proof (shrink_length b e ltac:(assumption)). lia.
Qed.
Lemma carry_length b e : (length (tb_down (carry b e)) <= S (length (tb_down b)))%nat.
Proof.
  destruct e as [le|cb|[]|m|ko|ko]; try (pose proof (shrink_length b _ (Logic.I : shrinks (ELayer le))); lia).
  - cbn. lia.
  - cbn. rewrite app_length. cbn. lia.
  - cbn. pose proof (remove_length (virtual_is caps_shift) (tb_down b)). lia.
  - pose proof (shrink_length b (ELatch m) Logic.I). lia.
  - cbn. rewrite app_length. cbn. lia.
  - pose proof (shrink_length b (EUp ko) Logic.I). lia.
Qed.
Lemma carry_out_app es es' b : carry_out (es ++ es') b = carry_out es' (carry_out es b).
Proof. unfold carry_out. apply fold_left_app. Qed.
Lemma press_shrinks sr i b : Forall shrinks (snd (hear sr (Press i) b)).
Proof.
  unfold hear. pose proof (mods_shrink sr (Press i) (layers_hear (Press i) (down_with b (map (notice (Press i)) (tb_down b))))) as Y.
  destruct (mods_hear sr (Press i) _) as [b2 es2]. cbn [snd] in *. apply Forall_app. split; [apply press_shrink|exact Y].
Qed.
Lemma goes_down_length i m b : length (tb_down (fst (key_goes_down i m b))) = S (length (tb_down b)).
Proof. destruct m; cbn; rewrite ?map_length, app_length; cbn; lia. Qed.
Lemma goes_down_one i m b : snd (key_goes_down i m b) = [] \/ exists e, snd (key_goes_down i m b) = [e].
Proof. destruct m; cbn; eauto. match goal with |- context [if ?x then _ else _] => destruct x end; eauto. Qed.
Lemma step_length sr refs d b ie b' : tstep sr refs d b ie b' -> NoDup (keys_of b) -> (length (tb_down b') <= length (tb_down b) + adds ie)%nat.
Proof.
  intros H Hnd. destruct H as [i Hd|i r m Hd Hr Hm|i|ko|ko]; cbn [adds].
  - pose proof (press_shrinks sr i b) as HS. pose proof (hear_same sr (Press i) b) as (D & _). destruct (hear sr (Press i) b) as [b1 es]. cbn [fst snd] in *.
    pose proof (shrink_out es b1 HS). rewrite D, map_length in *. lia.
  - pose proof (press_shrinks sr i b) as HS. pose proof (hear_same sr (Press i) b) as (D & _). destruct (hear sr (Press i) b) as [b1 es]. cbn [fst snd] in *.
    pose proof (goes_down_length i m b1) as L. pose proof (goes_down_one i m b1) as O. destruct (key_goes_down i m b1) as [b2 es2]. cbn [fst snd] in *.
    rewrite carry_out_app. pose proof (shrink_out es b2 HS). assert (length (tb_down b1) = length (tb_down b)) by (rewrite D; apply map_length).
    destruct O as [->|(e & ->)]; cbn [carry_out fold_left]; [change (fold_left carry es b2) with (carry_out es b2); lia|].
    pose proof (carry_length (carry_out es b2) e). change (fold_left carry es b2) with (carry_out es b2). lia.
  - pose proof (hear_same sr (Release i) b) as (D & _). unfold hear in *.
    pose proof (mods_shrink sr (Release i) (layers_hear (Release i) (down_with b (map (notice (Release i)) (tb_down b))))) as Y.
    destruct (mods_hear sr (Release i) _) as [b2 es2]. cbn [fst snd] in *. rewrite carry_out_app. rewrite (map_ext _ (fun x => x)) in D by reflexivity. rewrite map_id in D.
    pose proof (shrink_out es2 (carry_out (flat_map (reacts (Release i)) (tb_down b)) (down_with b2 (remove_first (key_is i) (tb_down b2)))) Y) as Z.
    cbn [snd] in Z. eapply Nat.le_trans; [exact Z|]. rewrite D, Nat.add_0_r.
    pose proof (react_release i (tb_down b) Hnd) as (_ & Hin).
    assert (W : exists es1, flat_map (reacts (Release i)) (tb_down b) = es1 /\ (Forall shrinks es1 \/ exists ms ko, es1 = [ELatch ms; EDown ko])).
    { clear -Hnd. unfold keys_of in *. fold (keysl (tb_down b)) in *. induction (tb_down b) as [|[[[j m] u]|ko] l IH]; [exists []; split; [reflexivity|left; constructor]| |].
      - change (keysl (inl (j, m, u) :: l)) with (j :: keysl l) in *. inversion Hnd as [|? ? Hni Hnd']; subst. cbn [flat_map reacts].
        destruct (N.eqb_spec i j) as [->|Hne]; [|exact (IH Hnd')].
        assert (E : flat_map (reacts (Release j)) l = []) by (destruct (flat_map (reacts (Release j)) l) eqn:E; [reflexivity|exfalso; apply Hni, (react_release j l Hnd'); congruence]).
        rewrite E, app_nil_r. eexists. split; [reflexivity|]. destruct m as [| [l1|l1|l1|l1|l1] | | |]; try destruct u; cbn; try (left; repeat constructor; fail). right. eauto.
      - exact (IH Hnd). }
    destruct W as (es1 & E & [W|(ms & ko & W)]); rewrite E in *.
    + pose proof (shrink_out es1 (down_with b2 (remove_first (key_is i) (tb_down b))) W) as V. cbn [down_with tb_down] in V. pose proof (remove_length (key_is i) (tb_down b)). lia.
    + clear E; subst es1. assert (Hi : In i (keysl (tb_down b))) by (apply Hin; discriminate). apply keysl_In in Hi.
      assert (R : S (length (remove_first (key_is i) (tb_down b))) = length (tb_down b)).
      { clear -Hi. induction (tb_down b) as [|x l IH]; [discriminate|]. cbn [remove_first existsb] in *. destruct (key_is i x); [reflexivity|]. cbn [length]. f_equal. apply IH. exact Hi. }
      cbn [carry_out fold_left]. set (b3 := down_with b2 _). pose proof (shrink_length b3 (ELatch ms) Logic.I) as Q. change (tb_down (carry (carry b3 (ELatch ms)) (EDown ko))) with (tb_down (carry b3 (ELatch ms)) ++ [inr ko]).
      rewrite app_length. cbn [length]. assert (length (tb_down b3) = length (remove_first (key_is i) (tb_down b))) by reflexivity. lia.
  - cbn. rewrite app_length. cbn. lia.
  - cbn. pose proof (remove_length (virtual_is ko) (tb_down b)). lia.
Qed.
Lemma added_app h1 h2 : added (h1 ++ h2) = (added h1 + added h2)%nat.
Proof. induction h1 as [|x h IH]; [reflexivity|]. change (added ((x :: h) ++ h2)) with (adds x + added (h ++ h2))%nat. rewrite IH. change (added (x :: h)) with (adds x + added h)%nat. lia. Qed.
Lemma trun_nodup sr n refs d h b : trun sr n refs d h b -> NoDup (keys_of b).
Proof. intros H. rewrite <- (run_keys refs d sr n h b H). apply down_nodup. Qed.
Lemma trun_length sr n refs d h b : trun sr n refs d h b -> (length (tb_down b) <= added h)%nat.
Proof.
  induction 1 as [|h b ie b' Hr IH Hs]; [cbn; lia|]. rewrite added_app. cbn. pose proof (step_length _ _ _ _ _ _ Hs (trun_nodup _ _ _ _ _ _ Hr)). lia.
Qed.
Lemma keys_length b : (length (keys_of b) <= length (tb_down b))%nat.
Proof. unfold keys_of. induction (tb_down b) as [|[[[j m] u]|ko] l IH]; cbn; lia. Qed.
Lemma few_fit sr n refs d m h : (forall i, In (Press i) h -> (N.to_nat i < length refs)%nat) -> (added h <= 16)%nat ->
  (m = O \/ 16 <= m)%nat -> tfits sr n refs d m h.
Proof.
  intros Hi Ha Hm. split; [exact Hi|]. intros h1 ie h2 b b' -> Hr Hs. pose proof (trun_length _ _ _ _ _ _ Hr) as L1.
  pose proof (trun_length _ _ _ _ _ _ (trun_input _ _ _ _ _ _ _ _ Hr Hs)) as L2. rewrite !added_app in *. cbn [added fold_right] in *. fold (added h2) in *.
  pose proof (keys_length b'). split; [|destruct Hm; [now left|right; lia]]. split; [lia|].
  destruct ie as [i|i|ko|ko]; try exact Logic.I. right. cbn [adds] in *. lia.
Qed.
