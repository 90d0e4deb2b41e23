(** Keyboards with layers, computed (C62). *)
From Verif Require Import BaseFacts Output Types Scheduler Reporter Keymap SimpleKeys TapHold TapDance Sticky CapsWord
  Layered Automation Chorded Composite SpecKeymap KeymapHist KeymapQueue KeymapCalls KeymapApi SpecChord ChordFacts ChordHeld SpecPlain PlainFacts
  SpecLayer LayerFacts SpecBoard.
Local Open Scope N_scope.

(** The layer context stands for the layers of the board. *)
Definition layers_of (n : nat) (c : cctx) (b : board) : Prop :=
  length (lyx_active (cx_layered c)) = n /\ (forall x, is_on (cx_layered c) x = bd_on b x)
  /\ lyx_default (cx_layered c) = bd_default b /\ (forall l, bd_default b = Some l -> 1 <= l <= N.of_nat n).
Definition with_layered (c : cctx) (l : layered_ctx) : cctx :=
  mkCtx (cx_automation c) (cx_caps_word c) (cx_chorded c) l (cx_sticky c) (cx_tap_dance c) (cx_tap_hold c).

(** Layer events that make no layer sticky. *)
Definition layer_event_in (n : nat) (e : layer_event) : Prop :=
  match e with
  | LeActivated l | LeDeactivated l | LeToggled l => 1 <= l <= N.of_nat n
  | LeSet _ => True
  | LeSetDefault l => l <= N.of_nat n
  | LeStickyActivated _ => False
  end.
Lemma no_sticky_find ls : Forall (fun a => is_sticky_active a = false) ls -> forall i, find_sticky i ls = None.
Proof. induction 1 as [|a ls Ha _ IH]; intros i; cbn; [reflexivity|]. rewrite Ha. apply IH. Qed.
Lemma no_sticky_set ls l a ls' : layer_set ls l a = Ok ls' -> is_sticky_active a = false ->
  Forall (fun a => is_sticky_active a = false) ls -> Forall (fun a => is_sticky_active a = false) ls'.
Proof.
  unfold layer_set, update_index. destruct (l =? 0); [discriminate|]. destruct (_ <? _)%nat; [|discriminate]. intros H Ha Hf. inv_ok H.
  generalize (N.to_nat (l - 1)) as m. induction Hf as [|x ls Hx Hf IH]; intros [|m]; cbn; auto.
Qed.
Lemma no_sticky_event n c e c' : layer_event_in n e -> handle_layer_event c e = Ok c' ->
  sticky_layer c = None -> sticky_layer c' = None.
Proof.
  intros He H Hs. unfold sticky_layer in *. apply no_sticky_find. apply find_sticky_none in Hs.
  destruct e as [l|l|l|l|bits|l]; cbn [handle_layer_event layer_event_in] in *; try contradiction.
  - inv_bind H. inv_ok H. cbn. eapply no_sticky_set; [exact E|reflexivity|exact Hs].
  - inv_bind H. inv_ok H. cbn. eapply no_sticky_set; [exact E|reflexivity|exact Hs].
  - inv_bind H. inv_bind H. inv_ok H. cbn. destruct (is_active a); (eapply no_sticky_set; [exact E0|reflexivity|exact Hs]).
  - inv_bind H. inv_ok H. cbn. unfold set_layers in E. revert Hs E. generalize (seq 1 (Nat.min (length (lyx_active c)) MAX_BITSET_LAYER)) as xs. intros xs. generalize (lyx_active c) as ls.
    induction xs as [|x xs IH]; intros ls Hs E; cbn [fold_res] in E; [now inv_ok E|]. inv_bind E. eapply IH; [|exact E].
    unfold set_one in E0. destruct (N.testbit bits (N.of_nat x)); (eapply no_sticky_set; [exact E0|reflexivity|exact Hs]).
  - inv_ok H. exact Hs.
Qed.
Lemma layer_event_ctx n c b ki e : calm c -> layers_of n c b -> layer_event_in n e ->
  exists l, cctx_handle_event c (EvKey ki (CeLayered e)) = Ok (with_layered c l, [])
    /\ calm (with_layered c l) /\ layers_of n (with_layered c l) (switch n (Some e) b).
Proof.
  intros Hc (Hn & Ho & Hd & Hr) He. destruct (layer_event_ok (cx_layered c) e) as (l & El).
  { rewrite Hn. destruct e; cbn in *; try exact I; try assumption. contradiction. }
  exists l. split.
  - unfold cctx_handle_event, step_automation, step_caps_word, step_chorded, step_layered, step_sticky.
    cbn [try_event as_automation as_caps_word as_chorded as_layered as_sticky bind ke_extend push_all_cap fold_res ly_handle_event]. rewrite El. reflexivity.
  - destruct Hc as (H1 & H2 & H3 & H4). pose proof (layer_event_spec _ _ _ El) as (S1 & S2 & S3 & _).
    split.
    + unfold calm. cbn. repeat split; try assumption. eapply no_sticky_event; eassumption.
    + unfold layers_of. cbn [with_layered cx_layered switch bd_on bd_default]. rewrite S1, Hn. split; [reflexivity|]. split; [|split].
      * intros x. rewrite S2, Hn. unfold layer_set_step. destruct e; rewrite ?Ho; reflexivity.
      * now rewrite S3, Hd.
      * destruct e; cbn [default_step]; try exact Hr. cbn in He. intros x Hx. destruct l0; [discriminate|]. injection Hx as <-. lia.
Qed.
Lemma callback_ctx c cb : calm c -> cctx_handle_event c (EvKeymap (KmCallback cb)) = Ok (c, []).
Proof.
  intros (Hw & Hl & Hs & Hp). unfold cctx_handle_event, step_automation, step_caps_word, step_chorded, step_layered, step_sticky.
  cbn [try_event auto_handle_event cw_handle_event ch_handle_event bind ke_map map ke_extend fold_res ly_handle_event st_handle_event].
  rewrite ?Hw, ?Hs. cbn. now rewrite ctx_eta.
Qed.
Lemma input_layers n c b h : layers_of n c b -> layers_of n (with_chorded c h) b.
Proof. exact (fun H => H). Qed.

Section Board.
Variables (refs : list ref) (d : key_data) (pos : position_fn) (dbg : bool) (n height : nat).
Local Notation conf := (cconf refs d pos dbg).

(** A pressed key of the keymap that stands for a thing down on the board. *)
Definition held (pi : pressed_input ref cks) (x : u16 * meaning + key_output) : Prop :=
  match pi, x with
  | PiKey i r ks, inl (j, m) =>
      i = j /\ match m with
      | Sends ko => plain_key d r ko /\ ks = ks_plain r
      | Switches lm => exists q, r = RLayered (LyModifier q) /\ nth_error (kd_layer_mods d) (N.to_nat q) = Some lm
                         /\ modifier_ok n lm /\ ks = KsLayerModifier BhRegular
      | Calls cb => exists q, r = RCallback q /\ ks = KsNoOp
      | Nothing => exists q, r = RChorded q /\ ks = KsNoOp
      end
  | PiVirtual ko, inr ko' => ko = ko'
  | _, _ => False
  end.
Definition forget (x : u16 * meaning + key_output) : u16 + key_output :=
  match x with inl (i, _) => inl i | inr ko => inr ko end.
Definition shape (b : board) : down := map forget (bd_down b).

Definition bstate (sch : list (sch_entry cev)) (b : board) (k : ckeymap) : Prop :=
  calm (km_ctx k) /\ layers_of n (km_ctx k) b /\ Forall2 held (km_pressed k) (bd_down b)
  /\ NoDup (keys_down (shape b)) /\ sc_scheduled (km_sched k) = sch /\ km_pending k = None.

Lemma this_forget i l : existsb (is_key i) (map forget l) = existsb (this_key i) l.
Proof. induction l as [|[[j m]|ko] l IH]; cbn; [reflexivity| |]; now rewrite IH. Qed.
Lemma has_held pis l i : Forall2 held pis l -> existsb (pi_has_index i) pis = existsb (this_key i) l.
Proof.
  induction 1 as [|pi x pis l H _ IH]; [reflexivity|]. cbn [existsb]. rewrite IH.
  destruct pi as [j r ks|ko], x as [[j' m]|ko']; cbn in H; try contradiction; [|reflexivity]. destruct H as (-> & _). reflexivity.
Qed.
Lemma remove_held pis l i : Forall2 held pis l -> Forall2 held (remove_first (pi_has_index i) pis) (remove_first (this_key i) l).
Proof.
  induction 1 as [|pi x pis l H Hl IH]; [constructor|]. cbn [remove_first].
  destruct pi as [j r ks|ko], x as [[j' m]|ko']; cbn in H; try contradiction; cbn [pi_has_index this_key].
  - destruct H as (-> & H). destruct (i =? j'); [exact Hl|]. constructor; [split; [reflexivity|exact H]|exact IH].
  - constructor; [exact H|exact IH].
Qed.
Lemma remove_held_virtual pis l ko : Forall2 held pis l ->
  Forall2 held (remove_first (fun pi => match pi with PiVirtual ko' => ko_eqb ko ko' | PiKey _ _ _ => false end) pis) (remove_first (this_virtual ko) l).
Proof.
  induction 1 as [|pi x pis l H Hl IH]; [constructor|]. cbn [remove_first].
  destruct pi as [j r ks|ko1], x as [[j' m]|ko2]; cbn in H; try contradiction; cbn [this_virtual].
  - constructor; [exact H|exact IH].
  - subst ko2. destruct (ko_eqb ko ko1); [exact Hl|]. constructor; [reflexivity|exact IH].
Qed.
Lemma held_length pis l : Forall2 held pis l -> length pis = length l.
Proof. induction 1; cbn; congruence. Qed.
Lemma shape_remove i l : map forget (remove_first (this_key i) l) = remove_first (is_key i) (map forget l).
Proof. induction l as [|[[j m]|ko] l IH]; cbn; [reflexivity| |]; [destruct (i =? j); cbn; [reflexivity|]|]; now rewrite IH. Qed.
Lemma shape_remove_virtual ko l : map forget (remove_first (this_virtual ko) l) = remove_first (is_virtual ko) (map forget l).
Proof. induction l as [|[[j m]|ko'] l IH]; cbn; [reflexivity| |]; [|destruct (ko_eqb ko ko'); cbn; [reflexivity|]]; now rewrite IH. Qed.
Lemma switch_down e b : bd_down (switch n e b) = bd_down b. Proof. destruct e; reflexivity. Qed.
Lemma step_shape b ie b' : board_step n refs d b ie b' -> shape b' = down_step (shape b) ie.
Proof.
  unfold shape. destruct 1 as [i H|i r m H _ _|i m H|i H|ko|ko]; cbn [down_step].
  - now rewrite this_forget, H.
  - rewrite this_forget, H, switch_down. cbn. now rewrite map_app.
  - rewrite switch_down. cbn. apply shape_remove.
  - symmetry. rewrite <- shape_remove. clear -H. induction (bd_down b) as [|[[j m]|ko] l IH]; cbn in *; [reflexivity| |].
    + apply orb_false_iff in H as (-> & H). cbn. now rewrite IH.
    + now rewrite IH.
  - cbn. now rewrite map_app.
  - cbn. apply shape_remove_virtual.
Qed.
Lemma down_step_nodup l ie : NoDup (keys_down l) -> NoDup (keys_down (down_step l ie)).
Proof.
  intros H. destruct ie as [i|i|ko|ko]; cbn [down_step].
  - destruct (existsb (is_key i) l) eqn:E; [exact H|]. rewrite keys_app. apply nodup_snoc; [exact H|].
    intros X. apply is_key_In in X. congruence.
  - now apply keys_remove.
  - rewrite keys_app. cbn. now rewrite app_nil_r.
  - now rewrite keys_virtual.
Qed.

Lemma outputs_held pis b : Forall2 held pis (bd_down b) -> outputs_of conf pis = Ok (board_output b).
Proof.
  unfold board_output. generalize (bd_down b) as l. clear b. induction 1 as [|pi x pis l H _ IH]; [reflexivity|].
  destruct pi as [j r ks|ko], x as [[j' m]|ko']; cbn in H; try contradiction; cbn [outputs_of filter_map].
  - destruct H as (-> & H). cbn [kc_sys cconf composite sys_key_output]. destruct m as [ko|lm|cb|].
    + destruct H as (H & ->). rewrite (plain_output _ _ _ H). cbn [bind]. rewrite IH. reflexivity.
    + destruct H as (q & -> & _ & _ & ->). cbn [c_key_output bind]. rewrite IH. reflexivity.
    + destruct H as (q & -> & ->). cbn [c_key_output bind]. rewrite IH. reflexivity.
    + destruct H as (q & -> & ->). cbn [c_key_output bind]. rewrite IH. reflexivity.
  - subst. rewrite IH. reflexivity.
Qed.

(** Events other than the release of a held layer key leave the pressed keys alone. *)
Lemma update_held c ev s pis l : Forall2 held pis l ->
  (forall i, ev = EvInput (Release i) -> existsb (this_key i) l = false) ->
  update_pressed_list conf c ev pis s = Ok (pis, s).
Proof.
  intros H. revert s. induction H as [|pi x pis l H _ IH]; intros s Hev; [reflexivity|].
  assert (IH' : forall s, update_pressed_list conf c ev pis s = Ok (pis, s)).
  { intros s'. apply IH. intros i Hi. specialize (Hev i Hi). cbn in Hev. now apply orb_false_iff in Hev. }
  destruct pi as [j r ks|ko], x as [[j' m]|ko']; cbn in H; try contradiction; cbn [update_pressed_list].
  - destruct H as (-> & H). cbn [kc_sys cconf composite sys_update_state].
    assert (E : c_update_state d ks r c j' ev = Ok (ks, [])).
    { destruct m as [ko|lm|cb|].
      - destruct H as (H & ->). now apply plain_update with ko.
      - destruct H as (q & -> & Hm & Hok & ->). cbn [c_update_state]. destruct (try_event as_layered ev) as [e|] eqn:Ee; [|reflexivity].
        cbn [ly_update_state]. unfold index. rewrite Hm. cbn [bind]. destruct ev as [ie|i e'|ke]; cbn [try_event] in Ee.
        + injection Ee as <-. destruct ie as [i|i|ko|ko]; try (destruct lm; cbn in *; [reflexivity|reflexivity|contradiction|reflexivity|reflexivity]).
          specialize (Hev i eq_refl). cbn in Hev. apply orb_false_iff in Hev as (Hev & _). rewrite N.eqb_sym in Hev.
          destruct lm; cbn in *; try contradiction; rewrite ?Hev; reflexivity.
        + destruct e'; cbn in Ee; try discriminate. injection Ee as <-. destruct lm; cbn in *; try reflexivity.
        + injection Ee as <-. destruct lm; reflexivity.
      - destruct H as (q & -> & ->). reflexivity.
      - destruct H as (q & -> & ->). reflexivity. }
    rewrite E. cbn [bind sched_all fold_res]. rewrite IH'. reflexivity.
  - rewrite IH'. reflexivity.
Qed.
Definition to_event (i : u16) (e : option layer_event) : list (option (event cev)) :=
  match e with Some e => [Some (EvKey i (CeLayered e))] | None => [] end.
Lemma update_release c i m s pis l : Forall2 held pis l -> NoDup (keys_down (map forget l)) -> In (inl (i, m)) l ->
  sc_pending s = [] ->
  update_pressed_list conf c (EvInput (Release i)) pis s
  = Ok (pis, mkSched (to_event i (at_release m)) (sc_scheduled s) (sc_counter s)).
Proof.
  intros H. revert s. induction H as [|pi x pis l H Hl IH]; intros s Hnd Hin Hs; [destruct Hin|].
  destruct pi as [j r ks|ko], x as [[j' m']|ko']; cbn in H; try contradiction; cbn [update_pressed_list].
  - destruct H as (-> & H). cbn [map forget] in Hnd. rewrite keys_key in Hnd. inversion Hnd as [|? ? Hni Hnd']; subst.
    cbn [kc_sys cconf composite sys_update_state]. destruct (N.eq_dec j' i) as [->|Hne].
    + assert (m' = m) as ->.
      { destruct Hin as [E|Hin]; [congruence|]. exfalso. apply Hni. apply is_key_In. rewrite this_forget.
        apply existsb_exists. exists (inl (i, m)). split; [exact Hin|]. cbn. apply N.eqb_refl. }
      assert (Hrest : forall s, update_pressed_list conf c (EvInput (Release i)) pis s = Ok (pis, s)).
      { intros s'. eapply update_held; [exact Hl|]. intros i' E. injection E as <-. rewrite <- this_forget.
        destruct (existsb (is_key i) (map forget l)) eqn:Ei; [|reflexivity]. apply is_key_In in Ei. contradiction. }
      destruct m as [ko|lm|cb|].
      * destruct H as (H & ->). rewrite (plain_update d _ _ (ks_plain r) c i (EvInput (Release i)) H). cbn [bind sched_all fold_res]. rewrite Hrest. cbn.
        destruct s as [a b t]; cbn in *. now subst a.
      * destruct H as (q & -> & Hm & Hok & ->). cbn [c_update_state try_event ly_update_state]. unfold index. rewrite Hm. cbn [bind at_release].
        destruct s as [a bb t]; cbn in Hs; subst a.
        destruct lm; cbn in *; try contradiction; rewrite ?N.eqb_refl; cbn; rewrite Hrest; reflexivity.
      * destruct H as (q & -> & ->). cbn [c_update_state bind sched_all fold_res]. rewrite Hrest. cbn.
        destruct s as [a b t]; cbn in *. now subst a.
      * destruct H as (q & -> & ->). cbn [c_update_state bind sched_all fold_res]. rewrite Hrest. cbn.
        destruct s as [a b t]; cbn in *. now subst a.
    + assert (E : c_update_state d ks r c j' (EvInput (Release i)) = Ok (ks, [])).
      { assert (Hji : (j' =? i) = false) by (now apply N.eqb_neq).
        destruct m' as [ko|lm|cb|].
        - destruct H as (H & ->). now apply plain_update with ko.
        - destruct H as (q & -> & Hm & Hok & ->). cbn [c_update_state try_event ly_update_state]. unfold index. rewrite Hm. cbn [bind].
          destruct lm; cbn in *; try contradiction; rewrite ?Hji; reflexivity.
        - destruct H as (q & -> & ->). reflexivity.
        - destruct H as (q & -> & ->). reflexivity. }
      rewrite E. cbn [bind sched_all fold_res]. destruct Hin as [X|Hin]; [congruence|]. rewrite (IH s Hnd' Hin Hs). reflexivity.
  - destruct Hin as [X|Hin]; [discriminate|]. rewrite (IH s) by assumption. reflexivity.
Qed.

(** What does not concern the board. *)
Definition frame (k k' : ckeymap) : Prop :=
  km_inq k' = km_inq k /\ km_delay k' = km_delay k /\ km_idle k' = km_idle k /\ km_ms_per_tick k' = km_ms_per_tick k
  /\ sc_counter (km_sched k') = sc_counter (km_sched k) /\ cx_chorded (km_ctx k') = cx_chorded (km_ctx k)
  /\ km_callbacks k' = km_callbacks k.
Lemma frame_refl k : frame k k. Proof. unfold frame. auto 10. Qed.
Lemma frame_trans k1 k2 k3 : frame k1 k2 -> frame k2 k3 -> frame k1 k3.
Proof. unfold frame. intros (A & B & C & D & E & F & G) (A' & B' & C' & D' & E' & F' & G'). repeat split; congruence. Qed.

(** The functions called for an event. *)
Definition called (k : ckeymap) (ev : event cev) : list callback_fn :=
  match ev with EvKeymap (KmCallback cb) => filter_map (lm_get (km_callbacks k)) [cb] | _ => [] end.

(** The events a key of this keymap causes, with the layer events in them. *)
Definition board_event (ev : event cev) (e : option layer_event) : Prop :=
  match ev, e with
  | EvKey _ (CeLayered e'), Some e => e' = e /\ layer_event_in n e
  | EvKeymap _, None => True
  | _, _ => False
  end.
Lemma update_pressed_board b k ev : Forall2 held (km_pressed k) (bd_down b) ->
  (forall i, ev = EvInput (Release i) -> existsb (this_key i) (bd_down b) = false) -> update_pressed conf k ev = Ok k.
Proof.
  intros H Hev. unfold update_pressed. rewrite (update_held _ _ _ _ _ H Hev). cbn [bind]. destruct k; reflexivity.
Qed.
Lemma event_board sch f b (k : ckeymap) ev e : bstate sch b k -> board_event ev e ->
  exists k', exec conf (S (S f)) (JHandleEvent ev) k = Ok k' /\ bstate sch (switch n e b) k' /\ frame k k' /\ km_sched k' = km_sched k
    /\ km_calls k' = km_calls k ++ called k ev.
Proof.
  intros H He. pose proof H as (Hc & Hly & Hh & Hnd & Hs & Hp). cbn [exec step]. unfold step_handle_event.
  assert (Hk0 : exists k0, run_callback k ev = k0 /\ bstate sch b k0 /\ frame k k0 /\ km_sched k0 = km_sched k /\ km_calls k0 = km_calls k ++ called k ev).
  { eexists. split; [reflexivity|]. destruct ev as [ie|i ce|[cb|i ko]]; cbn [run_callback called]; try (split; [exact H|split; [apply frame_refl|split; [reflexivity|now rewrite app_nil_r]]]).
    cbn [filter_map]. destruct (lm_get (km_callbacks k) cb); (split; [exact H|split; [unfold frame; cbn; auto 10|split; [reflexivity|try reflexivity; now rewrite app_nil_r]]]). }
  destruct Hk0 as (k0 & -> & H0 & F0 & S0 & C0). clear H Hc Hly Hh Hnd Hs Hp. pose proof H0 as (Hc & Hly & Hh & Hnd & Hs & Hp).
  cbn [exec step]. unfold step_update_pending. rewrite Hp. cbn [bind]. rewrite (update_pressed_board b) by (try exact Hh; intros i ->; destruct e; contradiction).
  cbn [bind]. unfold update_context. cbn [kc_sys cconf composite sys_ctx_handle_event].
  destruct ev as [ie|i ce|ke]; cbn [board_event] in He; [contradiction| |].
  - destruct ce; try contradiction. destruct e as [e'|]; [|contradiction]. destruct He as (-> & He).
    destruct (layer_event_ctx n _ b i e' Hc Hly He) as (l & El & Hc' & Hly'). rewrite El. cbn [bind schedule_all sched_all fold_res].
    eexists. split; [reflexivity|]. split; [|split; [|split; [exact S0|exact C0]]].
    + split; [exact Hc'|]. split; [exact Hly'|]. cbn. auto.
    + eapply frame_trans; [exact F0|]. unfold frame. cbn. auto 10.
  - destruct e; [contradiction|]. assert (E : cctx_handle_event (km_ctx k0) (EvKeymap ke) = Ok (km_ctx k0, [])) by (destruct ke; [now apply callback_ctx|now apply calm_resolved]).
    rewrite E. cbn [bind schedule_all sched_all fold_res]. exists k0. split; [destruct k0; reflexivity|]. split; [exact H0|]. split; [exact F0|split; [exact S0|exact C0]].
Qed.
Lemma drain0 f (k : ckeymap) : sc_pending (km_sched k) = [] -> exec conf (S f) JHandlePending k = Ok k.
Proof. intros H. cbn. unfold step_handle_pending, sched_dequeue. rewrite H. now rewrite set_sched_id. Qed.
Lemma drain_board sch f b (k : ckeymap) evs e : bstate sch b k -> sc_pending (km_sched k) = evs ->
  (evs = [] /\ e = None \/ exists ev, evs = [Some ev] /\ board_event ev e) ->
  exists k', exec conf (S (S (S f))) JHandlePending k = Ok k' /\ bstate sch (switch n e b) k' /\ frame k k' /\ sc_pending (km_sched k') = []
    /\ km_calls k' = km_calls k ++ flat_map (fun o => match o with Some ev => called k ev | None => [] end) evs.
Proof.
  intros H Hs [(-> & ->)|(ev & -> & He)].
  - exists k. rewrite drain0 by exact Hs. split; [reflexivity|]. split; [exact H|]. split; [apply frame_refl|]. split; [exact Hs|now rewrite app_nil_r].
  - change (exec conf (S (S (S f))) JHandlePending k) with (step_handle_pending (exec conf (S (S f))) k).
    unfold step_handle_pending, sched_dequeue. rewrite Hs.
    set (k1 := set_sched k _). assert (H1 : bstate sch b k1).
    { destruct H as (A & B & C & D & E & G). split; [exact A|]. split; [exact B|]. split; [exact C|]. split; [exact D|]. split; [exact E|exact G]. }
    destruct (event_board sch f b k1 ev e H1 He) as (k2 & E2 & B2 & F2 & S2 & C2). rewrite E2. cbn [bind].
    assert (P2 : sc_pending (km_sched k2) = []) by (rewrite S2; reflexivity).
    rewrite drain0 by exact P2. exists k2. split; [reflexivity|]. split; [exact B2|]. split; [|split; [exact P2|rewrite C2; cbn [flat_map]; now rewrite app_nil_r]].
    eapply frame_trans; [|exact F2]. unfold frame. cbn. auto 10.
Qed.
Lemma modifier_events lm : modifier_ok n lm -> layer_event_in n (press_effect lm) /\ forall e, release_effect lm true = Some e -> layer_event_in n e.
Proof. destruct lm; cbn; intros H; try contradiction; (split; [exact H|]); intros e X; try discriminate; injection X as <-; exact H. Qed.

(** The event at the press of a key. *)
Definition press_events (i : u16) (m : meaning) : list (option (event cev)) :=
  match m with
  | Sends _ => []
  | Switches lm => [Some (EvKey i (CeLayered (press_effect lm)))]
  | Calls cb => [Some (EvKeymap (KmCallback cb))]
  | Nothing => []
  end.
Lemma acts_as_entry {R} (k : layered_key R) on def r : acts_as k on def r -> r = lk_base k \/ In (Some r) (lk_layered k).
Proof. intros [l r' _ (_ & H) _|l r' _ _ (_ & H)|_ _]; [right|right|now left]; eapply nth_error_In; exact H. Qed.
Lemma acts_as_ext {R} (k : layered_key R) on on' def r : (forall l, on l <-> on' l) -> acts_as k on def r -> acts_as k on' def r.
Proof.
  intros He [l r' A B C|l r' A B C|A B].
  - apply (on_layer k on' def l r'); [apply He; exact A|exact B|]. intros l' r'' Hl' Hd'. eapply C; [apply He; exact Hl'|exact Hd'].
  - eapply on_default; [|exact B|exact C]. intros l' r'' Hl'. apply A. apply He. exact Hl'.
  - apply on_base; [|exact B]. intros l' r'' Hl'. apply A. apply He. exact Hl'.
Qed.
Lemma press_board h r : board_key n d h r -> forall sch f i b (k : ckeymap), bstate sch b k -> sc_pending (km_sched k) = [] ->
  existsb (this_key i) (bd_down b) = false ->
  if (length (bd_down b) <? 16)%nat
  then exists m k', means d (bd_on b) (bd_default b) r m /\ exec conf (S (S (S (h + f)))) (JPressLoop i r) k = Ok k'
    /\ bstate sch (set_down b (bd_down b ++ [inl (i, m)])) k' /\ frame k k' /\ sc_pending (km_sched k') = press_events i m /\ km_calls k' = km_calls k
    /\ (forall lm, m = Switches lm -> modifier_ok n lm)
  else exec conf (S (S (S (h + f)))) (JPressLoop i r) k = Panic.
Proof.
  induction 1 as [h r ko Hk|h q lm Hm Hok|h q cb Hcb|h q lk Hk Hlen _ IHb _ IHl]; intros sch f i b k H Hs Hi;
    pose proof H as (Hc & Hly & Hh & Hnd & Hsc & Hp); pose proof (held_length _ _ Hh) as Hl;
    match goal with |- context [exec conf (S ?f0) (JPressLoop i ?r0) k] => change (exec conf (S f0) (JPressLoop i r0) k) with (step_press_loop conf (exec conf f0) i r0 k) end;
    unfold step_press_loop; cbn [kc_sys cconf composite sys_new_pressed_key].
  - assert (Hnd' : NoDup (keys_down (shape (set_down b (bd_down b ++ [inl (i, Sends ko)]))))).
    { unfold shape. cbn [set_down bd_down]. rewrite map_app, keys_app. cbn. apply nodup_snoc; [exact Hnd|]. intros X. apply is_key_In in X. unfold shape in X. rewrite this_forget in X. congruence. }
    rewrite (plain_new d _ _ i (km_ctx k) Hk). cbn [bind schedule_all sched_all fold_res]. rewrite set_sched_id. unfold push_cap. rewrite Hl. change MAX_PRESSED_KEYS with 16%nat.
    destruct (length (bd_down b) <? 16)%nat; [|reflexivity]. cbn [bind]. unfold emit_resolved. cbn [kc_sys cconf composite sys_key_output].
    rewrite (plain_output _ _ _ Hk). cbn [bind].
    set (k1 := set_pressed k _). assert (H1 : bstate sch (set_down b (bd_down b ++ [inl (i, Sends ko)])) k1).
    { split; [exact Hc|]. split; [exact Hly|]. split; [|split; [exact Hnd'|split; [exact Hsc|exact Hp]]]. cbn. apply Forall2_app; [exact Hh|]. constructor; [|constructor]. cbn. auto. }
    destruct (event_board sch (h + f) _ k1 (EvKeymap (KmResolvedKeyOutput i ko)) None H1 I) as (k2 & E2 & B2 & F2 & S2 & C2).
    exists (Sends ko), k2. split; [now constructor|]. split; [exact E2|]. split; [exact B2|]. split; [eapply frame_trans; [|exact F2]; unfold frame; cbn; auto 10|].
    split; [rewrite S2; exact Hs|]. split; [rewrite C2; cbn; now rewrite app_nil_r|]. discriminate.
  - cbn [c_new_pressed_key ly_new_pressed_key]. unfold index. rewrite Hm. cbn [bind].
    assert (E : lm_new_pressed_key lm = (BhRegular, press_effect lm)) by (destruct lm; cbn in *; try contradiction; reflexivity). rewrite E. cbn [bind].
    unfold schedule_all, sched_all. cbn [ke_map map map_sched immediate se_schedule se_event map_event fold_res sched_event_in]. unfold sched_enqueue, push_cap. rewrite Hs.
    change (length (@nil (option (event cev))) <? PENDING_CAPACITY)%nat with true. cbn [bind app map_pkr]. cbn [km_pressed set_sched]. rewrite Hl. change MAX_PRESSED_KEYS with 16%nat.
    destruct (length (bd_down b) <? 16)%nat; [|reflexivity]. cbn [bind]. unfold emit_resolved. cbn [kc_sys cconf composite sys_key_output c_key_output bind].
    eexists (Switches lm), _. split; [now constructor|]. split; [reflexivity|]. split; [|split; [|split; [reflexivity|split; [reflexivity|intros lm' X; injection X as <-; exact Hok]]]].
    + split; [exact Hc|]. split; [exact Hly|]. split; [|split; [|split; [exact Hsc|exact Hp]]].
      * cbn. apply Forall2_app; [exact Hh|]. constructor; [|constructor]. cbn. split; [reflexivity|]. exists q. auto.
      * unfold shape. cbn [set_down bd_down]. rewrite map_app, keys_app. cbn. apply nodup_snoc; [exact Hnd|]. intros X. apply is_key_In in X. unfold shape in X. rewrite this_forget in X. congruence.
    + unfold frame. cbn. auto 10.
  - cbn [c_new_pressed_key]. unfold callback_new_pressed_key, index. rewrite Hcb. cbn [bind].
    unfold schedule_all, sched_all. cbn [immediate se_schedule se_event fold_res sched_event_in]. unfold sched_enqueue, push_cap. rewrite Hs.
    change (length (@nil (option (event cev))) <? PENDING_CAPACITY)%nat with true. cbn [bind app]. cbn [km_pressed set_sched]. rewrite Hl. change MAX_PRESSED_KEYS with 16%nat.
    destruct (length (bd_down b) <? 16)%nat; [|reflexivity]. cbn [bind].
    eexists (Calls cb), _. split; [now constructor|]. split; [reflexivity|]. split; [|split; [|split; [reflexivity|split; [reflexivity|discriminate]]]].
    + split; [exact Hc|]. split; [exact Hly|]. split; [|split; [|split; [exact Hsc|exact Hp]]].
      * cbn. apply Forall2_app; [exact Hh|]. constructor; [|constructor]. cbn. split; [reflexivity|]. exists q. auto.
      * unfold shape. cbn [set_down bd_down]. rewrite map_app, keys_app. cbn. apply nodup_snoc; [exact Hnd|]. intros X. apply is_key_In in X. unfold shape in X. rewrite this_forget in X. congruence.
    + unfold frame. cbn. auto 10.
  - cbn [c_new_pressed_key ly_new_pressed_key]. unfold index. rewrite Hk. cbn [bind].
    destruct Hly as (Ln & Lo & Ld & Lr). destruct (layered_total lk (cx_layered (km_ctx k))) as (r' & Er); [congruence| |].
    { rewrite Ld, Ln. exact Lr. }
    rewrite Er. cbn [bind map_pkr ke_map map]. unfold schedule_all, sched_all. cbn [fold_res bind]. rewrite set_sched_id.
    assert (Ha : acts_as lk (fun l => bd_on b l = true) (bd_default b) r').
    { apply layered_lookup in Er. rewrite <- Ld. eapply acts_as_ext; [|exact Er]. intros l. rewrite layer_on_is_on, Lo. reflexivity. }
    assert (IH : if (length (bd_down b) <? 16)%nat
      then exists m k', means d (bd_on b) (bd_default b) r' m /\ exec conf (S (S (S (h + f)))) (JPressLoop i r') k = Ok k'
        /\ bstate sch (set_down b (bd_down b ++ [inl (i, m)])) k' /\ frame k k' /\ sc_pending (km_sched k') = press_events i m /\ km_calls k' = km_calls k
        /\ (forall lm, m = Switches lm -> modifier_ok n lm)
      else exec conf (S (S (S (h + f)))) (JPressLoop i r') k = Panic).
    { destruct (acts_as_entry _ _ _ _ Ha) as [->|Hin]; [now apply IHb|now apply (IHl r' Hin)]. }
    change (S h + f)%nat with (S (h + f)).
    destruct (length (bd_down b) <? 16)%nat; [|exact IH]. destruct IH as (m & k' & M & E & X). exists m, k'. split; [|split; [exact E|exact X]].
    eapply means_layered; eassumption.
Qed.

(** Processing one input. *)
Definition board_input_ok (b : board) (ie : input_event) : bool :=
  match ie with
  | Press i => existsb (this_key i) (bd_down b) || ((N.to_nat i <? length refs)%nat && (length (bd_down b) <? 16)%nat)
  | VirtualKeyPress _ => (length (bd_down b) <? 16)%nat
  | _ => true
  end.
Definition framed (k k' : ckeymap) (h : chorded_ctx) : Prop :=
  km_inq k' = km_inq k /\ km_delay k' = km_delay k /\ km_idle k' = km_idle k /\ km_ms_per_tick k' = km_ms_per_tick k
  /\ sc_counter (km_sched k') = sc_counter (km_sched k) /\ cx_chorded (km_ctx k') = h /\ km_callbacks k' = km_callbacks k.
Lemma process_board sch f b (k : ckeymap) ie : bstate sch b k -> sc_pending (km_sched k) = [] ->
  (forall i r, ie = Press i -> nth_error refs (N.to_nat i) = Some r -> board_key n d height r) ->
  match step_chorded (cx_chorded (km_ctx k)) (EvInput ie) with
  | Ok h => if board_input_ok b ie
            then exists b' cs k', board_step n refs d b ie b' /\ step_calls refs d b ie cs /\ exec conf (S (S (S (S (height + f))))) (JProcessInput ie) k = Ok k'
              /\ bstate sch b' k' /\ framed k k' h /\ sc_pending (km_sched k') = []
              /\ km_calls k' = km_calls k ++ filter_map (lm_get (km_callbacks k)) cs
            else exec conf (S (S (S (S (height + f))))) (JProcessInput ie) k = Panic
  | _ => is_ok (exec conf (S (S (S (S (height + f))))) (JProcessInput ie) k) = false
  end.
Proof.
  intros H Hs Hrefs'. pose proof H as (Hc & Hly & Hh & Hnd & Hsc & Hp).
  change (exec conf (S (S (S (S (height + f))))) (JProcessInput ie) k) with (step_process_input conf (exec conf (S (S (S (height + f))))) ie k).
  unfold step_process_input. rewrite Hp.
  (* the pressed keys *)
  assert (U : exists s e, update_pressed conf k (EvInput ie) = Ok (set_sched k s) /\ sc_scheduled s = sch /\ sc_counter s = sc_counter (km_sched k)
    /\ match ie with
       | Release i => (exists m, In (inl (i, m)) (bd_down b) /\ e = at_release m /\ sc_pending s = to_event i e /\ forall le, e = Some le -> layer_event_in n le)
           \/ existsb (this_key i) (bd_down b) = false /\ e = None /\ sc_pending s = []
       | _ => e = None /\ sc_pending s = []
       end).
  { assert (Hrest : (forall i, ie = Release i -> existsb (this_key i) (bd_down b) = false) -> update_pressed conf k (EvInput ie) = Ok (set_sched k (km_sched k))).
    { intros X. rewrite set_sched_id. apply (update_pressed_board b); [exact Hh|]. intros i E. injection E as ->. now apply X. }
    destruct ie as [i|i|ko|ko]; try (exists (km_sched k), None; split; [apply Hrest; discriminate|auto]).
    destruct (existsb (this_key i) (bd_down b)) eqn:Ei.
    - apply existsb_exists in Ei as ([[j m]|ko] & Hin & E); cbn in E; [|discriminate]. apply N.eqb_eq in E. subst j.
      exists (mkSched (to_event i (at_release m)) sch (sc_counter (km_sched k))), (at_release m). split.
      + unfold update_pressed. rewrite (update_release (km_ctx k) i m _ _ _ Hh Hnd Hin Hs). cbn [bind]. rewrite Hsc. destruct k; reflexivity.
      + split; [reflexivity|]. split; [reflexivity|]. left. exists m. split; [exact Hin|]. split; [reflexivity|]. split; [reflexivity|].
        intros le Ele. destruct m as [ko|lm|cb|]; try discriminate. eapply (modifier_events lm); [|exact Ele].
        clear -Hh Hin. induction Hh as [|pi x pis l Hx _ IH]; [destruct Hin|]. destruct Hin as [->|Hin]; [|auto].
        destruct pi; cbn in Hx; [|contradiction]. destruct Hx as (_ & q & _ & _ & X & _). exact X.
    - exists (km_sched k), None. split; [apply Hrest; intros i' X; injection X as <-; exact Ei|]. split; [exact Hsc|]. split; [reflexivity|]. right. auto. }
  destruct U as (s & e & -> & S1 & S2 & Se). cbn [bind].
  (* the context *)
  unfold update_context. cbn [kc_sys cconf composite sys_ctx_handle_event km_ctx set_sched]. rewrite calm_input by exact Hc.
  destruct (step_chorded (cx_chorded (km_ctx k)) (EvInput ie)) as [h| |] eqn:Eh; cbn [bind]; try reflexivity.
  unfold schedule_all, sched_all. cbn [fold_res bind].
  set (k2 := set_sched (set_ctx (set_sched k s) (with_chorded (km_ctx k) h)) _).
  assert (H2 : bstate sch b k2).
  { split; [eapply chorded_calm; [exact Hc|exact Eh]|]. split; [exact Hly|]. split; [exact Hh|]. split; [exact Hnd|]. split; [exact S1|exact Hp]. }
  assert (F2 : framed k k2 h) by (unfold framed; cbn; auto 10).
  assert (P2 : sc_pending (km_sched k2) = sc_pending s) by reflexivity.
  assert (Fin : forall k', frame k2 k' -> framed k k' h).
  { intros k' (A & B & C & D & E & G & J). destruct F2 as (A' & B' & C' & D' & E' & G' & J'). unfold framed. repeat split; congruence. }
  destruct ie as [i|i|ko|ko]; cbn [step_input_dispatch board_input_ok].
  - destruct Se as (-> & Hps). unfold has_pressed. rewrite (has_held _ _ _ Hh). destruct (existsb (this_key i) (bd_down b)) eqn:Ei; cbn [orb].
    + cbn [bind]. rewrite drain0 by (rewrite P2; exact Hps). exists b, [], k2. split; [now apply press_again|]. split; [now apply sc_again|]. split; [reflexivity|]. split; [exact H2|]. split; [exact F2|split; [now rewrite P2|cbn; now rewrite app_nil_r]].
    + unfold index. cbn [kc_refs cconf]. destruct (Nat.ltb_spec (N.to_nat i) (length refs)) as [El|El]; cbn [andb].
      * destruct (nth_error refs (N.to_nat i)) as [r|] eqn:Er; [|apply nth_error_None in Er; lia]. cbn [bind].
        assert (Hbk : board_key n d height r) by (eapply Hrefs'; [reflexivity|exact Er]).
        pose proof (press_board height r Hbk sch f i b k2 H2 ltac:(rewrite P2; exact Hps) Ei) as X.
        destruct (length (bd_down b) <? 16)%nat; [|now rewrite X]. destruct X as (m & k3 & M & E3 & B3 & F3 & P3 & C3 & Hok). rewrite E3. cbn [bind].
        destruct (drain_board sch (height + f) _ k3 _ (at_press m) B3 P3) as (k4 & E4 & B4 & F4 & P4 & C4).
        { destruct m as [ko|lm|cb|]; try (left; split; reflexivity); right; eexists; (split; [reflexivity|]); cbn.
          - split; [reflexivity|]. destruct (modifier_events lm (Hok lm eq_refl)) as [X _]. exact X.
          - exact I. }
        assert (Fk : framed k k4 h) by (apply Fin; eapply frame_trans; eassumption).
        assert (L3 : km_callbacks k3 = km_callbacks k) by (destruct F3 as (_ & _ & _ & _ & _ & _ & G); rewrite G; reflexivity).
        exists (switch n (at_press m) (set_down b (bd_down b ++ [inl (i, m)]))), (match m with Calls cb => [cb] | _ => [] end), k4.
        split; [eapply press_key; eassumption|]. split.
        { destruct m as [ko|lm|cb|]; try (eapply sc_key; try eassumption; discriminate); eapply sc_call; eassumption. }
        split; [exact E4|]. split; [exact B4|]. split; [exact Fk|split; [exact P4|]]. rewrite C4, C3. f_equal.
        destruct m as [ko|lm|cb|]; try reflexivity. cbn [press_events flat_map called]. now rewrite L3, app_nil_r.
      * apply nth_error_None in El. rewrite El. reflexivity.
  - cbn [bind]. set (k3 := set_pressed k2 _). set (b3 := set_down b (remove_first (this_key i) (bd_down b))).
    assert (B3 : bstate sch b3 k3).
    { destruct H2 as (A & B & C & D & E & G). split; [exact A|]. split; [exact B|]. split; [now apply remove_held|].
      split; [|split; [exact E|exact G]]. unfold shape. cbn. rewrite shape_remove. now apply keys_remove. }
    assert (F3 : frame k2 k3) by (unfold frame; cbn; auto 10).
    destruct (drain_board sch (height + f) b3 k3 (sc_pending s) e B3 P2) as (k4 & E4 & B4 & F4 & P4 & C4).
    { destruct Se as [(m & Hin & -> & Ep & Hle)|(Ei & -> & Ep)]; rewrite Ep; [|left; split; reflexivity].
      destruct (at_release m) as [le|]; [|left; split; reflexivity]. right. eexists. split; [reflexivity|]. cbn. auto. }
    exists (switch n e b3), [], k4. split; [|split; [now apply sc_none|split; [exact E4|split; [exact B4|split; [apply Fin; exact (frame_trans _ _ _ F3 F4)|split; [exact P4|]]]]]];
      [|rewrite C4; destruct Se as [(m & _ & _ & Ep & _)|(_ & _ & Ep)]; rewrite Ep; [destruct e|]; reflexivity].
    destruct Se as [(m & Hin & -> & _)|(Ei & -> & _)]; [now apply release_key|].
    replace (switch n None b3) with b; [now apply release_again|]. cbn. unfold b3. destruct b as [dn on df]. cbn in *. unfold set_down. cbn. f_equal.
    clear -Ei. induction dn as [|x l IH]; cbn in *; [reflexivity|]. apply orb_false_iff in Ei as (-> & Ei). now rewrite <- IH.
  - destruct Se as (-> & Hps). unfold push_cap. change (km_pressed k2) with (km_pressed k). rewrite (held_length _ _ Hh). change MAX_PRESSED_KEYS with 16%nat.
    destruct (length (bd_down b) <? 16)%nat; [|reflexivity]. cbn [bind]. rewrite drain0 by exact Hps.
    eexists _, [], _. split; [apply press_virtual|]. split; [now apply sc_none|]. split; [reflexivity|]. split; [|split; [unfold framed; cbn; auto 10|split; [exact Hps|cbn; now rewrite app_nil_r]]].
    destruct H2 as (A & B & C & D & E & G). split; [exact A|]. split; [exact B|]. split; [cbn; apply Forall2_app; [exact Hh|constructor; [reflexivity|constructor]]|].
    split; [|split; [exact E|exact G]]. unfold shape. cbn. rewrite map_app, keys_app. cbn. now rewrite app_nil_r.
  - destruct Se as (-> & Hps). cbn [bind]. rewrite drain0 by exact Hps.
    eexists _, [], _. split; [apply release_virtual|]. split; [now apply sc_none|]. split; [reflexivity|]. split; [|split; [unfold framed; cbn; auto 10|split; [exact Hps|cbn; now rewrite app_nil_r]]].
    destruct H2 as (A & B & C & D & E & G). split; [exact A|]. split; [exact B|]. split; [cbn; now apply remove_held_virtual|].
    split; [|split; [exact E|exact G]]. unfold shape. cbn. rewrite shape_remove_virtual, keys_virtual. exact D.
Qed.

(** ** Histories *)
Hypothesis Hrefs : Forall (board_key n d height) refs.
Lemma refs_at ie : forall i r, ie = Press i -> nth_error refs (N.to_nat i) = Some r -> board_key n d height r.
Proof. intros i r _ Er. eapply Forall_forall; [exact Hrefs|eapply nth_error_In; exact Er]. Qed.
Lemma run_shape h b : board_run n refs d h b -> shape b = down_after h.
Proof. induction 1 as [|h b ie b' _ IH H]; [reflexivity|]. rewrite (step_shape _ _ _ H), IH, down_snoc. reflexivity. Qed.
Variable L : list (callback * callback_fn).
Definition bsim (q : queue) (k : ckeymap) : Prop :=
  (exists b, board_run n refs d (q_done q) b /\ bstate [] b k) /\ sc_pending (km_sched k) = []
  /\ km_inq k = q_waiting q /\ km_delay k = (if q_busy q then 1 else 0)
  /\ km_callbacks k = L /\ exists cs, board_calls n refs d (q_done q) cs /\ km_calls k = filter_map (lm_get L) cs.
Local Notation fuel4 f := (S (S (S (S (height + f))))).

Lemma take_board f q (k : ckeymap) x w k' : bsim q k -> q_waiting q = x :: w ->
  exec conf (fuel4 f) (JProcessInput x) (set_inq k w) = Ok k' ->
  bsim (queue_take q) (set_delay k' INPUT_QUEUE_TICK_DELAY) /\ km_idle k' = km_idle k /\ km_ms_per_tick k' = km_ms_per_tick k
  /\ sc_counter (km_sched k') = sc_counter (km_sched k) /\ step_chorded (cx_chorded (km_ctx k)) (EvInput x) = Ok (cx_chorded (km_ctx k')).
Proof.
  intros ((b & Hr & Hb) & Hs & Hq & Hd & HL & cs & Hcs & Hcl) Hw H.
  pose proof (process_board [] f b (set_inq k w) x Hb Hs (refs_at x)) as X. change (km_ctx (set_inq k w)) with (km_ctx k) in X.
  destruct (step_chorded (cx_chorded (km_ctx k)) (EvInput x)) as [h| |] eqn:Eh; [|rewrite H in X; discriminate..].
  destruct (board_input_ok b x); [|congruence]. destruct X as (b' & cs' & k1 & Hst & Hcs' & E & B1 & (A & B & C & D & F & G & J) & P1 & C1).
  rewrite H in E. injection E as <-. split; [|split; [exact C|split; [exact D|split; [exact F|now rewrite G]]]].
  unfold queue_take. rewrite Hw. split; [|split; [exact P1|split; [exact A|split; [reflexivity|split; [cbn in J |- *; congruence|]]]]].
  - exists b'. split; [|exact B1]. cbn [q_done]. eapply run_input; eassumption.
  - exists (cs ++ cs'). cbn [q_done]. split; [eapply bc_input; eassumption|]. change (km_calls (set_delay k' INPUT_QUEUE_TICK_DELAY)) with (km_calls k').
    rewrite C1. change (km_calls (set_inq k w)) with (km_calls k). change (km_callbacks (set_inq k w)) with (km_callbacks k).
    now rewrite Hcl, HL, filter_map_app.
Qed.
Lemma bsim_clock q (k : ckeymap) t i : bsim q k -> bsim q (set_ctx k (sys_ctx_set_keymap_context (composite d) (km_ctx k) t i)).
Proof.
  intros ((b & Hr & ((A & B & C & D) & Hly & Hb)) & Hs). split; [|exact Hs]. exists b. split; [exact Hr|].
  split; [|split; [exact Hly|exact Hb]]. repeat split; assumption.
Qed.
Lemma op_board f q (k : ckeymap) o k' : bsim q k -> plain_op o = true -> run_op conf (fuel4 f) k o = Ok k' -> bsim (queue_step q o) k'.
Proof.
  intros Hs Ho H. pose proof Hs as (Hp & Hpe & Hq & Hb & HL). destruct o as [ev| |dd ev| | | |ms|c g]; try discriminate Ho; cbn [run_op queue_step] in *.
  - unfold km_handle_input in H. cbn zeta in H. change (km_inq (set_idle k 0)) with (km_inq k) in H. unfold queue_input. rewrite <- Hq.
    change INPUT_QUEUE_CAPACITY with 31%nat in H. destruct (length (km_inq k) <? 31)%nat; [|injection H as <-; exact Hs].
    change (km_delay (set_inq (set_idle k 0) (km_inq k ++ [ev]))) with (km_delay k) in H. rewrite Hb in H.
    set (q1 := mkQueue (q_done q) (km_inq k ++ [ev]) (q_busy q)).
    assert (Hs1 : bsim q1 (set_inq (set_idle k 0) (km_inq k ++ [ev]))) by (split; [exact Hp|split; [exact Hpe|split; [reflexivity|split; [exact Hb|exact HL]]]]).
    destruct (q_busy q) eqn:Eb; cbn [N.eqb] in H.
    + injection H as <-. exact Hs1.
    + change (0 =? 0) with true in H. cbn iota in H. change (km_inq (set_inq (set_idle k 0) (km_inq k ++ [ev]))) with (km_inq k ++ [ev]) in H.
      destruct (km_inq k ++ [ev]) as [|x w] eqn:Ew; [discriminate|]. inv_bind H. injection H as <-.
      eapply take_board; [exact Hs1|reflexivity|exact E].
  - unfold km_tick in H. cbn zeta in H. set (k0 := set_ctx k _) in H.
    assert (Hs0 : bsim q k0) by (apply bsim_clock; exact Hs).
    inv_bind H. assert (H1 : bsim (if q_busy q then q else queue_take q) a).
    { change (km_inq k0) with (km_inq k) in E. rewrite Hq in E. change (km_delay k0) with (km_delay k) in E. rewrite Hb in E.
      destruct (q_waiting q) as [|x w] eqn:Ew.
      - injection E as <-. destruct (q_busy q); [exact Hs0|]. unfold queue_take. rewrite Ew. exact Hs0.
      - destruct (q_busy q) eqn:Eb.
        + change (1 =? 0) with false in E. cbn iota in E. injection E as <-. exact Hs0.
        + change (0 =? 0) with true in E. cbn iota in E. inv_bind E. injection E as <-. eapply take_board; [exact Hs0|exact Ew|exact E0]. }
    unfold queue_tick. set (q1 := if q_busy q then q else queue_take q) in *. destruct H1 as (Hp1 & Hpe1 & Hq1 & Hb1 & HL1).
    set (k2 := if 0 <? km_delay a then set_delay a (km_delay a - 1) else a) in H.
    assert (H2 : bsim (mkQueue (q_done q1) (q_waiting q1) false) k2).
    { unfold k2. rewrite Hb1. destruct (q_busy q1); cbn; (split; [exact Hp1|split; [exact Hpe1|split; [exact Hq1|split; [try exact Hb1; reflexivity|exact HL1]]]]). }
    destruct H2 as ((b & Hr2 & Hb2) & Hpe2 & Hq2 & Hd2 & HL2).
    inv_bind H. assert (Hp2 : bstate [] b (set_sched k2 a0) /\ sc_pending a0 = []).
    { destruct Hb2 as (A & B & C & D & F & G). unfold sched_tick in E0. inv_bind E0. rewrite F in E0. cbn in E0. injection E0 as <-.
      split; [|exact Hpe2]. split; [exact A|]. split; [exact B|]. split; [exact C|]. split; [exact D|]. split; [reflexivity|exact G]. }
    destruct Hp2 as (Hb3 & Hpe3). rewrite drain0 in H by exact Hpe3. cbn [bind] in H. inv_bind H. injection H as <-.
    split; [exists b; split; [exact Hr2|exact Hb3]|]. split; [exact Hpe3|]. split; [exact Hq2|]. split; [exact Hd2|exact HL2].
  - unfold km_report_output in H. inv_bind H. inv_bind E. injection E as <-. injection H as <-. exact Hs.
  - injection H as <-. exact Hs.
Qed.
Lemma ops_board f ops : Forall (fun o => plain_op o = true) ops -> forall q k k', bsim q k ->
  run_ops conf (fuel4 f) ops k = Ok k' -> bsim (fold_left queue_step ops q) k'.
Proof.
  unfold run_ops. induction 1 as [|o ops Ho _ IH]; intros q k k' Hs H; cbn [fold_res] in H; [injection H as <-; exact Hs|].
  inv_bind H. cbn [fold_left]. eapply IH; [|exact H]. eapply op_board; eassumption.
Qed.
Lemma is_on_new m x : is_on (ly_ctx_new m) x = false.
Proof.
  unfold is_on. cbn. destruct (nth_error (repeat Inactive m) _) as [a|] eqn:E; [|now rewrite andb_false_r].
  apply nth_error_In, repeat_spec in E. subst. now rewrite andb_false_r.
Qed.
Local Notation start cf := (set_callbacks (km_new (ctx_from_config cf)) L).
Lemma bsim_new cf : cf_layer_count cf = n -> bsim queue_new (start cf).
Proof.
  intros Hn. split; [|split; [reflexivity|split; [reflexivity|split; [reflexivity|split; [reflexivity|exists []; split; [constructor|reflexivity]]]]]]. exists board_new. split; [constructor|]. split; [apply calm_new|].
  split; [|split; [constructor|split; [constructor|split; reflexivity]]]. unfold layers_of. cbn. rewrite repeat_length. split; [exact Hn|].
  split; [intros x; apply is_on_new|]. split; [reflexivity|discriminate].
Qed.
Lemma run_board fuel ops cf k : cf_layer_count cf = n -> Forall (fun o => plain_op o = true) ops ->
  run_ops conf fuel ops (start cf) = Ok k -> bsim (queue_run ops) k.
Proof.
  intros Hn Ho H. assert (H4 : run_ops conf (fuel4 fuel) ops (start cf) = Ok k).
  { destruct (run_le conf fuel (fuel4 fuel) ops ltac:(lia) (start cf)) as [X|X]; congruence. }
  exact (ops_board _ _ Ho _ _ _ (bsim_new _ Hn) H4).
Qed.

(** ** No panic *)
Lemma process_board_total f b (k : ckeymap) h x : bstate [] b k -> sc_pending (km_sched k) = [] -> board_run n refs d h b ->
  chord_tracks (down_after h) (cx_chorded (km_ctx k)) -> N.of_nat (length refs) <= 65535 ->
  fits (length refs) (chc_max_pressed (chx_config (cx_chorded (km_ctx k)))) (h ++ [x]) ->
  exists k', exec conf (fuel4 f) (JProcessInput x) k = Ok k'
    /\ chord_tracks (down_after (h ++ [x])) (cx_chorded (km_ctx k')) /\ chx_config (cx_chorded (km_ctx k')) = chx_config (cx_chorded (km_ctx k)).
Proof.
  intros Hb Hs Hr Ht Hl (Hin & Hfit). specialize (Hfit (length (h ++ [x]))). cbv zeta in Hfit. rewrite firstn_all, down_snoc in Hfit.
  destruct Hfit as (H16 & Hcap). rewrite down_snoc. pose proof (run_shape _ _ Hr) as Hsh.
  destruct (chord_total refs (km_ctx k) (down_after h) x) as (h' & E & Ht' & Hc); try assumption.
  { intros i ->. apply Hin, in_or_app. right. now left. }
  pose proof (process_board [] f b k x Hb Hs (refs_at x)) as X. rewrite E in X.
  assert (Hok : board_input_ok b x = true).
  { unfold board_input_ok. rewrite <- Hsh in H16. unfold down_step, shape in H16. destruct x as [i|i|ko|ko]; try reflexivity.
    - rewrite this_forget in H16. destruct (existsb (this_key i) (bd_down b)); [reflexivity|]. cbn [orb]. apply andb_true_iff. rewrite !Nat.ltb_lt.
      split; [apply Hin, in_or_app; right; now left|]. rewrite app_length, map_length in H16. cbn in H16. lia.
    - apply Nat.ltb_lt. rewrite app_length, map_length in H16. cbn in H16. lia. }
  rewrite Hok in X. destruct X as (b' & cs' & k' & _ & _ & E' & _ & (_ & _ & _ & _ & _ & G & _) & _). exists k'. rewrite G. auto.
Qed.
Lemma op_board_total f cf q (k : ckeymap) o : N.of_nat (length refs) <= 65535 -> bsim q k ->
  chord_tracks (down_after (q_done q)) (cx_chorded (km_ctx k)) -> chx_config (cx_chorded (km_ctx k)) = cf -> plain_op o = true ->
  fits (length refs) (chc_max_pressed cf) (q_done (queue_step q o)) ->
  let c := clocks_step (mkClocks (sc_counter (km_sched k)) (km_idle k) (km_ms_per_tick k)) o in
  ck_now c <= u32_max -> ck_idle c <= u32_max ->
  exists k', run_op conf (fuel4 f) k o = Ok k' /\ chord_tracks (down_after (q_done (queue_step q o))) (cx_chorded (km_ctx k'))
    /\ chx_config (cx_chorded (km_ctx k')) = cf.
Proof.
  intros Hr Hs Ht Hcf Ho Hfit c Hn Hi. pose proof Hs as ((b & Hrun & Hb) & Hpe & Hq & Hd & HL).
  destruct o as [ev| |dd ev| | | |ms|cb g]; try discriminate Ho; cbn [run_op queue_step] in *.
  - unfold km_handle_input. cbn zeta. change (km_inq (set_idle k 0)) with (km_inq k).
    change INPUT_QUEUE_CAPACITY with 31%nat. unfold queue_input in *. rewrite <- Hq in Hfit |- *.
    destruct (length (km_inq k) <? 31)%nat; [|eexists; split; [reflexivity|]; split; [exact Ht|exact Hcf]].
    change (km_delay (set_inq (set_idle k 0) (km_inq k ++ [ev]))) with (km_delay k). rewrite Hd.
    destruct (q_busy q) eqn:Eb; [eexists; split; [reflexivity|]; split; [exact Ht|exact Hcf]|].
    change (0 =? 0) with true. cbn iota. change (km_inq (set_inq (set_idle k 0) (km_inq k ++ [ev]))) with (km_inq k ++ [ev]).
    unfold queue_take in *. cbn [q_waiting q_done] in *.
    destruct (km_inq k ++ [ev]) as [|x w] eqn:Ew; [destruct (km_inq k); discriminate|]. cbn [q_done] in *.
    set (k1 := set_inq (set_inq (set_idle k 0) (x :: w)) w).
    destruct (process_board_total f b k1 (q_done q) x) as (k' & E & T & C); [exact Hb|exact Hpe|exact Hrun|exact Ht|exact Hr|cbn; now rewrite Hcf|].
    rewrite E. cbn [bind]. eexists. split; [reflexivity|]. split; [exact T|]. cbn in *. now rewrite C.
  - unfold km_tick. cbn zeta. set (k0 := set_ctx k _).
    assert (Hs0 : bsim q k0) by (apply bsim_clock; exact Hs).
    assert (X : exists k1, match km_inq k0 with
       | ie :: q0 => if km_delay k0 =? 0 then let! k1 := exec conf (fuel4 f) (JProcessInput ie) (set_inq k0 q0) in Ok (set_delay k1 INPUT_QUEUE_TICK_DELAY) else Ok k0
       | [] => Ok k0 end = Ok k1
       /\ sc_counter (km_sched k1) = sc_counter (km_sched k) /\ km_idle k1 = km_idle k /\ km_ms_per_tick k1 = km_ms_per_tick k
       /\ bsim (if q_busy q then q else queue_take q) k1
       /\ chord_tracks (down_after (q_done (if q_busy q then q else queue_take q))) (cx_chorded (km_ctx k1))
       /\ chx_config (cx_chorded (km_ctx k1)) = cf).
    { change (km_inq k0) with (km_inq k). rewrite Hq. change (km_delay k0) with (km_delay k). rewrite Hd. unfold queue_tick in Hfit.
      destruct (q_waiting q) as [|x w] eqn:Ew.
      - exists k0. do 4 (split; [reflexivity|]). assert (Eq : (if q_busy q then q else queue_take q) = q) by (unfold queue_take; rewrite Ew; now destruct (q_busy q)).
        rewrite Eq. split; [exact Hs0|split; [exact Ht|exact Hcf]].
      - destruct (q_busy q) eqn:Eb.
        + change (1 =? 0) with false. cbn iota. exists k0. do 4 (split; [reflexivity|]). split; [exact Hs0|split; [exact Ht|exact Hcf]].
        + change (0 =? 0) with true. cbn iota. pose proof (take_board f q k0 x w) as Tp. unfold queue_take in *. rewrite Ew in *. cbn [q_done] in *.
          destruct Hs0 as ((b0 & Hrun0 & Hb0) & Hpe0 & Hq0).
          destruct (process_board_total f b0 (set_inq k0 w) (q_done q) x) as (k' & E & T & C); [exact Hb0|exact Hpe0|exact Hrun0|exact Ht|exact Hr|cbn; now rewrite Hcf|].
          destruct (Tp k') as (T1 & T2 & T3 & T4 & _); [split; [now exists b0|split; assumption]|reflexivity|exact E|].
          rewrite E. cbn [bind]. eexists. split; [reflexivity|]. split; [exact T4|]. split; [exact T2|]. split; [exact T3|]. split; [exact T1|].
          split; [exact T|]. cbn in *. now rewrite C. }
    destruct X as (k1 & E1 & Ec & Ei & Em & ((b1 & Hrun1 & Hb1) & Hpe1 & Hq1 & Hd1 & HL1) & T1 & C1). rewrite E1. cbn [bind].
    set (k2 := if 0 <? km_delay k1 then set_delay k1 (km_delay k1 - 1) else k1).
    assert (H2 : km_sched k2 = km_sched k1 /\ km_idle k2 = km_idle k1 /\ km_ms_per_tick k2 = km_ms_per_tick k1 /\ km_ctx k2 = km_ctx k1).
    { unfold k2. destruct (0 <? km_delay k1); auto. }
    destruct H2 as (Es2 & Ei2 & Em2 & Ec2). rewrite Es2, Em2. unfold sched_tick. rewrite Ec, Em.
    unfold u32_add. cbn [ck_now ck_idle clocks_step c] in *.
    destruct (sc_counter (km_sched k) + km_ms_per_tick k <=? u32_max) eqn:L1; [|apply N.leb_gt in L1; unfold c in Hn; cbn in Hn; lia].
    cbn [bind]. destruct Hb1 as (_ & _ & _ & _ & F & _). rewrite F. cbn [last_opt bind].
    rewrite drain0 by exact Hpe1. cbn [bind].
    match goal with |- context [u32_add (km_idle ?x) _] => set (k3 := x) | |- context [km_idle ?x + _] => set (k3 := x) end.
    change (km_idle k3) with (km_idle k2). change (km_ms_per_tick k3) with (km_ms_per_tick k2). rewrite Ei2, Em2, Ei, Em.
    destruct (km_idle k + km_ms_per_tick k <=? u32_max) eqn:L2; [|apply N.leb_gt in L2; unfold c in Hi; cbn in Hi; lia].
    cbn [bind]. eexists. split; [reflexivity|]. unfold queue_tick. cbn [q_done]. change (km_ctx (set_idle k3 _)) with (km_ctx k2). rewrite Ec2. split; assumption.
  - unfold km_report_output, km_pressed_keys. destruct Hb as (_ & _ & Hh & _). rewrite (outputs_held _ _ Hh). cbn [bind]. eexists. split; [reflexivity|]. split; assumption.
  - eexists. split; [reflexivity|]. split; assumption.
Qed.
Lemma run_board_total f cf ops : cf_layer_count cf = n -> N.of_nat (length refs) <= 65535 -> Forall (fun o => plain_op o = true) ops ->
  fits (length refs) (chc_max_pressed (cf_chorded cf)) (q_done (queue_run ops)) -> ck_now (clocks_run ops) <= u32_max ->
  exists k, run_ops conf (fuel4 f) ops (start cf) = Ok k
    /\ bsim (queue_run ops) k /\ chord_tracks (down_after (q_done (queue_run ops))) (cx_chorded (km_ctx k)) /\ chx_config (cx_chorded (km_ctx k)) = cf_chorded cf.
Proof.
  intros Hly Hr. induction ops as [|o ops IH] using rev_ind; intros Ho Hf Hc.
  - exists (start cf). split; [reflexivity|]. split; [now apply bsim_new|]. split; [|reflexivity]. split; [apply quiet_new|]. split; [constructor|].
    right. split; [intros a x b y c H; destruct a; discriminate H|]. split; [constructor|]. intros x. reflexivity.
  - apply Forall_app in Ho as (Ho & Ho1). inversion Ho1 as [|? ? Hop _]; subst.
    unfold queue_run, clocks_run in Hf, Hc. rewrite !fold_left_app in Hf, Hc. cbn [fold_left] in Hf, Hc.
    change (fold_left queue_step ops queue_new) with (queue_run ops) in Hf. change (fold_left clocks_step ops clocks_new) with (clocks_run ops) in Hc.
    destruct IH as (k & E & Hs & Ht & Hcf); [exact Ho| | |].
    + destruct (queue_one_per_call (queue_run ops) o) as (l & El & _). rewrite El in Hf. eapply fits_app. exact Hf.
    + eapply N.le_trans; [|exact Hc]. apply (clocks_mono [o]). now constructor.
    + pose proof (run_ops_clock conf _ ops (Forall_impl _ plain_timed Ho) _ _ E) as Ek. unfold clocks_of in Ek.
      change (fold_left clocks_step ops _) with (fold_left clocks_step ops (mkClocks 0 0 1)) in Ek.
      change (fold_left clocks_step ops (mkClocks 0 0 1)) with (clocks_run ops) in Ek.
      destruct (op_board_total f (cf_chorded cf) (queue_run ops) k o Hr Hs Ht Hcf Hop Hf) as (k' & E' & T & C).
      * rewrite Ek. exact Hc.
      * rewrite Ek. eapply N.le_trans; [|exact Hc]. change (clocks_step (clocks_run ops) o) with (fold_left clocks_step [o] (clocks_run ops)).
        apply clocks_idle; [now constructor|]. apply (clocks_idle ops Ho). cbn. lia.
      * exists k'. split.
        { unfold run_ops in *. rewrite fold_res_app. rewrite E. cbn [bind fold_res]. now rewrite E'. }
        unfold queue_run. rewrite fold_left_app. cbn [fold_left]. split; [|split; assumption].
        eapply op_board; [apply Hs|exact Hop|exact E'].
Qed.
End Board.

(** ** Registering callbacks *)
Section Setup.
Context {R Ctx Ev PKS KS : Type}.
Variable conf : kconf R Ctx Ev PKS KS.
Implicit Types (k : keymap R Ctx Ev PKS KS).

Lemma setup_only fuel setup : registers_two setup ->
  forall ctx l k', run_ops conf fuel setup (set_callbacks (km_new ctx) l) = Ok k' -> exists l', k' = set_callbacks (km_new ctx) l'.
Proof.
  intros (a & b & H) ctx. unfold run_ops. induction H as [|o t Ho _ IH]; intros l k' E; cbn [fold_res] in E.
  - injection E as <-. now exists l.
  - destruct Ho as [-> | (f & Ho)]; [exact (IH l _ E)|].
    assert (X : exists c, o = OpSetCallback c f) by (destruct Ho; eauto). destruct X as (c & ->). cbn [run_op] in E. unfold km_set_callback in E.
    inv_bind E. inv_bind E0. injection E0 as <-. exact (IH _ _ E).
Qed.
Lemma replace_keys l c (f : callback_fn) l' : lm_replace l c f = Some l' -> map fst l' = map fst l.
Proof.
  revert l'. induction l as [|(c', f') t IH]; intros l' H; cbn in H; [discriminate|]. destruct (callback_eqb c' c).
  - injection H as <-. reflexivity.
  - destruct (lm_replace t c f) as [t'|]; [|discriminate]. injection H as <-. cbn. f_equal. now apply IH.
Qed.
Lemma setup_total fuel setup : registers_two setup -> forall ctx,
  exists l, run_ops conf fuel setup (km_new ctx) = Ok (set_callbacks (km_new ctx) l).
Proof.
  intros (a & b & H) ctx.
  assert (X : forall k, NoDup (map fst (km_callbacks k)) -> incl (map fst (km_callbacks k)) [a; b] -> exists k', run_ops conf fuel setup k = Ok k').
  { unfold run_ops. induction H as [|o t Ho _ IH]; intros k Hn Hi; cbn [fold_res]; [now exists k|].
    destruct Ho as [-> | (f & Ho)]; [exact (IH (km_init k) Hn Hi)|].
    assert (X : exists c, o = OpSetCallback c f /\ In c [a; b]) by (destruct Ho; [exists a|exists b]; cbn; auto). destruct X as (c & -> & Hc).
    cbn [run_op]. unfold km_set_callback.
    destruct (lm_insert (km_callbacks k) c f) as [l| |] eqn:E; cbn [bind].
    - apply IH; cbn [set_callbacks km_callbacks]; unfold lm_insert in E; destruct (lm_replace (km_callbacks k) c f) as [l'|] eqn:El.
      + injection E as <-. now rewrite (replace_keys _ _ _ _ El).
      + unfold push_cap in E. destruct (_ <? _)%nat; [|discriminate]. injection E as <-. rewrite map_app. cbn. apply nodup_snoc; [exact Hn|].
        now apply lm_replace_none in El.
      + injection E as <-. now rewrite (replace_keys _ _ _ _ El).
      + unfold push_cap in E. destruct (_ <? _)%nat; [|discriminate]. injection E as <-. rewrite map_app. apply incl_app; [exact Hi|]. intros x [<-|[]]. exact Hc.
    - exfalso. apply lm_insert_panic in E as (E & El).
      assert (Hl : (length (c :: map fst (km_callbacks k)) <= length [a; b])%nat).
      { apply NoDup_incl_length; [constructor; [|exact Hn]|intros x [<-|Hx]; [exact Hc|now apply Hi]].
        now apply lm_get_none in E. }
      cbn in Hl. rewrite map_length in Hl. lia.
    - exfalso. unfold lm_insert in E. destruct (lm_replace _ _ _); [discriminate|]. unfold push_cap in E. destruct (_ <? _)%nat; discriminate. }
  destruct (X (km_new ctx)) as (k & E); [constructor|intros x []|]. rewrite E.
  destruct (setup_only fuel setup (ex_intro _ a (ex_intro _ b H)) ctx [] _ E) as (l & ->). now exists l.
Qed.
End Setup.


(** ** The board is determined by its inputs *)
Lemma means_fun d on on' def r m1 m2 : (forall l, on l = on' l) -> means d on def r m1 -> means d on' def r m2 -> m1 = m2.
Proof.
  intros He H. revert m2. induction H as [r ko Hk|i m Hm|i cb Hc|i k r m Hk Ha Hm IH]; intros m2 H2.
  - inversion H2 as [r' ko' Hk'|i' m' Hm'|i' cb' Hc'|i' k' r' m' Hk' Ha' Hm']; subst; try contradiction. f_equal.
    destruct r as [| | | |[c]|[c]|[kc|mm|i]| |mm| | |]; cbn in Hk, Hk'; try contradiction; try congruence.
    destruct Hk as (x & E & ->), Hk' as (y & E' & ->). congruence.
  - inversion H2; subst; try contradiction. congruence.
  - inversion H2; subst; try contradiction. congruence.
  - inversion H2 as [r' ko' Hk'|i' m' Hm'|i' cb' Hc'|i' k' r' m' Hk' Ha' Hm']; subst; try contradiction.
    apply IH. assert (k' = k) as -> by congruence. assert (r' = r) as -> by (eapply acts_as_fun; [|exact Ha]; eapply acts_as_ext; [|exact Ha']; intros l; rewrite He; reflexivity). exact Hm'.
Qed.
Lemma switch_same n e b1 b2 : same_board b1 b2 -> same_board (switch n e b1) (switch n e b2).
Proof.
  intros (A & B & C). destruct e as [e|]; [|split; auto]. split; [exact A|]. cbn. split; [|now rewrite C].
  intros l. unfold layer_set_step. destruct e; rewrite ?B; reflexivity.
Qed.
Lemma step_fun n refs d b1 b2 ie b1' b2' : same_board b1 b2 -> NoDup (keys_down (shape b1)) ->
  board_step n refs d b1 ie b1' -> board_step n refs d b2 ie b2' -> same_board b1' b2'.
Proof.
  intros (A & B & C) Hnd H1 H2.
  assert (Hone : forall i m m', In (inl (i, m)) (bd_down b1) -> In (inl (i, m')) (bd_down b1) -> m = m').
  { unfold shape in Hnd. revert Hnd. generalize (bd_down b1) as l. induction l as [|[[j mm]|ko] l IH]; intros Hnd i m m' X Y; [destruct X| |].
    - cbn [map forget] in Hnd. rewrite keys_key in Hnd. inversion Hnd as [|? ? Hni Hn]; subst.
      assert (Z : forall i m, In (inl (i, m)) l -> In i (keys_down (map forget l))).
      { intros i0 m0 Z. apply is_key_In. rewrite this_forget. apply existsb_exists. exists (inl (i0, m0)). split; [exact Z|apply N.eqb_refl]. }
      destruct X as [X|X], Y as [Y|Y]; [congruence| | |now apply (IH Hn i)].
      + injection X as <- <-. exfalso. eapply Hni, Z, Y.
      + injection Y as <- <-. exfalso. eapply Hni, Z, X.
    - destruct X as [X|X], Y as [Y|Y]; try discriminate. now apply (IH Hnd i). }
  assert (Hno : forall i m, In (inl (i, m)) (bd_down b1) -> existsb (this_key i) (bd_down b1) = true).
  { intros i m X. apply existsb_exists. exists (inl (i, m)). split; [exact X|apply N.eqb_refl]. }
  destruct H1 as [i H|i r m H Hr Hm|i m H|i H|ko|ko]; inversion H2; subst; rewrite <- A in *; try congruence.
  - split; auto.
  - assert (m0 = m) as -> by (eapply means_fun with (on := bd_on b2); [|eassumption|rewrite <- C; replace r0 with r by congruence; exact Hm]; intros l; now rewrite B).
    apply switch_same. split; [cbn; now rewrite A|]. split; assumption.
  - assert (m0 = m) as -> by (eapply Hone; eassumption). apply switch_same. split; [cbn; now rewrite A|]. split; assumption.
  - exfalso. apply Hno in H. congruence.
  - exfalso. match goal with X : In _ _ |- _ => apply Hno in X end. congruence.
  - split; auto.
  - split; [cbn; now rewrite A|]. split; assumption.
  - split; [cbn; now rewrite A|]. split; assumption.
Qed.
Lemma board_fun n refs d h b1 : board_run n refs d h b1 -> forall b2, board_run n refs d h b2 -> same_board b1 b2.
Proof.
  induction 1 as [|h b ie b' Hr IH Hs]; intros b2 H2.
  - inversion H2 as [E|h0 b0 ie0 b0' _ _ E]; [split; auto|]. destruct h0; discriminate.
  - inversion H2 as [E|h0 b0 ie0 b0' Hr0 Hs0 E]; [destruct h; discriminate|]. apply app_inj_tail in E as (-> & ->). subst.
    eapply step_fun; [apply IH; exact Hr0| |exact Hs|exact Hs0].
    rewrite (run_shape refs d n h b Hr). apply down_nodup.
Qed.

(** ** The board exists *)
Lemma acts_as_total {R} (k : layered_key R) (on : N -> bool) def : exists r, acts_as k (fun l => on l = true) def r.
Proof.
  assert (X : forall m, (exists l r, on l = true /\ defines k l r /\ forall l' r', (N.to_nat l' <= m)%nat -> on l' = true -> defines k l' r' -> l' <= l)
                     \/ (forall l' r', (N.to_nat l' <= m)%nat -> on l' = true -> ~ defines k l' r')).
  { induction m as [|m IH].
    - right. intros l' r' H _ (H1 & _). lia.
    - set (l := N.of_nat (S m)). destruct (on l) eqn:Eo.
      + destruct (nth_error (lk_layered k) m) as [[r|]|] eqn:En.
        * left. exists l, r. split; [exact Eo|]. split; [split; [unfold l; lia|]|].
          -- replace (N.to_nat (l - 1)) with m by (unfold l; lia). exact En.
          -- intros l' r' H _ _. unfold l. lia.
        * destruct IH as [(l0 & r0 & A & B & C)|IH].
          -- left. exists l0, r0. split; [exact A|]. split; [exact B|]. intros l' r' H O D. destruct (Nat.eq_dec (N.to_nat l') (S m)) as [E|E]; [|apply (C l' r'); auto; lia].
             destruct D as (_ & D). replace (N.to_nat (l' - 1)) with m in D by lia. congruence.
          -- right. intros l' r' H O D. destruct (Nat.eq_dec (N.to_nat l') (S m)) as [E|E]; [|apply (IH l' r'); auto; lia].
             destruct D as (_ & D). replace (N.to_nat (l' - 1)) with m in D by lia. congruence.
        * destruct IH as [(l0 & r0 & A & B & C)|IH].
          -- left. exists l0, r0. split; [exact A|]. split; [exact B|]. intros l' r' H O D. destruct (Nat.eq_dec (N.to_nat l') (S m)) as [E|E]; [|apply (C l' r'); auto; lia].
             destruct D as (_ & D). replace (N.to_nat (l' - 1)) with m in D by lia. congruence.
          -- right. intros l' r' H O D. destruct (Nat.eq_dec (N.to_nat l') (S m)) as [E|E]; [|apply (IH l' r'); auto; lia].
             destruct D as (_ & D). replace (N.to_nat (l' - 1)) with m in D by lia. congruence.
      + destruct IH as [(l0 & r0 & A & B & C)|IH].
        * left. exists l0, r0. split; [exact A|]. split; [exact B|]. intros l' r' H O D. destruct (Nat.eq_dec (N.to_nat l') (S m)) as [E|E]; [|apply (C l' r'); auto; lia].
          assert (l' = l) by (unfold l; lia). congruence.
        * right. intros l' r' H O D. destruct (Nat.eq_dec (N.to_nat l') (S m)) as [E|E]; [|apply (IH l' r'); auto; lia].
          assert (l' = l) by (unfold l; lia). congruence. }
  assert (Hle : forall l r, defines k l r -> (N.to_nat l <= length (lk_layered k))%nat).
  { intros l r (A & B). assert (C : nth_error (lk_layered k) (N.to_nat (l - 1)) <> None) by congruence. apply nth_error_Some in C. lia. }
  destruct (X (length (lk_layered k))) as [(l & r & A & B & C)|N1].
  - exists r. apply on_layer with (l := l); auto. intros l' r' O D. apply (C l' r'); auto. eapply Hle; eassumption.
  - assert (N2 : forall l r, on l = true -> ~ defines k l r) by (intros l r O D; eapply N1; eauto).
    destruct def as [l|]; [|exists (lk_base k); apply on_base; [exact N2|discriminate]].
    destruct (nth_error (lk_layered k) (N.to_nat (l - 1))) as [[r|]|] eqn:En; [destruct (1 <=? l) eqn:El|..].
    + apply N.leb_le in El. exists r. eapply on_default; [exact N2|reflexivity|]. split; assumption.
    + apply N.leb_gt in El. exists (lk_base k). apply on_base; [exact N2|]. intros l0 r0 E (D & _). injection E as <-. lia.
    + exists (lk_base k). apply on_base; [exact N2|]. intros l0 r0 E (_ & D). congruence.
    + exists (lk_base k). apply on_base; [exact N2|]. intros l0 r0 E (_ & D). congruence.
Qed.
Lemma means_total n d on def h r : board_key n d h r -> exists m, means d on def r m.
Proof.
  induction 1 as [h r ko H|h i m H H0|h i cb H|h i k H Hl _ IHb _ IHl].
  - eexists. apply means_sends. exact H.
  - eexists. apply means_switches. exact H.
  - eexists. apply means_calls. exact H.
  - destruct (acts_as_total k on def) as (r & Ha).
    assert (X : exists m, means d on def r m) by (destruct (acts_as_entry _ _ _ _ Ha) as [->|Hin]; [exact IHb|now apply IHl]).
    destruct X as (m & Hm). exists m. eapply means_layered; eassumption.
Qed.
Lemma board_total n refs d height h : Forall (board_key n d height) refs ->
  (forall i, In (Press i) h -> (N.to_nat i < length refs)%nat) -> exists b, board_run n refs d h b.
Proof.
  intros Hr. induction h as [|ie h IH] using rev_ind; intros Hin; [exists board_new; constructor|].
  destruct IH as (b & Hb); [intros i Hi; apply Hin, in_or_app; now left|].
  assert (X : exists b', board_step n refs d b ie b'); [|destruct X as (b' & Hs); exists b'; eapply run_input; eassumption].
  destruct ie as [i|i|ko|ko].
  - destruct (existsb (this_key i) (bd_down b)) eqn:E; [eexists; now apply press_again|].
    assert (Hi : (N.to_nat i < length refs)%nat) by (apply Hin, in_or_app; right; now left).
    destruct (nth_error refs (N.to_nat i)) as [r|] eqn:Er; [|apply nth_error_None in Er; lia].
    rewrite Forall_forall in Hr. destruct (means_total n d (bd_on b) (bd_default b) height r (Hr r (nth_error_In _ _ Er))) as (m & Hm).
    eexists. eapply press_key; eassumption.
  - destruct (existsb (this_key i) (bd_down b)) eqn:E; [|eexists; now apply release_again].
    apply existsb_exists in E as ([[j m]|ko] & Hj & Ej); [|discriminate]. apply N.eqb_eq in Ej. subst j. eexists. eapply release_key. exact Hj.
  - eexists. apply press_virtual.
  - eexists. apply release_virtual.
Qed.
