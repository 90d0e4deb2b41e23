(** C73: keymap.ncl layouts with one-shot modifiers, one-shot layers and caps word, end
    to end. *)
From Coq Require Import String Ascii Permutation.
From Verif Require Import BaseFacts Output Types Scheduler Keymap SimpleKeys Sticky CapsWord Layered Automation TapHold TapDance Chorded Composite SpecKeymap KeymapQueue KeymapApi
  SpecPlain PlainFacts SpecLayer SpecBoard BoardFacts SpecMods SpecTyping TypingFacts PropertiesTyping
  Ncl NclCodegen SpecNcl NclLayoutFacts SpecNclBoard NclBoardFacts PropertiesNcl SpecNclTyping NclTypingFacts Samples.
Import List.
Local Open Scope string_scope.
Local Open Scope N_scope.
Local Open Scope list_scope.

(** C73: for a layout of keys that act at once, the keyboard of C70 with the generated
    keymap is the keyboard of the layout. *)
Theorem C73_keyboard_of_the_layout : forall n s lo f g,
  writes n s lo -> sound lo -> typing_layout lo -> (4 * (n + 2) <= f)%nat -> build f s = Ok g ->
  cf_layer_count (gn_config g) = length (lo_uppers lo) /\
  length (gn_refs g) = length (lo_base lo) /\
  Forall (tkey (cf_layer_count (gn_config g)) (gn_data g) 1) (gn_refs g) /\
  given (op_sticky_release (ks_options s)) OnModifiedKeyRelease (stc_release (cf_sticky (gn_config g))) /\
  (forall sr h b, trun sr (cf_layer_count (gn_config g)) (gn_refs g) (gn_data g) h b <-> layout_trun sr lo h b).
Proof.
  intros n s lo f g Hw Hs Hsl Hf H.
  destruct (build_sound n s lo f g Hw Hs Hf H) as [H1 [(_ & _ & _ & Hsr & _) [_ [H2 H3]]]].
  pose proof (typing_count _ _ Hsl H3) as Hc. rewrite Hc.
  assert (Hfit : forall k, In k (kd_layered (gn_data g)) -> length (lk_layered k) = length (lo_uppers lo))
    by (intros k Hk; rewrite <- Hc; now apply H2).
  split; [reflexivity|]. split; [|split; [|split]].
  - pose proof (NclMacroFacts.flen _ _ _ _ _ H1) as E. rewrite <- E. unfold positions. generalize 0%nat. generalize (lo_base lo).
    induction l as [|b bs IH]; intros m; cbn; [reflexivity|]. now rewrite IH.
  - apply Forall_forall. intros r Hr. eapply ref_tkey; eassumption.
  - exact Hsr.
  - intros sr h b. eapply trun_layout; eassumption.
Qed.
Lemma given_unique {A} o (df x y : A) : given o df x -> given o df y -> x = y.
Proof. destruct o; cbn; congruence. Qed.

(** C73, end to end: build the firmware of a keymap.ncl, press and release keys in any
    order and at any pace, within the room of C70, wait for 32 ticks, and the keyboard
    reports what the layout says is down, and has called what its callback keys ask
    for.  One-shot modifiers are let go as the option of keymap.ncl says. *)
Theorem C73_reports_what_is_written : forall n s lo f g pos dbg fuel setup ops sr,
  writes n s lo -> sound lo -> typing_layout lo -> (4 * (n + 2) <= f)%nat -> build f s = Ok g ->
  given (op_sticky_release (ks_options s)) OnModifiedKeyRelease sr ->
  N.of_nat (length (lo_base lo)) <= 65535 -> (75 <= fuel)%nat ->
  registers_two setup -> Forall (fun o => plain_op o = true) ops ->
  layout_fits sr lo (accepted ops) -> ck_now (clocks_run ops) + 32 * ck_ms (clocks_run ops) <= u32_max ->
  let conf := cconf (gn_refs g) (gn_data g) pos dbg in
  exists k b, run_ops conf fuel (setup ++ ops ++ repeat OpTick 32) (km_new (ctx_from_config (gn_config g))) = Ok k
  /\ layout_trun sr lo (accepted ops) b
  /\ km_boot_keyboard_report conf k = Ok (as_hid_boot_keyboard_report (tboard_output b))
  /\ km_calls k = Base.filter_map (registered setup) (tb_calls b).
Proof.
  intros n s lo f g pos dbg fuel setup ops sr Hw Hs Hsl Hf H Hsr Hl Hfu Hset Ho Hfit Hc conf.
  destruct (C73_keyboard_of_the_layout n s lo f g Hw Hs Hsl Hf H) as (E1 & E2 & Hr & Hg & Hb). pose proof (given_unique _ _ _ _ Hg Hsr) as E3.
  destruct (build_sound n s lo f g Hw Hs Hf H) as [H1 [_ [(_ & _ & _ & Hmax) [H2 H3]]]].
  assert (Hfit' : forall k, In k (kd_layered (gn_data g)) -> length (lk_layered k) = length (lo_uppers lo)) by (intros k Hk; rewrite <- E1; now apply H2).
  destruct (C70_reports_what_is_typed (gn_refs g) (gn_data g) pos dbg 1 fuel setup ops (gn_config g) Hr) as (k & b & R & T & Rep & C); try assumption.
  - now rewrite E2.
  - rewrite E3, Hmax by (destruct Hsl as [-> _]; reflexivity). rewrite E1. eapply tfits_layout; eassumption.
  - exists k, b. split; [exact R|]. split; [|auto]. apply Hb. now rewrite <- E3.
Qed.

(** C73: up to eight presses always fit. *)
Theorem C73_eight_presses_fit : forall sr lo h, (forall i, In (Press i) h -> (N.to_nat i < length (lo_base lo))%nat) ->
  (forall ko, ~ In (VirtualKeyPress ko) h) -> (length (filter (fun ie => match ie with Press _ => true | _ => false end) h) <= 8)%nat ->
  forall n s f g, writes n s lo -> sound lo -> typing_layout lo -> (4 * (n + 2) <= f)%nat -> build f s = Ok g ->
  layout_fits sr lo h.
Proof.
  intros sr lo h Hi Hv Hp n s f g Hw Hs Hsl Hf H.
  destruct (C73_keyboard_of_the_layout n s lo f g Hw Hs Hsl Hf H) as (E1 & E2 & Hr & Hg & Hb).
  destruct (build_sound n s lo f g Hw Hs Hf H) as [H1 [_ [(_ & _ & _ & Hmax) [H2 H3]]]].
  assert (Hfit' : forall k, In k (kd_layered (gn_data g)) -> length (lk_layered k) = length (lo_uppers lo)) by (intros k Hk; rewrite <- E1; now apply H2).
  destruct (C70_eight_presses_fit sr (cf_layer_count (gn_config g)) (gn_refs g) (gn_data g) 0 h) as (_ & F); [now rewrite E2|exact Hv|exact Hp|now left|].
  split; [exact Hi|]. intros h1 ie h2 b b' E Hr' Hs'. refine (proj1 (F h1 ie h2 b b' E _ _)); [now apply Hb|].
  eapply tstep_layout; eassumption.
Qed.

(** C73: the keyboard of the layout is determined by the inputs. *)
Theorem C73_unique : forall n s lo f g sr h b b', writes n s lo -> sound lo -> typing_layout lo -> (4 * (n + 2) <= f)%nat -> build f s = Ok g ->
  layout_trun sr lo h b -> layout_trun sr lo h b' -> b = b'.
Proof.
  intros n s lo f g sr h b b' Hw Hs Hsl Hf H H1 H2. destruct (C73_keyboard_of_the_layout n s lo f g Hw Hs Hsl Hf H) as (_ & _ & _ & _ & Hb).
  apply Hb in H1, H2. eapply C70_unique; eassumption.
Qed.

(** *** What one-shot keys and caps word do *)

(** The key at a position that only the base layer defines. *)
Definition on_every_layer (lo : layout) (i : u16) (k : ukey macro) : Prop :=
  nth_error (lo_base lo) (N.to_nat i) = Some k /\ transparent (column (lo_uppers lo) (N.to_nat i)) = true.
Lemma every_layer_ref n s lo f g i k : writes n s lo -> sound lo -> typing_layout lo -> (4 * (n + 2) <= f)%nat -> build f s = Ok g ->
  on_every_layer lo i k -> exists r, nth_error (gn_refs g) (N.to_nat i) = Some r
    /\ denotes (is_macro (auc_instructions (cf_automation (gn_config g)))) (gn_data g) k r.
Proof.
  intros Hw Hs Hsl Hf H (Hk & Ht). destruct (build_sound n s lo f g Hw Hs Hf H) as [H1 _].
  destruct (nth_trefs _ _ _ _ H1 Hsl (N.to_nat i)) as (r & b & Er & Eb & Hd); [apply nth_error_Some; congruence|].
  exists r. split; [exact Er|]. rewrite Hk in Eb. injection Eb as <-. unfold stacked in Hd. now rewrite Ht in Hd.
Qed.
Lemma sends_plain md d k r ko : tkey_means k (TSends ko) -> denotes md d k r -> plain_key d r ko.
Proof. intros Hk Hd. inversion Hk; subst; cbn in Hd; try (subst r; first [reflexivity|assumption]). destruct Hd as (i & -> & He). cbn. eauto. Qed.

(** C73: the one-shot modifiers of keymap.ncl, tapped, are held for the next key and
    no longer.  The keyboard was at rest before. *)
Theorem C73_one_shot_modifier : forall n s lo f g pos dbg fuel setup ops k m h b i ms j u ko sr,
  writes n s lo -> sound lo -> typing_layout lo -> (4 * (n + 2) <= f)%nat -> build f s = Ok g ->
  given (op_sticky_release (ks_options s)) OnModifiedKeyRelease sr ->
  registers_two setup -> Forall (fun o => plain_op o = true) ops -> (32 <= m)%nat ->
  let conf := cconf (gn_refs g) (gn_data g) pos dbg in
  run_ops conf fuel (setup ++ ops ++ repeat OpTick m) (km_new (ctx_from_config (gn_config g))) = Ok k ->
  layout_trun sr lo h b -> at_rest b ->
  on_every_layer lo i (USticky ms) -> on_every_layer lo j u -> tkey_means u (TSends ko) ->
  let sent := km_pressed_keys conf k in
  (accepted ops = h ++ [Press i] -> sent = Ok [])
  /\ (accepted ops = h ++ [Press i; Release i] -> sent = Ok [mods_key ms])
  /\ (accepted ops = h ++ [Press i; Release i; Press j] -> sent = Ok [mods_key ms; ko])
  /\ (accepted ops = h ++ [Press i; Release i; Press j; Release j] -> sent = Ok [])
  /\ (accepted ops = h ++ [Press i; Release i; Press j; Release j; Press j] -> sent = Ok [ko]).
Proof.
  intros n s lo f g pos dbg fuel setup ops k m h b i ms j u ko sr Hw Hs Hsl Hf H Hsr Hset Ho Hm conf R Hh Hb Hi Hj Hu.
  destruct (C73_keyboard_of_the_layout n s lo f g Hw Hs Hsl Hf H) as (E1 & E2 & Hr & Hg & Hrun). pose proof (given_unique _ _ _ _ Hg Hsr) as E3.
  destruct (every_layer_ref n s lo f g i _ Hw Hs Hsl Hf H Hi) as (ri & Ei & q & -> & Hq). destruct (every_layer_ref n s lo f g j _ Hw Hs Hsl Hf H Hj) as (rj & Ej & Hd).
  apply Hrun in Hh. rewrite <- E3 in Hh.
  exact (C70_one_shot_modifier _ _ _ _ _ _ _ _ _ _ _ _ _ _ _ _ _ _ _ Hr Hset Ho Hm R Hh Hb Ei Hq Ej (sends_plain _ _ _ _ _ Hu Hd)).
Qed.

(** C73: held while another key goes down, they are ordinary modifiers. *)
Theorem C73_one_shot_held : forall n s lo f g pos dbg fuel setup ops k m h b i ms j u ko sr,
  writes n s lo -> sound lo -> typing_layout lo -> (4 * (n + 2) <= f)%nat -> build f s = Ok g ->
  given (op_sticky_release (ks_options s)) OnModifiedKeyRelease sr ->
  registers_two setup -> Forall (fun o => plain_op o = true) ops -> (32 <= m)%nat ->
  let conf := cconf (gn_refs g) (gn_data g) pos dbg in
  run_ops conf fuel (setup ++ ops ++ repeat OpTick m) (km_new (ctx_from_config (gn_config g))) = Ok k ->
  layout_trun sr lo h b -> at_rest b ->
  on_every_layer lo i (USticky ms) -> on_every_layer lo j u -> tkey_means u (TSends ko) ->
  let sent := km_pressed_keys conf k in
  (accepted ops = h ++ [Press i; Press j] -> sent = Ok [mods_key ms; ko])
  /\ (accepted ops = h ++ [Press i; Press j; Release i] -> sent = Ok [ko])
  /\ (accepted ops = h ++ [Press i; Press j; Release j] -> sent = Ok [mods_key ms])
  /\ (accepted ops = h ++ [Press i; Press j; Release i; Release j] -> sent = Ok [])
  /\ (accepted ops = h ++ [Press i; Press j; Release j; Release i] -> sent = Ok [])
  /\ (accepted ops = h ++ [Press i; Press j; Release j; Release i; Press j] -> sent = Ok [ko]).
Proof.
  intros n s lo f g pos dbg fuel setup ops k m h b i ms j u ko sr Hw Hs Hsl Hf H Hsr Hset Ho Hm conf R Hh Hb Hi Hj Hu.
  destruct (C73_keyboard_of_the_layout n s lo f g Hw Hs Hsl Hf H) as (E1 & E2 & Hr & Hg & Hrun). pose proof (given_unique _ _ _ _ Hg Hsr) as E3.
  destruct (every_layer_ref n s lo f g i _ Hw Hs Hsl Hf H Hi) as (ri & Ei & q & -> & Hq). destruct (every_layer_ref n s lo f g j _ Hw Hs Hsl Hf H Hj) as (rj & Ej & Hd).
  apply Hrun in Hh. rewrite <- E3 in Hh.
  exact (C70_one_shot_held _ _ _ _ _ _ _ _ _ _ _ _ _ _ _ _ _ _ _ Hr Hset Ho Hm R Hh Hb Ei Hq Ej (sends_plain _ _ _ _ _ Hu Hd)).
Qed.

(** C73: after a tap of the caps word key, letters are sent with a shift until a key
    that ends the word, which is sent without, as is everything after it. *)
Theorem C73_caps_word : forall n s lo f g pos dbg fuel setup ops k m h b i j u ko j' u' ko' sr,
  writes n s lo -> sound lo -> typing_layout lo -> (4 * (n + 2) <= f)%nat -> build f s = Ok g ->
  given (op_sticky_release (ks_options s)) OnModifiedKeyRelease sr ->
  registers_two setup -> Forall (fun o => plain_op o = true) ops -> (32 <= m)%nat ->
  let conf := cconf (gn_refs g) (gn_data g) pos dbg in
  run_ops conf fuel (setup ++ ops ++ repeat OpTick m) (km_new (ctx_from_config (gn_config g))) = Ok k ->
  layout_trun sr lo h b -> at_rest b ->
  on_every_layer lo i UCapsWord -> on_every_layer lo j u -> tkey_means u (TSends ko) -> in_word ko = true ->
  on_every_layer lo j' u' -> tkey_means u' (TSends ko') -> in_word ko' = false ->
  let sent := km_pressed_keys conf k in
  forall letters,
  (accepted ops = h ++ [Press i; Release i] ++ concat (repeat [Press j; Release j] letters) ++ [Press j] -> sent = Ok [caps_shift; ko])
  /\ (accepted ops = h ++ [Press i; Release i] ++ concat (repeat [Press j; Release j] letters) ++ [Press j'] -> sent = Ok [ko'])
  /\ (accepted ops = h ++ [Press i; Release i] ++ concat (repeat [Press j; Release j] letters) ++ [Press j'; Release j'] -> sent = Ok [])
  /\ (accepted ops = h ++ [Press i; Release i] ++ concat (repeat [Press j; Release j] letters) ++ [Press j'; Release j'; Press j] -> sent = Ok [ko]).
Proof.
  intros n s lo f g pos dbg fuel setup ops k m h b i j u ko j' u' ko' sr Hw Hs Hsl Hf H Hsr Hset Ho Hm conf R Hh Hb Hi Hj Hu Hin Hj' Hu' Hout.
  destruct (C73_keyboard_of_the_layout n s lo f g Hw Hs Hsl Hf H) as (E1 & E2 & Hr & Hg & Hrun). pose proof (given_unique _ _ _ _ Hg Hsr) as E3.
  destruct (every_layer_ref n s lo f g i _ Hw Hs Hsl Hf H Hi) as (ri & Ei & ->). destruct (every_layer_ref n s lo f g j _ Hw Hs Hsl Hf H Hj) as (rj & Ej & Hd).
  destruct (every_layer_ref n s lo f g j' _ Hw Hs Hsl Hf H Hj') as (rj' & Ej' & Hd').
  apply Hrun in Hh. rewrite <- E3 in Hh.
  exact (C70_caps_word _ _ _ _ _ _ _ _ _ _ _ _ _ _ _ _ _ _ _ _ Hr Hset Ho Hm R Hh Hb Ei Ej (sends_plain _ _ _ _ _ Hu Hd) Hin Ej' (sends_plain _ _ _ _ _ Hu' Hd') Hout).
Qed.

(** C73: a one-shot layer key of keymap.ncl, tapped, turns its layer on for the next
    key and no longer; that key is the one that the layers of keymap.ncl show with
    this layer on. *)
Theorem C73_one_shot_layer : forall n s lo f g pos dbg fuel setup ops k m h b i l j u ko sr,
  writes n s lo -> sound lo -> typing_layout lo -> (4 * (n + 2) <= f)%nat -> build f s = Ok g ->
  given (op_sticky_release (ks_options s)) OnModifiedKeyRelease sr ->
  registers_two setup -> Forall (fun o => plain_op o = true) ops -> (32 <= m)%nat ->
  let conf := cconf (gn_refs g) (gn_data g) pos dbg in
  run_ops conf fuel (setup ++ ops ++ repeat OpTick m) (km_new (ctx_from_config (gn_config g))) = Ok k ->
  layout_trun sr lo h b -> at_rest b ->
  on_every_layer lo i (ULayer (LmSticky l)) ->
  (N.to_nat j < length (lo_base lo))%nat -> transparent (column (lo_uppers lo) (N.to_nat j)) = false ->
  shows lo (N.to_nat j) (fun x => (x =? l) || tb_on b x) (tb_default b) u -> tkey_means u (TSends ko) ->
  let sent := km_pressed_keys conf k in
  (accepted ops = h ++ [Press i; Release i] -> sent = Ok [] /\ is_on (cx_layered (km_ctx k)) l = true)
  /\ (accepted ops = h ++ [Press i; Release i; Press j] -> sent = Ok [ko])
  /\ (accepted ops = h ++ [Press i; Release i; Press j; Release j] -> sent = Ok []
       /\ forall x, is_on (cx_layered (km_ctx k)) x = tb_on b x && negb (x =? l)).
Proof.
  intros n s lo f g pos dbg fuel setup ops k m h b i l j u ko sr Hw Hs Hsl Hf H Hsr Hset Ho Hm conf R Hh Hb Hi Hj Ht Hu Hko.
  destruct (C73_keyboard_of_the_layout n s lo f g Hw Hs Hsl Hf H) as (E1 & E2 & Hr & Hg & Hrun). pose proof (given_unique _ _ _ _ Hg Hsr) as E3.
  destruct (build_sound n s lo f g Hw Hs Hf H) as [H1 [_ [_ [H2 H3]]]].
  assert (Hfit : forall k, In k (kd_layered (gn_data g)) -> length (lk_layered k) = length (lo_uppers lo)) by (intros k' Hk; rewrite <- E1; now apply H2).
  assert (Hl : 1 <= l <= N.of_nat (cf_layer_count (gn_config g))).
  { rewrite E1. destruct (base_typing _ Hsl _ _ (proj1 Hi)) as (_ & X). exact (X _ eq_refl). }
  destruct (every_layer_ref n s lo f g i _ Hw Hs Hsl Hf H Hi) as (ri & Ei & q & -> & Hq).
  destruct (nth_trefs _ _ _ _ H1 Hsl _ Hj) as (rj & bj & Ej & Eb & Hd).
  destruct (typing_entry _ _ _ Hsl Hfit _ _ _ Ht Hd) as (p & rb & rs & -> & He & Hrb & Hlen & X1 & X2).
  assert (Hm' : tmeans (gn_data g) (fun x => (x =? l) || tb_on b x) (tb_default b) (RLayered (LyLayered p)) (TSends ko)).
  { apply (tmeans_shows _ _ _ Hsl Hfit _ _ _ _ _ _ Eb Hd). eauto. }
  inversion Hm' as [? ? Hp|? ? Hp|? ? Hp| |? ? Hp|? lk r ? Hk Ha Hr']; subst; [contradiction Hp|].
  assert (Hpl : plain_key (gn_data g) r ko).
  { assert (Hden : exists k0, tkey_means k0 (TSends ko) /\ denotes (is_macro (auc_instructions (cf_automation (gn_config g)))) (gn_data g) k0 r).
    { rewrite He in Hk. injection Hk as <-. destruct Ha as [x r _ Hdef _|x r _ _ Hdef|_ _].
      - destruct (X1 _ _ Hdef) as (k0 & _ & Hk0 & (mk & Hmk) & _). exists k0. split; [|exact Hk0]. now apply (leaf_tmeans _ _ _ _ _ _ _ Hmk Hk0) in Hr'.
      - destruct (X1 _ _ Hdef) as (k0 & _ & Hk0 & (mk & Hmk) & _). exists k0. split; [|exact Hk0]. now apply (leaf_tmeans _ _ _ _ _ _ _ Hmk Hk0) in Hr'.
      - destruct (base_typing _ Hsl _ _ Eb) as ((mk & Hmk) & _). exists bj. split; [|exact Hrb]. now apply (leaf_tmeans _ _ _ _ _ _ _ Hmk Hrb) in Hr'. }
    destruct Hden as (k0 & A & B). eapply sends_plain; eassumption. }
  assert (Ha' : acts_as lk (fun x => x = l \/ tb_on b x = true) (tb_default b) r).
  { assert (Eq : forall x, (x =? l) || tb_on b x = true <-> x = l \/ tb_on b x = true) by (intros x; rewrite orb_true_iff, N.eqb_eq; reflexivity).
    destruct Ha as [x r A B C|x r A B C|A B].
    - apply (on_layer _ _ _ _ _ (proj1 (Eq _) A) B). intros l' r' O D. exact (C _ _ (proj2 (Eq _) O) D).
    - refine (on_default _ _ _ _ _ _ B C). intros l' r' O. exact (A _ _ (proj2 (Eq _) O)).
    - refine (on_base _ _ _ _ B). intros l' r' O. exact (A _ _ (proj2 (Eq _) O)). }
  apply Hrun in Hh.
  exact (C70_one_shot_layer _ _ _ _ _ _ _ _ _ _ _ _ _ _ _ _ _ _ _ _ _ Hr Hset Ho Hm R Hh Hb Ei Hq Hl Ej Hk Ha' Hpl).
Qed.

(** *** Example *)

(** Five keys and two layers: a one-shot shift, the caps word key, a one-shot key for
    layer 1, a key that is A, and B on layer 1, and the space bar. *)
Definition one_shot_shift : val := VRec [("sticky_modifiers", VRec [("left_shift", VBool true)])].
Definition one_shot_layer_1 : val := VRec [("layer_modifier", VRec [("sticky", VNum 1)])].
Definition typing_src : keymap_src :=
  mkKeymapSrc [] [LKeys [one_shot_shift; VStr "ToggleCapsWord"; one_shot_layer_1; key 4; key 44]; LKeys [VNull; VNull; VNull; key 5; VNull]] []
    (mkOptions None None None None None None None None).
Definition typing_lo : layout :=
  mkLayout [USticky 2; UCapsWord; ULayer (LmSticky 1); UCode 4; UCode 44] [[None; None; None; Some (UCode 5); None]] [].
Lemma one_shot_shift_written : forall n, written macro_written (S n) one_shot_shift (USticky 2).
Proof.
  intros n. apply (w_record macro_written n _ [("sticky_modifiers", VRec [("left_shift", VBool true)])] (USticky 2) None None None); try discriminate.
  - constructor. exact shift_written.
  - apply Permutation_refl.
Qed.
Lemma one_shot_layer_1_written : forall n, written macro_written (S n) one_shot_layer_1 (ULayer (LmSticky 1)).
Proof.
  intros n. apply (w_record macro_written n _ [("layer_modifier", VRec [("sticky", VNum 1)])] (ULayer (LmSticky 1)) None None None); try discriminate.
  - constructor. constructor. reflexivity.
  - apply Permutation_refl.
Qed.
Lemma typing_writes : writes 2 typing_src typing_lo.
Proof.
  eexists _, _, _, [_]. split; [reflexivity|]. split; [apply lv_keys|]. split; [|split; [|split]].
  - constructor; [apply one_shot_shift_written|]. constructor; [constructor|]. constructor; [apply one_shot_layer_1_written|].
    constructor; [now apply key_written|]. constructor; [now apply key_written|constructor].
  - constructor; [apply lv_keys|constructor].
  - constructor; [|constructor]. do 3 (constructor; [constructor|]). constructor; [constructor; now apply key_written|]. constructor; [constructor|constructor].
  - constructor.
Qed.
Lemma typing_sound : sound typing_lo.
Proof.
  split; [discriminate|]. split; [repeat constructor|]. split; [constructor|]. split; [|split; [|split; [constructor|split]]].
  - repeat apply Forall_cons; try apply Forall_nil; apply cf_leaf; reflexivity.
  - repeat apply Forall_cons; try apply Forall_nil; intros k E; try discriminate E; injection E as <-; apply cf_leaf; reflexivity.
  - intros i b. do 5 (destruct i as [|i]; [intros E; injection E as <-; cbn; auto; discriminate|]). destruct i; discriminate.
  - repeat apply Forall_cons; try apply Forall_nil; intros p H; cbn in H;
      repeat (destruct H as [<-|H]; [right; repeat constructor|]); destruct H.
Qed.
Lemma typing_lo_ok : typing_layout typing_lo.
Proof.
  split; [reflexivity|]. split; [|split].
  - repeat apply Forall_cons; try apply Forall_nil; (split; [eexists; constructor|]); intros l E; try discriminate E. injection E as <-. cbn. lia.
  - repeat apply Forall_cons; try apply Forall_nil; intros k E; try discriminate E. injection E as <-.
    split; [eexists; constructor|discriminate].
  - right. exists 3%nat. split; [cbn; lia|reflexivity].
Qed.
Definition typing_gen : generated :=
  mkGenerated [RSticky 0; RCapsWord; RLayered (LyModifier 0); RLayered (LyLayered 0); RKeyboard (KbKeyCode 44)]
    (mkData [] [] [] [] [] [LmSticky 1] [mkLayeredKey (RKeyboard (KbKeyCode 4)) [Some (RKeyboard (KbKeyCode 5))]] [mkStickyKey 2] [] [])
    (mkConfig (mkAutoConfig [] 10) (mkChConfig 200 [] None 0 0 0) (mkStConfig OnModifiedKeyRelease) (mkTDConfig 200) (mkTHConfig 200 IrIgnore None) 1).
Definition written_reports (ops : list op) (r : list u8) : Prop :=
  let conf := cconf (gn_refs typing_gen) (gn_data typing_gen) bs_std false in
  returns (run_ops conf 75 (ops ++ repeat OpTick 32) (km_new (ctx_from_config (gn_config typing_gen)))) (fun k =>
    km_boot_keyboard_report conf k = Ok r).
Lemma typing_rest : at_rest (tboard_new 1).
Proof.
  do 4 (split; [reflexivity|]). intros l. unfold mode_of. destruct (1 <=? l); [|discriminate]. cbn [tboard_new tb_layers].
  destruct (N.to_nat (l - 1)) as [|[|]]; discriminate.
Qed.
Lemma typing_layer_key : shows typing_lo 3 (fun x => (x =? 1) || tb_on (tboard_new 1) x) (tb_default (tboard_new 1)) (UCode 5).
Proof.
  apply (shows_layer _ _ _ _ 1).
  - reflexivity.
  - split; [lia|]. eexists. split; reflexivity.
  - intros l' k' _ (Hl & row & Hk & _). cbn in Hk. destruct (N.to_nat (l' - 1)) as [|n] eqn:E; [lia|]. cbn in Hk. destruct n; discriminate Hk.
Qed.
(** Shift for one letter, caps word up to the space, layer 1 for one key. *)
Definition ncl_typing_ops : list op := [P 0; Rl 0; P 3; OpTick; Rl 3; P 1; Rl 1; P 2; Rl 2; P 3; OpTick; Rl 3; P 4].
Example C73_example :
  writes 2 typing_src typing_lo /\ sound typing_lo /\ typing_layout typing_lo /\ build 16 typing_src = Ok typing_gen
  /\ given (op_sticky_release (ks_options typing_src)) OnModifiedKeyRelease OnModifiedKeyRelease
  /\ layout_trun OnModifiedKeyRelease typing_lo [] (tboard_new 1) /\ at_rest (tboard_new 1)
  /\ on_every_layer typing_lo 0 (USticky 2) /\ on_every_layer typing_lo 1 UCapsWord
  /\ on_every_layer typing_lo 2 (ULayer (LmSticky 1)) /\ on_every_layer typing_lo 4 (UCode 44) /\ tkey_means (UCode 44) (TSends (ko_from_key_code 44))
  /\ transparent (column (lo_uppers typing_lo) 3) = false
  /\ shows typing_lo 3 (fun x => (x =? 1) || tb_on (tboard_new 1) x) (tb_default (tboard_new 1)) (UCode 5)
  /\ Forall (fun o => plain_op o = true) ncl_typing_ops /\ layout_fits OnModifiedKeyRelease typing_lo (accepted ncl_typing_ops)
  /\ ck_now (clocks_run ncl_typing_ops) + 32 * ck_ms (clocks_run ncl_typing_ops) <= u32_max
  /\ written_reports ncl_typing_ops [0; 0; 44; 0; 0; 0; 0; 0]
  /\ written_reports [P 0; Rl 0; P 4] [2; 0; 44; 0; 0; 0; 0; 0]
  /\ written_reports [P 0; Rl 0; P 4; Rl 4; P 4] [0; 0; 44; 0; 0; 0; 0; 0]
  /\ written_reports [P 1; Rl 1; P 3; Rl 3; P 3] [2; 0; 4; 0; 0; 0; 0; 0]
  /\ written_reports [P 1; Rl 1; P 3; Rl 3; P 4; Rl 4; P 3] [0; 0; 4; 0; 0; 0; 0; 0]
  /\ written_reports [P 2; Rl 2; P 3] [0; 0; 5; 0; 0; 0; 0; 0]
  /\ written_reports [P 2; Rl 2; P 3; Rl 3; P 3] [0; 0; 4; 0; 0; 0; 0; 0].
Proof.
  split; [exact typing_writes|]. split; [exact typing_sound|]. split; [exact typing_lo_ok|]. assert (B : build 16 typing_src = Ok typing_gen) by (vm_compute; reflexivity).
  split; [exact B|]. split; [reflexivity|]. split; [constructor|]. split; [exact typing_rest|].
  do 4 (split; [split; reflexivity|]). split; [constructor|]. split; [reflexivity|]. split; [exact typing_layer_key|].
  split; [repeat constructor|]. split.
  - refine (C73_eight_presses_fit _ _ _ _ _ _ 2 typing_src 16 typing_gen typing_writes typing_sound typing_lo_ok _ B); [| | |cbn; lia].
    + intros i Hi. vm_compute in Hi. repeat (destruct Hi as [Hi|Hi]; [try discriminate Hi; injection Hi as <-; cbn; lia|]). destruct Hi.
    + intros ko Hi. vm_compute in Hi. repeat (destruct Hi as [Hi|Hi]; [discriminate Hi|]). destruct Hi.
    + vm_compute. lia.
  - split; [vm_compute; discriminate|]. unfold written_reports. vm_compute. repeat split; reflexivity.
Qed.

Print Assumptions C73_keyboard_of_the_layout.
Print Assumptions C73_reports_what_is_written.
Print Assumptions C73_eight_presses_fit.
Print Assumptions C73_unique.
Print Assumptions C73_one_shot_modifier.
Print Assumptions C73_one_shot_held.
Print Assumptions C73_caps_word.
Print Assumptions C73_one_shot_layer.
