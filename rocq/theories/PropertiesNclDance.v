(** C81: tap-dance keys of a keymap.ncl, and what becomes of them when they are tapped. *)
From Coq Require Import String.
From Verif Require Import BaseFacts Output Types Scheduler SpecScheduler Keymap SimpleKeys Sticky TapDance TapHold Layered Automation Chorded
  Composite Samples SpecKeymap KeymapHist KeymapInv KeymapQueue KeymapApi CtxFacts SpecPlain PlainFacts SpecLayer SpecBoard BoardFacts SpecTapBoard TapBoardFacts TapBoardTotal TapBoardLive SpecDanceBoard DanceBoardFacts DanceBoardLive
  Ncl NclCodegen SpecNcl NclLayoutFacts SpecNclBoard NclBoardFacts SpecNclKeys NclKeyFacts NclDanceFacts SpecTapping TappingFacts
  PropertiesDecide PropertiesTapBoard PropertiesNcl PropertiesDanceBoard.
Import List.
Local Open Scope string_scope.
Local Open Scope N_scope.
Local Open Scope list_scope.

Lemma means_ext d on on' df r m : (forall l, on l = on' l) -> means d on df r m -> means d on' df r m.
Proof.
  intros E. induction 1 as [| | |i k r m Hk Ha _ IH]; try (now constructor).
  eapply means_layered; [exact Hk| |exact IH]. eapply acts_as_ext; [|exact Ha]. intros l. cbn. now rewrite E.
Qed.
Lemma dances_ext d on on' df r c : (forall l, on l = on' l) -> dances d on df r c -> dances d on' df r c.
Proof.
  intros E. induction 1 as [q c p Hq|i k r c Hk Ha _ IH]; [now eapply dances_key; exact Hq|].
  eapply dances_layered; [exact Hk| |exact IH]. eapply acts_as_ext; [|exact Ha]. intros l. cbn. now rewrite E.
Qed.
Lemma tapping_plain i again : forall held, Forall (fun o => plain_op o = true) (tapping i held again) /\ Forall (fun o => match o with OpSetMs _ => false | _ => true end <> false) (tapping i held again).
Proof.
  assert (R : forall (P : op -> Prop) n, P OpTick -> Forall P (repeat OpTick n)).
  { intros P n HP. apply Forall_forall. intros o Ho. apply repeat_spec in Ho. now subst. }
  induction again as [|[up down] rest IH]; intros held; cbn [tapping].
  - split; (constructor; [try reflexivity; discriminate|]); rewrite app_nil_r; apply R; [reflexivity|discriminate].
  - destruct (IH down) as (A & B). split; (constructor; [try reflexivity; discriminate|]); apply Forall_app; (split; [apply R; try reflexivity; discriminate|]);
      (constructor; [try reflexivity; discriminate|]); apply Forall_app; (split; [apply R; try reflexivity; discriminate|]); assumption.
Qed.
Lemma pace_after ops more : one_pace ops -> Forall (fun o => match o with OpSetMs _ => false | _ => true end <> false) more -> one_pace (ops ++ more).
Proof.
  intros Hp Hm a ms z E. assert (X : (exists z', ops = a ++ OpSetMs ms :: z') \/ In (OpSetMs ms) more).
  { clear -E. revert a E. induction ops as [|o ops IH]; intros a E.
    - right. cbn in E. rewrite E. apply in_elt.
    - destruct a as [|b a]; cbn in E; [injection E as -> _; left; eexists; reflexivity|]. injection E as -> E.
      destruct (IH a E) as [(z' & ->)|X]; [left; exists z'; reflexivity|now right]. }
  destruct X as [(z' & ->)|X]; [now apply (Hp a ms z')|]. rewrite Forall_forall in Hm. now elim (Hm _ X).
Qed.
Lemma idle_busy n refs d T ops s : prompt_run n refs d T (ops ++ [OpTick]) s -> da_busy s = false.
Proof.
  intros H. inversion H as [E|ops' s0 o up s' _ Hc _ E]; [destruct ops; discriminate E|]. apply app_inj_tail in E as (_ & ->). subst s'.
  inversion Hc as [| |s1 up' s2 _ Hp| |]; subst. inversion Hp as [|dn s' _ _ Hb]; subst; [reflexivity|]. inversion Hb; subst. reflexivity.
Qed.

(** C81: the keymap is settled after a tick, other keys and layers may be held; a tap-dance
    key is then pressed, tapped as often as [again] says, each press less than the timeout
    after the one before, and then held.  Nothing is added to the report while the
    number of taps may still grow; once the last press is as old as the timeout, or there is
    no further choice, the key acts as its choice for the number of taps. *)
Theorem C81_tapped :
  forall refs d pos dbg height fuel setup before cf k0 k1 k i r choices held again, position_ok pos ->
  Forall (dance_board_key (cf_layer_count cf) d height) refs -> (height + 8 <= fuel)%nat ->
  let conf := cconf refs d pos dbg in
  let timeout := tdc_timeout (cf_tap_dance cf) in
  let ms := ck_ms (clocks_run before) in
  let on := is_on (cx_layered (km_ctx k1)) in let default := lyx_default (cx_layered (km_ctx k1)) in
  registers_two setup -> Forall (fun o => plain_op o = true) before -> one_pace before -> 0 < timeout ->
  run_ops conf fuel setup (km_new (ctx_from_config cf)) = Ok k0 ->
  run_ops conf fuel (before ++ [OpTick]) k0 = Ok k1 -> km_has_scheduled_events k1 = false -> has_pressed k1 i = false ->
  nth_error refs (N.to_nat i) = Some r -> dances d on default r choices ->
  in_time timeout ms held again -> (length again < length choices)%nat ->
  run_ops conf fuel (tapping i held again) k1 = Ok k ->
  exists out, km_pressed_keys conf k1 = Ok out /\
  (N.of_nat (last_held held again) * ms < timeout -> again = [] \/ (length again + 1 < length choices)%nat ->
     km_pressed_keys conf k = Ok out /\ (forall l, is_on (cx_layered (km_ctx k)) l = on l) /\ km_calls k = km_calls k1) /\
  (forall choice m, nth_error choices (length again) = Some choice -> means d on default choice m ->
     timeout <= N.of_nat (last_held held again) * ms \/ (again <> [] /\ length again + 1 = length choices)%nat ->
     km_pressed_keys conf k = Ok (out ++ match m with Sends ko => [ko] | _ => [] end) /\
     (forall l, is_on (cx_layered (km_ctx k)) l = match at_press m with Some e => layer_set_step (N.of_nat (cf_layer_count cf)) e on l | None => on l end) /\
     km_calls k = km_calls k1 ++ Base.filter_map (registered setup) (asks m)).
Proof.
  intros refs d pos dbg height fuel setup before cf k0 k1 k i r choices held again Hpos Hrefs Hf conf T ms on df Hset Hb Hp HT H0 H1 Hev Hup Hr Hd Hin Hlen H.
  destruct (tapping_plain i again held) as (Tp & Ts).
  assert (Hb1 : Forall (fun o => plain_op o = true) (before ++ [OpTick])) by (apply Forall_app; split; [exact Hb|repeat constructor]).
  assert (Hp1 : one_pace (before ++ [OpTick])) by (apply pace_after; [exact Hp|repeat constructor; discriminate]).
  assert (H2 : run_ops conf fuel ((before ++ [OpTick]) ++ tapping i held again) k0 = Ok k) by (rewrite run_ops_app, H1; exact H).
  assert (Hb2 : Forall (fun o => plain_op o = true) ((before ++ [OpTick]) ++ tapping i held again)) by (apply Forall_app; now split).
  assert (Hp2 : one_pace ((before ++ [OpTick]) ++ tapping i held again)) by (apply pace_after; assumption).
  destruct (C76_on_time _ _ _ _ _ _ _ _ _ _ _ Hpos Hrefs Hf Hset Hb2 Hp2 HT H0 H2) as (s2 & R2 & V2).
  destruct (setup_total conf fuel setup Hset (ctx_from_config cf)) as (L & EL). rewrite H0 in EL. injection EL as ->.
  pose proof (registered_same _ _ _ _ _ _ _ _ H0) as Hreg.
  assert (Hx : exists s1, prompt_run (cf_layer_count cf) refs d T (before ++ [OpTick]) s1 /\ dcore d (cf_layer_count cf) height L s1 k1).
  { unfold conf in H1. replace fuel with (S (S (S (S (S (S (S (S (height + (fuel - height - 8)))))))))) in H1 by lia.
    exact (run_prompt refs d pos dbg cf height (fuel - height - 8) Hrefs Hpos L _ k1 Hb1 Hp1 HT H1). }
  destruct Hx as (s1 & R1 & C1). pose proof (core_shows refs d pos dbg _ _ _ _ _ _ Hreg C1) as (V1 & Von & Vdf & Vc & Vq & Vu).
  assert (Hall : run_ops conf fuel (setup ++ before ++ [OpTick]) (km_new (ctx_from_config cf)) = Ok k1) by (rewrite run_ops_app, H0; exact H1).
  assert (Dn : da_dance s1 = None).
  { destruct (SpecDecide.undecided k1) as [[j p]|] eqn:Eu; [|destruct (da_dance s1); [discriminate Vu|reflexivity]].
    destruct (C52_asks_to_be_ticked _ _ _ _ _ _ _ _ _ Hpos Hall Eu) as (X & _). congruence. }
  assert (Wn : da_waiting s1 = []).
  { rewrite <- Vq. unfold km_has_scheduled_events in Hev. destruct (km_inq k1); [reflexivity|]. rewrite orb_true_r in Hev. discriminate. }
  pose proof (idle_busy _ _ _ _ _ _ R1) as Bz. destruct C1 as (_ & _ & _ & _ & _ & X). rewrite Dn in X. destruct X as ((_ & _ & Hh & _) & _).
  unfold has_pressed in Hup. rewrite (has_held _ _ _ _ _ Hh) in Hup.
  destruct s1 as [B dn w bz calls]. cbn [da_dance da_waiting da_busy da_board da_calls] in *. clear Vq; subst dn w bz.
  unfold on, df in Hd. rewrite Vdf in Hd. apply (dances_ext _ _ _ _ _ _ Von) in Hd.
  pose proof (start (cf_layer_count cf) refs d T B calls i r choices ltac:(assumption) ltac:(assumption) ltac:(assumption) ltac:(assumption) (before ++ [OpTick]) R1) as S1.
  assert (Ems : ck_ms (clocks_run ((before ++ [OpTick]) ++ [OpInput (Press i)])) = ms) by (rewrite ms_input, ms_tick; reflexivity).
  assert (Eops : ((before ++ [OpTick]) ++ [OpInput (Press i)]) ++ tl (tapping i held again) = (before ++ [OpTick]) ++ tapping i held again) by (rewrite (tapping_tail i held again), <- app_assoc; reflexivity).
  destruct V2 as (V2 & V2on & V2df & V2c & _).
  assert (Key : forall m, (N.of_nat (last_held held again) * ms < T -> again = [] \/ (length again + 1 < length choices)%nat ->
      exists seen due busy, prompt_run (cf_layer_count cf) refs d T ((before ++ [OpTick]) ++ tapping i held again) (st B calls i choices seen due busy)) /\
    (forall q, nth_error choices (length again) = Some q -> means d (bd_on B) (bd_default B) q m ->
      T <= N.of_nat (last_held held again) * ms \/ (again <> [] /\ length again + 1 = length choices)%nat ->
      exists s, prompt_run (cf_layer_count cf) refs d T ((before ++ [OpTick]) ++ tapping i held again) s /\ over (cf_layer_count cf) B calls i m s)).
  { intros m. pose proof (taps_run (cf_layer_count cf) refs d T B calls i choices HT m again ((before ++ [OpTick]) ++ [OpInput (Press i)]) 0%nat held) as K. rewrite Eops, Ems in K. cbn [Nat.add] in K.
    apply K; [unfold after_press; rewrite now_input; exact S1|exact Hin|exact Hlen]. }
  exists (board_output B). split; [exact V1|]. split.
  - intros Ht Hc. destruct (Key (Sends (ko_from_key_code 0))) as (K & _). destruct (K Ht Hc) as (seen & due & busy & K1).
    destruct (C76_one_outcome _ _ _ _ _ _ _ R2 K1) as ((D1 & D2 & D3) & _ & _ & _ & D4). cbn [st da_board da_calls] in *.
    split; [unfold conf; rewrite V2; unfold board_output; now rewrite D1|]. split; [intros l; rewrite V2on, D2; symmetry; apply Von|]. now rewrite V2c, Vc, D4.
  - intros q m Hq Hm Hc. destruct (Key m) as (_ & K). assert (Hm' : means d (bd_on B) (bd_default B) q m) by (rewrite <- Vdf; exact (means_ext _ _ _ _ _ _ Von Hm)).
    destruct (K q Hq Hm' Hc) as (s & K1 & (O1 & _ & O2 & _)).
    destruct (C76_one_outcome _ _ _ _ _ _ _ R2 K1) as ((D1 & D2 & D3) & _ & _ & _ & D4). rewrite O1 in D1, D2.
    assert (Ed : bd_down (B' (cf_layer_count cf) B i m) = bd_down B ++ [inl (i, m)]) by (unfold B'; destruct (at_press m); reflexivity).
    split; [|split].
    + unfold conf; rewrite V2. unfold board_output. rewrite D1, Ed, filter_map_app. f_equal. f_equal. destruct m; reflexivity.
    + intros l. rewrite V2on, D2. unfold B'. destruct (at_press m) as [e|]; cbn [switch bd_on set_down]; [|symmetry; apply Von].
      unfold layer_set_step. destruct e; rewrite ?Von; reflexivity.
    + rewrite V2c, Vc, D4, O2. apply filter_map_app.
Qed.

(** C81: for a layout of ordinary keys, callback keys, layer keys and tap-dance keys of these,
    each reference of the generated keymap is, under any layers, a tap-dance key exactly if
    the layout has one at its position, with choices that mean what its keys mean; so the
    keyboard of C76 is that of the layout. *)
Theorem C81_keyboard_of_the_layout : forall n s lo f g,
  writes n s lo -> sound lo -> layout_of (dance_key (length (lo_uppers lo))) lo -> (4 * (n + 2) <= f)%nat -> build f s = Ok g ->
  let d := gn_data g in
  cf_layer_count (gn_config g) = length (lo_uppers lo) /\ length (gn_refs g) = length (lo_base lo) /\
  given (op_dance_timeout (ks_options s)) 200 (tdc_timeout (cf_tap_dance (gn_config g))) /\
  Forall (dance_board_key (cf_layer_count (gn_config g)) d 2) (gn_refs g) /\
  forall i r on default, nth_error (gn_refs g) i = Some r ->
    let same choices ks := Forall2 (fun k choice => forall m, means d on default choice m <-> key_means k m) ks choices in
    (forall m, means d on default r m <-> exists k, SpecNclBoard.shows lo i on default k /\ key_means k m) /\
    (forall choices, dances d on default r choices ->
       exists k1 ks, SpecNclBoard.shows lo i on default (UTapDance k1 ks) /\ same choices (k1 :: ks)) /\
    (forall k1 ks, SpecNclBoard.shows lo i on default (UTapDance k1 ks) ->
       exists choices, dances d on default r choices /\ same choices (k1 :: ks)).
Proof.
  intros n s lo f g Hw Hs Hl Hf H d. destruct (build_sound n s lo f g Hw Hs Hf H) as (H1 & (_ & _ & _ & _ & H2 & _) & _ & H4 & H5).
  assert (Hc : cf_layer_count (gn_config g) = length (lo_uppers lo)).
  { eapply layout_count; [exact Hl| |exact H5]. intros k b ls [Hk|(k1 & ks & -> & Hk & _)]; [now apply simple_no_layers with (n := length (lo_uppers lo))|].
    cbn [parts]. intros [X|X]; [discriminate X|]. rewrite Forall_forall in Hk. apply in_app_or in X as [X|X].
    - revert X. apply simple_no_layers with (n := length (lo_uppers lo)). apply Hk. now left.
    - apply in_flat_map in X as (y & Hy & X). revert X. apply simple_no_layers with (n := length (lo_uppers lo)). apply Hk. now right. }
  assert (Hfit : forall k, In k (kd_layered d) -> length (lk_layered k) = length (lo_uppers lo)) by (intros k Hk; rewrite <- Hc; now apply H4).
  split; [exact Hc|]. split; [eapply key_refs_length; exact H1|]. split; [exact H2|]. rewrite Hc. split; [eapply refs_dance_board; eassumption|].
  intros i r on df Hi same.
  assert (M : forall ks choices, choices_are (is_macro (auc_instructions (cf_automation (gn_config g)))) d lo ks choices -> same choices ks).
  { intros ks choices X. unfold same, choices_are in *. induction X as [|k q ks' ch (((m0 & Hk) & _) & Hd) X IH]; constructor; [intros m; eapply leaf_means; eassumption|exact IH]. }
  split; [|split].
  - intros m. eapply dance_means; eassumption.
  - intros choices Hd. destruct (dances_shows _ d lo _ H1 Hl Hfit i r on df choices Hi Hd) as (k1 & ks & X & Y). eauto.
  - intros k1 ks Hd. destruct (shows_dances _ d lo _ H1 Hl Hfit i r on df k1 ks Hi Hd) as (ch & X & Y). eauto.
Qed.

(** C81, end to end: build the firmware of a keymap.ncl and, when it is settled after a
    tick, tap a key that is a tap-dance key on the active layers.  It acts as the key that
    keymap.ncl has for the number of taps. *)
Theorem C81_acts_as_written : forall n s lo f g pos dbg fuel setup before k0 k1 k i key1 keys held again timeout,
  position_ok pos ->
  writes n s lo -> sound lo -> layout_of (dance_key (length (lo_uppers lo))) lo -> (4 * (n + 2) <= f)%nat -> build f s = Ok g ->
  given (op_dance_timeout (ks_options s)) 200 timeout -> 0 < timeout -> (10 <= fuel)%nat ->
  let conf := cconf (gn_refs g) (gn_data g) pos dbg in
  let ms := ck_ms (clocks_run before) in
  let on := is_on (cx_layered (km_ctx k1)) in let default := lyx_default (cx_layered (km_ctx k1)) in
  registers_two setup -> Forall (fun o => plain_op o = true) before -> one_pace before ->
  run_ops conf fuel setup (km_new (ctx_from_config (gn_config g))) = Ok k0 ->
  run_ops conf fuel (before ++ [OpTick]) k0 = Ok k1 -> km_has_scheduled_events k1 = false -> has_pressed k1 i = false ->
  (N.to_nat i < length (lo_base lo))%nat -> SpecNclBoard.shows lo (N.to_nat i) on default (UTapDance key1 keys) ->
  in_time timeout ms held again -> (length again <= length keys)%nat ->
  run_ops conf fuel (tapping i held again) k1 = Ok k ->
  exists out, km_pressed_keys conf k1 = Ok out /\
  (N.of_nat (last_held held again) * ms < timeout -> again = [] \/ (length again < length keys)%nat ->
     km_pressed_keys conf k = Ok out /\ (forall l, is_on (cx_layered (km_ctx k)) l = on l) /\ km_calls k = km_calls k1) /\
  (forall key m, nth_error (key1 :: keys) (length again) = Some key -> key_means key m ->
     timeout <= N.of_nat (last_held held again) * ms \/ (again <> [] /\ length again = length keys) ->
     km_pressed_keys conf k = Ok (out ++ match m with Sends ko => [ko] | _ => [] end) /\
     (forall l, is_on (cx_layered (km_ctx k)) l = match at_press m with Some e => layer_set_step (N.of_nat (length (lo_uppers lo))) e on l | None => on l end) /\
     km_calls k = km_calls k1 ++ Base.filter_map (registered setup) (asks m)).
Proof.
  intros n s lo f g pos dbg fuel setup before k0 k1 k i key1 keys held again T Hpos Hw Hs Hl Hf Hg HT HT0 Hfuel conf ms on df Hset Hb Hp H0 H1 Hev Hup Hi Hsh Hin Hlen H.
  destruct (C81_keyboard_of_the_layout n s lo f g Hw Hs Hl Hf Hg) as (Hc & Hn & Hd & Hr & Hk).
  assert (T = tdc_timeout (cf_tap_dance (gn_config g))) as ->. { unfold given in *. destruct (op_dance_timeout (ks_options s)); congruence. }
  rewrite <- Hn in Hi. apply nth_error_Some in Hi. destruct (nth_error (gn_refs g) (N.to_nat i)) as [r|] eqn:Er; [clear Hi|congruence].
  destruct (Hk _ _ on df Er) as (_ & _ & X). destruct (X key1 keys Hsh) as (choices & Hdan & Hsame). clear X.
  assert (Hle : length (key1 :: keys) = length choices) by (clear -Hsame; induction Hsame; cbn; congruence). cbn [length] in Hle.
  destruct (C81_tapped _ _ _ dbg 2%nat fuel setup before (gn_config g) k0 k1 k i r choices held again Hpos Hr Hfuel Hset Hb Hp HT0 H0 H1 Hev Hup Er Hdan Hin ltac:(lia) H) as (out & A & B & C).
  exists out. split; [exact A|]. split.
  - intros Ht Ha. apply B; [exact Ht|]. destruct Ha; [now left|right; lia].
  - intros key m Hkey Hm Ht. assert (Y : exists q, nth_error choices (length again) = Some q /\ means (gn_data g) on df q m).
    { clear -Hsame Hkey Hm. revert Hkey. generalize (length again). induction Hsame as [|x q l l' E Hs IH]; intros [|c] Hkey; try discriminate Hkey; [|now apply IH].
      injection Hkey as ->. exists q. split; [reflexivity|now apply E]. }
    destruct Y as (q & Hq & Hm'). rewrite <- Hc. apply (C q m Hq Hm'). destruct Ht as [Ht|(Ha & Ht)]; [now left|right]. split; [exact Ha|lia].
Qed.

(** Two keys and two layers: a key for layer 1, and the letter X, which is on layer 1 a
    tap-dance key with the keys A, B and the callback of a reset; the timeout is 100 ms. *)
Definition abc : val := VRec [("key_code", VNum 4); ("tap_dances", VArr [key 5; VRec [("keymap_callback", VStr "Reset")]])].
Definition abc_key : ukey macro := UTapDance (UCode 4) [UCode 5; UCallback CbReset].
Definition abc_src : keymap_src :=
  mkKeymapSrc [] [LKeys [VRec [("layer_modifier", VRec [("hold", VNum 1)])]; key 27]; LKeys [VNull; abc]] []
    (mkOptions None None None None (Some 100) None None None).
Definition abc_layout : layout := mkLayout [ULayer (LmHold 1); UCode 27] [[None; Some abc_key]] [].
Lemma abc_written : writes 2 abc_src abc_layout.
Proof.
  eexists _, _, _, [_]. split; [reflexivity|]. split; [apply lv_keys|]. split; [|split; [|split]].
  - constructor; [apply layer_key_written|]. constructor; [now apply key_written|constructor].
  - constructor; [apply lv_keys|constructor].
  - constructor; [|constructor]. constructor; [constructor|]. constructor; [|constructor]. constructor.
    apply (w_record macro_written 1 _ [("key_code", VNum 4)] (UCode 4) None (Some ([key 5; VRec [("keymap_callback", VStr "Reset")]], [UCode 5; UCallback CbReset])) None); try discriminate.
    + constructor. lia.
    + intros vs ks E. injection E as <- <-. constructor; [now apply key_written|]. constructor; [|constructor].
      apply (w_record macro_written 0 _ [("keymap_callback", callback_value CbReset)] (UCallback CbReset) None None None); try discriminate; [now constructor|apply Permutation.Permutation_refl].
    + apply Permutation.Permutation_refl.
  - constructor.
Qed.
Lemma abc_sound : sound abc_layout.
Proof.
  split; [discriminate|]. split; [repeat constructor|]. split; [constructor|]. split; [|split; [|split; [constructor|split]]].
  - repeat apply Forall_cons; try apply Forall_nil; apply cf_leaf; reflexivity.
  - repeat apply Forall_cons; try apply Forall_nil; intros k E; try discriminate E; injection E as <-.
    apply cf_dance; [apply cf_leaf; reflexivity|]. repeat apply Forall_cons; try apply Forall_nil; apply cf_leaf; reflexivity.
  - intros i b. do 2 (destruct i as [|i]; [intros E; injection E as <-; cbn; auto; discriminate|]). destruct i; discriminate.
  - assert (F : macro_free abc_key) by (apply mf_dance; repeat constructor).
    repeat apply Forall_cons; try apply Forall_nil; intros p H; right; cbn in H; repeat (destruct H as [<-|H]; [first [exact F|constructor]|]); destruct H.
Qed.
Lemma abc_dances : layout_of (dance_key 1) abc_layout.
Proof.
  split; [reflexivity|]. split; [|split].
  - repeat apply Forall_cons; try apply Forall_nil; left; (split; [eexists; constructor|]); intros l E; try discriminate E.
    injection E as <-. cbn. lia.
  - repeat apply Forall_cons; try apply Forall_nil; intros k E; try discriminate E. injection E as <-. right. eexists _, _. split; [reflexivity|]. split; [|cbn; lia].
    repeat apply Forall_cons; try apply Forall_nil; (split; [eexists; constructor|]); intros l E; discriminate E.
  - right. exists 1%nat. split; [cbn; lia|reflexivity].
Qed.
Definition abc_before : list op := [OpInput (Press 0); OpTick].
Definition abc_does (held : nat) (again : list (nat * nat)) (out : list key_output) (called : list callback_fn) : Prop :=
  returns (build 16 abc_src) (fun g => let conf := cconf (gn_refs g) (gn_data g) bs_std false in
    returns (run_ops conf 10 [OpSetCallback CbReset 7] (km_new (ctx_from_config (gn_config g)))) (fun k0 =>
      returns (run_ops conf 10 (abc_before ++ [OpTick]) k0) (fun k1 =>
         km_has_scheduled_events k1 = false /\ has_pressed k1 1 = false /\ is_on (cx_layered (km_ctx k1)) 1 = true
         /\ returns (run_ops conf 10 (tapping 1 held again) k1) (fun k => km_pressed_keys conf k = Ok out /\ km_calls k = called)))).
Example C81_example :
  writes 2 abc_src abc_layout /\ sound abc_layout /\ layout_of (dance_key 1) abc_layout
  /\ registers_two [OpSetCallback CbReset 7] /\ Forall (fun o => plain_op o = true) abc_before /\ one_pace abc_before
  /\ in_time 100 1 50 [(49, 3); (20, 1)]%nat
  /\ abc_does 99 [] [] [] /\ abc_does 100 [] [ko_from_key_code 4] []
  /\ abc_does 50 [(49, 99)]%nat [] [] /\ abc_does 50 [(49, 100)]%nat [ko_from_key_code 5] []
  /\ abc_does 50 [(49, 3); (20, 1)]%nat [] [7].
Proof.
  split; [exact abc_written|]. split; [exact abc_sound|]. split; [exact abc_dances|].
  split; [exists CbReset, CbReset; constructor; [right; eauto|constructor]|]. split; [repeat constructor|].
  split; [apply steady_pace; repeat (constructor; [discriminate|]); constructor|]. split; [cbn; repeat split; lia|].
  do 4 (split; [vm_compute; repeat split; reflexivity|]). vm_compute. repeat split; reflexivity.
Qed.

Print Assumptions C81_tapped.
Print Assumptions C81_keyboard_of_the_layout.
Print Assumptions C81_acts_as_written.
