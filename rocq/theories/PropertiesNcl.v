(** C63-C65: what is written in keymap.ncl is what the firmware is built with. *)
From Coq Require Import String Ascii Permutation.
From Verif Require Import BaseFacts Output Types Scheduler Keymap SimpleKeys TapHold TapDance Sticky Layered Automation Chorded
  Composite SpecKeymap KeymapQueue KeymapApi SpecPlain PlainFacts SpecLayer SpecBoard BoardFacts PropertiesBoard
  Ncl NclCodegen SpecNcl NclLayoutFacts SpecNclBoard NclBoardFacts.
Import List.
Local Open Scope string_scope.
Local Open Scope N_scope.
Local Open Scope list_scope.

(** C63: if the build of a keymap.ncl succeeds, the generated keymap has one
    reference for each position of the layout, and each means the key that the
    layers and chords put at its position; macros are instructions of the
    generated configuration. *)
Theorem C63_means_what_is_written : forall n s lo f g,
  writes n s lo -> sound lo -> (4 * (n + 2) <= f)%nat -> build f s = Ok g ->
  Forall2 (denotes (is_macro (auc_instructions (cf_automation (gn_config g)))) (gn_data g)) (positions lo) (gn_refs g).
Proof. intros n s lo f g Hw Hs Hf H. now destruct (build_sound n s lo f g Hw Hs Hf H). Qed.

(** C63: the build succeeds unless a table, the chords, the instructions or an
    option outgrow the number of bits there are for them. *)
Theorem C63_builds : forall n s lo f,
  writes n s lo -> sound lo -> (4 * (n + 2) <= f)%nat ->
  room (positions lo) -> chords_in_range lo -> options_in_range (ks_options s) ->
  exists g, build f s = Ok g.
Proof. exact build_total. Qed.

(** C64: the configuration of the generated keymap is what keymap.ncl says, with
    the documented defaults, and lists its chords. *)
Theorem C64_configuration : forall n s lo f g,
  writes n s lo -> sound lo -> (4 * (n + 2) <= f)%nat -> build f s = Ok g ->
  configured (ks_options s) (map fst (lo_chords lo)) (gn_config g).
Proof. intros n s lo f g Hw Hs Hf H. now destruct (build_sound n s lo f g Hw Hs Hf H) as [_ [H1 _]]. Qed.

(** C64: the generated sizes suffice for the chords; every key with layers has
    an entry for each layer of the keyboard, and the keyboard has as many layers as
    the key with most layers. *)
Theorem C64_sizes : forall n s lo f g,
  writes n s lo -> sound lo -> (4 * (n + 2) <= f)%nat -> build f s = Ok g ->
  chords_fit (map fst (lo_chords lo)) (gn_config g) /\
  layers_fit (gn_data g) (gn_config g) /\
  layers_counted (positions lo) (gn_config g).
Proof. intros n s lo f g Hw Hs Hf H. now destruct (build_sound n s lo f g Hw Hs Hf H) as [_ [_ H1]]. Qed.

(** C65: for a layout of ordinary keys, callback keys and layer keys, the
    keyboard of C62 with the generated keymap is the keyboard of the layout. *)
Theorem C65_keyboard_of_the_layout : forall n s lo f g,
  writes n s lo -> sound lo -> simple_layout lo -> (4 * (n + 2) <= f)%nat -> build f s = Ok g ->
  cf_layer_count (gn_config g) = length (lo_uppers lo) /\
  length (gn_refs g) = length (lo_base lo) /\
  Forall (board_key (cf_layer_count (gn_config g)) (gn_data g) 1) (gn_refs g) /\
  (forall h b, board_run (cf_layer_count (gn_config g)) (gn_refs g) (gn_data g) h b <-> layout_run lo h b) /\
  (forall h cs, board_calls (cf_layer_count (gn_config g)) (gn_refs g) (gn_data g) h cs -> layout_calls lo h cs).
Proof.
  intros n s lo f g Hw Hs Hsl Hf H.
  destruct (build_sound n s lo f g Hw Hs Hf H) as [H1 [_ [_ [H2 H3]]]].
  pose proof (simple_count _ _ Hsl H3) as Hc. rewrite Hc.
  assert (Hfit : forall k, In k (kd_layered (gn_data g)) -> length (lk_layered k) = length (lo_uppers lo))
    by (intros k Hk; rewrite <- Hc; now apply H2).
  split; [reflexivity|]. split; [|split; [|split]].
  - pose proof (NclMacroFacts.flen _ _ _ _ _ H1) as E. rewrite <- E. unfold positions. generalize 0%nat. generalize (lo_base lo).
    induction l as [|b bs IH]; intros m; cbn; [reflexivity|]. now rewrite IH.
  - apply Forall_forall. intros r Hr. eapply ref_board; eassumption.
  - intros h b. eapply board_layout; eassumption.
  - intros h cs. eapply board_layout_calls; eassumption.
Qed.

(** C65, end to end: build the firmware of a keymap.ncl, press and release keys in
    any order and at any pace, with at most 16 keys down at a time, wait 32 ticks,
    and the keyboard reports exactly what the layers of keymap.ncl say is down, and
    has called the function registered for each callback key that was pressed. *)
Theorem C65_reports_what_is_written : forall n s lo f g pos dbg fuel setup ops,
  writes n s lo -> sound lo -> simple_layout lo -> (4 * (n + 2) <= f)%nat -> build f s = Ok g ->
  N.of_nat (length (lo_base lo)) <= 65535 -> (5 <= fuel)%nat ->
  registers_two setup -> Forall (fun o => plain_op o = true) ops -> fits (length (lo_base lo)) 0 (accepted ops) ->
  ck_now (clocks_run ops) + 32 * ck_ms (clocks_run ops) <= u32_max ->
  exists k b cs,
    run_ops (cconf (gn_refs g) (gn_data g) pos dbg) fuel (setup ++ ops ++ repeat OpTick 32) (km_new (ctx_from_config (gn_config g))) = Ok k
  /\ layout_run lo (accepted ops) b
  /\ km_boot_keyboard_report (cconf (gn_refs g) (gn_data g) pos dbg) k = Ok (as_hid_boot_keyboard_report (board_output b))
  /\ layout_calls lo (accepted ops) cs
  /\ km_calls k = Base.filter_map (registered setup) cs.
Proof.
  intros n s lo f g pos dbg fuel setup ops Hw Hs Hsl Hf H Hl Hfu Hset Ho Hfit Hc.
  destruct (C65_keyboard_of_the_layout n s lo f g Hw Hs Hsl Hf H) as [_ [H2 [H3 [H4 H4']]]].
  destruct (C64_sizes n s lo f g Hw Hs Hf H) as [[_ [_ [_ H5]]] _].
  destruct (C62_reports_what_the_layers_say (gn_refs g) (gn_data g) pos dbg 1 fuel setup ops (gn_config g) H3) as [k [b [cs [E1 [E2 [E3 [E4 E5]]]]]]];
    try assumption.
  - now rewrite H2.
  - rewrite H2, H5; [exact Hfit|]. destruct Hsl as [-> _]. reflexivity.
  - exists k, b, cs. split; [exact E1|]. split; [now apply H4|]. split; [exact E3|]. split; [now apply H4'|exact E5].
Qed.
(** C65: the layout leaves no choice what is down after a history of inputs. *)
Theorem C65_unique : forall n s lo f g h b1 b2,
  writes n s lo -> sound lo -> simple_layout lo -> (4 * (n + 2) <= f)%nat -> build f s = Ok g ->
  layout_run lo h b1 -> layout_run lo h b2 -> same_board b1 b2.
Proof.
  intros n s lo f g h b1 b2 Hw Hs Hsl Hf H H1 H2.
  destruct (C65_keyboard_of_the_layout n s lo f g Hw Hs Hsl Hf H) as [_ [_ [_ [H4 _]]]].
  apply H4 in H1, H2. eapply C62_unique; eassumption.
Qed.

(** *** An example

    Two layers of names, a tap-hold key, a chord, a macro and an option. *)
Definition key (c : N) : val := VRec [("key_code", VNum c)].
Definition tap_7 : val := VRec [("Tap", VRec [("key_code", VRec [("Keyboard", VNum 7)])])].
Definition sample_names : list (string * val) :=
  [("A", key 4); ("B", key 5); ("TTTT", VNull);
   ("H", VRec [("hold", VRec [("modifiers", VRec [("left_shift", VBool true)])]); ("key_code", VNum 6)]);
   ("FN", VRec [("layer_modifier", VRec [("hold", VNum 1)])]);
   ("M", VRec [("automation_instructions", VRec [("on_press", VArr [tap_7; VStr "NoOp"])])])].
Definition no_options : options := mkOptions None None None None None None None None.
Definition sample_src : keymap_src :=
  mkKeymapSrc sample_names [LString " A  H FN M"; LString "B TTTT TTTT TTTT"] [mkChordSrc [1; 2] (key 41)]
    (mkOptions None None None None None (Some 150) None None).
Definition k_tap_hold : ukey macro := UTapHold (UCode 6) (UMods 2).
Definition k_macro : ukey macro := UMacro (mkMacro [InTap (ko_from_usage (Keyboard 7)); InNoOp] [] []).
Definition sample_layout : layout :=
  mkLayout [UCode 4; k_tap_hold; ULayer (LmHold 1); k_macro] [[Some (UCode 5); None; None; None]] [([1; 2], UCode 41)].

Lemma key_written : forall M (mw : val -> M -> Prop) n c, c <= 255 -> written mw (S n) (key c) (UCode c).
Proof.
  intros M mw n c H. apply (w_record mw n [("key_code", VNum c)] [("key_code", VNum c)] (UCode c) None None None);
    try discriminate; [now constructor|apply Permutation_refl].
Qed.
Lemma shift_written : modifiers_written [("left_shift", VBool true)] 2.
Proof.
  split; [repeat constructor; intros []|]. split; [|split; [reflexivity|]].
  - intros f v [E|[]]. injection E as <- <-. split; [cbn; auto|eauto].
  - intros f i H. cbn in H. repeat (destruct H as [H|H]; [injection H as <- <-; cbn; intuition congruence|]). destruct H.
Qed.
Lemma tap_hold_written : forall n, written macro_written (S (S n))
  (VRec [("hold", VRec [("modifiers", VRec [("left_shift", VBool true)])]); ("key_code", VNum 6)]) k_tap_hold.
Proof.
  intros n.
  apply (w_record macro_written (S n) _ [("key_code", VNum 6)] (UCode 6)
           (Some (VRec [("modifiers", VRec [("left_shift", VBool true)])], UMods 2)) None None); try discriminate.
  - now constructor.
  - intros v k E. injection E as <- <-.
    apply (w_record macro_written n _ [("modifiers", VRec [("left_shift", VBool true)])] (UMods 2) None None None); try discriminate.
    + constructor. exact shift_written.
    + apply Permutation_refl.
  - apply perm_swap.
Qed.
Lemma layer_key_written : forall n, written macro_written (S n) (VRec [("layer_modifier", VRec [("hold", VNum 1)])]) (ULayer (LmHold 1)).
Proof.
  intros n. apply (w_record macro_written n _ [("layer_modifier", VRec [("hold", VNum 1)])] (ULayer (LmHold 1)) None None None); try discriminate.
  - constructor. constructor. reflexivity.
  - apply Permutation_refl.
Qed.
Lemma macro_key_written : forall n, written macro_written (S n)
  (VRec [("automation_instructions", VRec [("on_press", VArr [tap_7; VStr "NoOp"])])]) k_macro.
Proof.
  intros n.
  apply (w_record macro_written n _ [("automation_instructions", VRec [("on_press", VArr [tap_7; VStr "NoOp"])])] k_macro None None None);
    try discriminate.
  - constructor. eexists. split; [reflexivity|]. split; [repeat constructor; intros []|].
    split; [intros f [<-|[]]; cbn; auto|]. split; [|split; reflexivity].
    cbn. eexists. split; [reflexivity|]. constructor; [|constructor; [constructor|constructor]].
    constructor. apply (ow_usage (VRec [("Keyboard", VNum 7)]) (Keyboard 7)). now constructor.
  - apply Permutation_refl.
Qed.

Lemma sample_writes : writes 2 sample_src sample_layout.
Proof.
  exists (LString " A  H FN M"), [key 4; VRec [("hold", VRec [("modifiers", VRec [("left_shift", VBool true)])]); ("key_code", VNum 6)];
      VRec [("layer_modifier", VRec [("hold", VNum 1)])];
      VRec [("automation_instructions", VRec [("on_press", VArr [tap_7; VStr "NoOp"])])]],
    [LString "B TTTT TTTT TTTT"], [[key 5; VNull; VNull; VNull]].
  assert (B0 : blank "") by constructor.
  assert (B1 : blank " ") by (constructor; [cbn; auto 10|constructor]).
  assert (B2 : blank "  ") by (constructor; [cbn; auto 10|exact B1]).
  assert (T : forall w, existsb is_space (chars w) = false -> w <> "" -> word w).
  { intros w Hw Hne. split; [exact Hne|]. apply Forall_forall. intros c Hc Hwh. apply space_white in Hwh.
    assert (existsb is_space (chars w) = true) by (apply existsb_exists; eauto). congruence. }
  split; [reflexivity|]. split; [|split; [|split; [|split]]].
  - apply lv_string with (ws := ["A"; "H"; "FN"; "M"]); [|repeat constructor].
    apply (sp_more " " "A" "  " "H FN M"); [auto|apply T; [reflexivity|discriminate]|auto|discriminate|].
    apply (sp_more "" "H" " " "FN M"); [auto|apply T; [reflexivity|discriminate]|auto|discriminate|].
    apply (sp_more "" "FN" " " "M"); [auto|apply T; [reflexivity|discriminate]|auto|discriminate|].
    apply (sp_word "" "M"); auto. apply T; [reflexivity|discriminate].
  - repeat apply Forall2_cons; try apply Forall2_nil.
    + now apply key_written.
    + apply tap_hold_written.
    + apply layer_key_written.
    + apply macro_key_written.
  - constructor; [|constructor]. apply lv_string with (ws := ["B"; "TTTT"; "TTTT"; "TTTT"]); [|repeat constructor].
    apply (sp_more "" "B" " " "TTTT TTTT TTTT"); [auto|apply T; [reflexivity|discriminate]|auto|discriminate|].
    apply (sp_more "" "TTTT" " " "TTTT TTTT"); [auto|apply T; [reflexivity|discriminate]|auto|discriminate|].
    apply (sp_more "" "TTTT" " " "TTTT"); [auto|apply T; [reflexivity|discriminate]|auto|discriminate|].
    apply (sp_word "" "TTTT"); auto. apply T; [reflexivity|discriminate].
  - constructor; [|constructor]. constructor; [|repeat constructor]. constructor. now apply key_written.
  - constructor; [|constructor]. split; [reflexivity|]. now apply key_written.
Qed.
Lemma sample_sound : sound sample_layout.
Proof.
  split; [discriminate|]. split; [repeat constructor|]. split; [repeat constructor; discriminate|].
  split; [|split; [|split; [|split]]].
  - repeat apply Forall_cons; try apply Forall_nil; try (apply cf_leaf; reflexivity).
    apply cf_hold; apply cf_leaf; reflexivity.
  - repeat apply Forall_cons; try apply Forall_nil; intros k E; try discriminate E; injection E as <-; apply cf_leaf; reflexivity.
  - repeat apply Forall_cons; try apply Forall_nil; apply cf_leaf; reflexivity.
  - intros i b. do 4 (destruct i as [|i]; [intros E; injection E as <-; cbn; auto; discriminate|]). destruct i; discriminate.
  - repeat apply Forall_cons; try apply Forall_nil; intros p H; cbn in H;
      repeat (destruct H as [<-|H]; [right; repeat constructor|]); destruct H.
Qed.
Example C63_example :
  writes 2 sample_src sample_layout /\ sound sample_layout /\ room (positions sample_layout) /\
  chords_in_range sample_layout /\ options_in_range (ks_options sample_src) /\
  positions sample_layout =
    [ULayered (UCode 4) [Some (UCode 5)]; UChorded [(0, UCode 41)] k_tap_hold; UAux (ULayer (LmHold 1)); k_macro] /\
  returns (build 16 sample_src) (fun g =>
    gn_refs g = [RLayered (LyLayered 0); RChorded (ChChorded 0); RChorded (ChAuxiliary 0); RAutomation 0] /\
    gn_data g = mkData [mkAutoKey (mkExec 0 2) (mkExec 2 0) (mkExec 2 0)] []
                  [mkChordedKey [(0, RKeyboard (KbKeyCode 41))] (RTapHold 0)] [mkChordedAux (RLayered (LyModifier 0))] []
                  [LmHold 1] [mkLayeredKey (RKeyboard (KbKeyCode 4)) [Some (RKeyboard (KbKeyCode 5))]] [] []
                  [mkTapHold (RKeyboard (KbKeyCode 6)) (RKeyboard (KbModifiers 2))]).
Proof.
  split; [exact sample_writes|]. split; [exact sample_sound|]. split; [|split; [|split; [|split]]].
  - split; [intros []; vm_compute; lia|vm_compute; discriminate].
  - split; [cbn; lia|]. repeat constructor; discriminate.
  - intros n H. cbn in H. repeat (destruct H as [H|H]; [try discriminate H; injection H as <-; discriminate|]). destruct H.
  - reflexivity.
  - vm_compute. repeat split; reflexivity.
Qed.
Example C64_example :
  writes 2 sample_src sample_layout /\ sound sample_layout /\
  returns (build 16 sample_src) (fun g => gn_config g =
    mkConfig (mkAutoConfig [InTap (ko_from_usage (Keyboard 7)); InNoOp] 10) (mkChConfig 200 [[1; 2]] None 1 2 4)
      (mkStConfig OnModifiedKeyRelease) (mkTDConfig 200) (mkTHConfig 150 IrIgnore None) 1).
Proof. split; [exact sample_writes|]. split; [exact sample_sound|]. vm_compute. repeat split; reflexivity. Qed.

(** A keyboard of two keys and two layers: hold the second, press the first. *)
Definition small_src : keymap_src :=
  mkKeymapSrc sample_names [LKeys [key 4; VRec [("layer_modifier", VRec [("hold", VNum 1)])]]; LKeys [key 5; VNull]] [] no_options.
Definition small_layout : layout :=
  mkLayout [UCode 4; ULayer (LmHold 1)] [[Some (UCode 5); None]] [].
Lemma small_writes : writes 1 small_src small_layout.
Proof.
  eexists _, _, _, [_]. split; [reflexivity|]. split; [apply lv_keys|]. split; [|split; [|split]].
  - constructor; [now apply key_written|]. constructor; [apply layer_key_written|constructor].
  - constructor; [apply lv_keys|constructor].
  - constructor; [|constructor]. constructor; [|repeat constructor]. constructor. now apply key_written.
  - constructor.
Qed.
Lemma small_sound : sound small_layout.
Proof.
  split; [discriminate|]. split; [repeat constructor|]. split; [constructor|]. split; [|split; [|split; [constructor|split]]].
  - repeat apply Forall_cons; try apply Forall_nil; apply cf_leaf; reflexivity.
  - repeat apply Forall_cons; try apply Forall_nil; intros k E; try discriminate E; injection E as <-; apply cf_leaf; reflexivity.
  - intros i b. do 2 (destruct i as [|i]; [intros E; injection E as <-; cbn; auto; discriminate|]). destruct i; discriminate.
  - repeat apply Forall_cons; try apply Forall_nil; intros p H; cbn in H;
      repeat (destruct H as [<-|H]; [right; repeat constructor|]); destruct H.
Qed.
Lemma small_simple : simple_layout small_layout.
Proof.
  split; [reflexivity|]. split; [|split].
  - repeat apply Forall_cons; try apply Forall_nil; (split; [eexists; constructor|]); intros l E; try discriminate E.
    injection E as <-. cbn. lia.
  - repeat apply Forall_cons; try apply Forall_nil; intros k E; try discriminate E. injection E as <-.
    split; [eexists; constructor|discriminate].
  - right. exists 0%nat. split; [cbn; lia|reflexivity].
Qed.
Example C65_example :
  let ops := [OpInput (Press 1); OpTick; OpInput (Press 0)] in
  writes 1 small_src small_layout /\ sound small_layout /\ simple_layout small_layout
  /\ Forall (fun o => plain_op o = true) ops /\ accepted ops = [Press 1; Press 0] /\ fits 2 0 (accepted ops)
  /\ layout_run small_layout (accepted ops)
       (mkBoard [inl (1, Switches (LmHold 1)); inl (0, Sends (ko_from_key_code 5))] (fun l => (l =? 1) || false) None)
  /\ returns (build 12 small_src) (fun g =>
       returns (run_ops (cconf (gn_refs g) (gn_data g) bs_std false) 5 (ops ++ repeat OpTick 32)
                  (km_new (ctx_from_config (gn_config g)))) (fun k =>
         km_boot_keyboard_report (cconf (gn_refs g) (gn_data g) bs_std false) k = Ok [0; 0; 5; 0; 0; 0; 0; 0])).
Proof.
  cbv zeta. split; [exact small_writes|]. split; [exact small_sound|]. split; [exact small_simple|].
  split; [repeat constructor|]. split; [reflexivity|]. split; [|split].
  - split.
    + intros i Hi. cbn in Hi. repeat (destruct Hi as [Hi|Hi]; [try discriminate Hi; injection Hi as <-; cbn; lia|]). destruct Hi.
    + intros n. do 3 (destruct n as [|n]; [vm_compute; split; [lia|now left]|]). cbv zeta.
      rewrite firstn_all2 by (cbn; lia). vm_compute. split; [lia|now left].
  - change (accepted [OpInput (Press 1); OpTick; OpInput (Press 0)]) with (([] ++ [Press 1]) ++ [Press 0]).
    eapply lr_input; [eapply lr_input; [apply lr_start|]|].
    + eapply (ls_press _ _ 1 (ULayer (LmHold 1))); [reflexivity|cbn; lia| |constructor].
      apply shows_base; [discriminate|discriminate|reflexivity].
    + refine (ls_press _ _ 0 (UCode 5) (Sends (ko_from_key_code 5)) _ _ _ _); [reflexivity|cbn; lia| |constructor].
      eapply (shows_layer _ _ _ _ 1); [reflexivity| |].
      * split; [lia|]. eexists. split; reflexivity.
      * intros l' k' Ho _. cbn in Ho. destruct (N.eqb_spec l' 1); [lia|discriminate].
  - vm_compute. repeat split; reflexivity.
Qed.

(** *** What is not possible

    Each of these is written as the documentation describes keys and layers, and
    only one of the conditions of [sound] does not hold. *)

(** A macro in a tap-hold key that is under another layer's key. *)
Definition nested_src : keymap_src :=
  mkKeymapSrc [] [LKeys [VRec [("key_code", VNum 6);
                               ("hold", VRec [("automation_instructions", VRec [("on_press", VArr [tap_7; VStr "NoOp"])])])]];
                  LKeys [key 5]] [] no_options.
Definition nested_layout : layout := mkLayout [UTapHold (UCode 6) k_macro] [[Some (UCode 5)]] [].
Theorem C63_nested_macros_refuted : writes 2 nested_src nested_layout /\ build 40 nested_src = Panic /\
  ~ Forall macros_near (positions nested_layout).
Proof.
  split; [|split; [vm_compute; reflexivity|]].
  - eexists _, _, _, [_]. split; [reflexivity|]. split; [apply lv_keys|]. split; [|split; [|split]].
    + constructor; [|constructor].
      apply (w_record macro_written 1 _ [("key_code", VNum 6)] (UCode 6)
        (Some (VRec [("automation_instructions", VRec [("on_press", VArr [tap_7; VStr "NoOp"])])], k_macro)) None None); try discriminate.
      * now constructor.
      * intros v k E. injection E as <- <-. apply macro_key_written.
      * apply Permutation_refl.
    + constructor; [apply lv_keys|constructor].
    + constructor; [|constructor]. constructor; [|constructor]. constructor. now apply key_written.
    + constructor.
  - intros H. inversion H as [|x l H1 _]; subst. destruct (H1 (UTapHold (UCode 6) k_macro)) as [[x E]|E]; [now left|discriminate E|].
    inversion E as [| | | | | | | | | |t h _ Hh| | | |]; subst. inversion Hh.
Qed.

(** A caps word key under another layer's key. *)
Theorem C63_caps_word_under_layer_refuted :
  let s := mkKeymapSrc [] [LKeys [VStr "ToggleCapsWord"]; LKeys [key 5]] [] no_options in
  writes 1 s (mkLayout [UCapsWord] [[Some (UCode 5)]] []) /\ build 40 s = Panic.
Proof.
  cbv zeta. split; [|vm_compute; reflexivity].
  eexists _, _, _, [_]. split; [reflexivity|]. split; [apply lv_keys|]. split; [|split; [|split]].
  - repeat constructor.
  - constructor; [apply lv_keys|constructor].
  - constructor; [|constructor]. constructor; [|constructor]. constructor. now apply key_written.
  - constructor.
Qed.

(** An upper layer with fewer keys than the base layer. *)
Theorem C63_short_layer_refuted :
  let s := mkKeymapSrc [] [LKeys [key 4; key 6]; LKeys [key 5]] [] no_options in
  writes 1 s (mkLayout [UCode 4; UCode 6] [[Some (UCode 5)]] []) /\ build 40 s = Panic.
Proof.
  cbv zeta. split; [|vm_compute; reflexivity].
  eexists _, _, _, [_]. split; [reflexivity|]. split; [apply lv_keys|]. split; [|split; [|split]].
  - constructor; [now apply key_written|]. constructor; [now apply key_written|constructor].
  - constructor; [apply lv_keys|constructor].
  - constructor; [|constructor]. constructor; [|constructor]. constructor. now apply key_written.
  - constructor.
Qed.

(** A set of layers that lists layer 1 twice activates layer 2 instead. *)
Theorem C63_layer_listed_twice_refuted :
  returns (build 40 (mkKeymapSrc [] [LKeys [VRec [("layer_modifier", VRec [("set_active_layers_to", VArr [VNum 1; VNum 1])])]];
                                     LKeys [VNull]] [] no_options)) (fun g =>
    kd_layer_mods (gn_data g) = [LmSetActiveLayers 4]) /\ N.testbit 4 1 = false /\ N.testbit 4 2 = true.
Proof. vm_compute. repeat split; reflexivity. Qed.

(** A key for layer 1, where layer 1 is transparent everywhere: the firmware has
    no layers, and pressing the key makes it panic. *)
Definition transparent_src : keymap_src :=
  mkKeymapSrc [] [LKeys [VRec [("layer_modifier", VRec [("hold", VNum 1)])]]; LKeys [VNull]] [] no_options.
Theorem C65_transparent_layer_refuted :
  let lo := mkLayout [ULayer (LmHold 1)] [[None]] [] in
  writes 1 transparent_src lo /\ sound lo /\
  returns (build 12 transparent_src) (fun g => cf_layer_count (gn_config g) = 0%nat /\
    run_ops (cconf (gn_refs g) (gn_data g) bs_std true) 6 [OpInput (Press 0); OpTick] (km_new (ctx_from_config (gn_config g))) = Panic).
Proof.
  cbv zeta. split; [|split; [|vm_compute; repeat split; reflexivity]].
  - eexists _, _, _, [_]. split; [reflexivity|]. split; [apply lv_keys|]. split; [|split; [|split]].
    + constructor; [apply layer_key_written|constructor].
    + constructor; [apply lv_keys|constructor].
    + repeat constructor.
    + constructor.
  - split; [discriminate|]. split; [repeat constructor|]. split; [constructor|]. split; [|split; [|split; [constructor|split]]].
    + repeat apply Forall_cons; try apply Forall_nil; apply cf_leaf; reflexivity.
    + repeat apply Forall_cons; try apply Forall_nil; intros k E; discriminate E.
    + intros i b. destruct i as [|i]; [intros _ E; discriminate E|]. destruct i; discriminate.
    + repeat apply Forall_cons; try apply Forall_nil; intros p H; destruct H.
Qed.

Print Assumptions C63_means_what_is_written.
Print Assumptions C63_builds.
Print Assumptions C63_nested_macros_refuted.
Print Assumptions C63_caps_word_under_layer_refuted.
Print Assumptions C63_short_layer_refuted.
Print Assumptions C63_layer_listed_twice_refuted.
Print Assumptions C64_configuration.
Print Assumptions C64_sizes.
Print Assumptions C65_keyboard_of_the_layout.
Print Assumptions C65_reports_what_is_written.
Print Assumptions C65_unique.
Print Assumptions C65_transparent_layer_refuted.
