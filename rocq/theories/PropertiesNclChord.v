(** C72: keymap.ncl layouts with chords, end to end. *)
From Coq Require Import String Ascii Permutation.
From Verif Require Import BaseFacts Output Types Scheduler Keymap SimpleKeys TapHold TapDance Sticky Layered Automation Chorded
  Composite SpecScheduler SpecKeymap KeymapQueue KeymapApi SpecPlain PlainFacts SpecLayer SpecTap TapFacts SpecDecide SpecBoard BoardFacts PropertiesBoard
  Ncl NclCodegen SpecNcl NclLayoutFacts SpecNclBoard NclBoardFacts PropertiesNcl
  SpecTapBoard PropertiesTapBoard SpecChord SpecChordBoard PropertiesChordBoard SpecNclChord NclChordFacts PropertiesNclTap.
Import List.
Local Open Scope string_scope.
Local Open Scope N_scope.
Local Open Scope list_scope.

(** C72: for a layout of the keys of C65 and chords of these, the keyboard of C71 with
    the generated keymap is the keyboard of the layout, with the chords as keymap.ncl
    numbers them. *)
Theorem C72_keyboard_of_the_layout : forall n s lo f g,
  writes n s lo -> sound lo -> chord_layout lo -> (4 * (n + 2) <= f)%nat -> build f s = Ok g ->
  cf_layer_count (gn_config g) = length (lo_uppers lo) /\
  chc_chords (cf_chorded (gn_config g)) = map fst (lo_chords lo) /\
  length (gn_refs g) = length (lo_base lo) /\
  Forall (chord_board_key (gn_data g) (cf_layer_count (gn_config g)) 2) (gn_refs g) /\
  (forall timing h later ys c cs,
     chord_run (gn_data g) (chc_chords (cf_chorded (gn_config g))) (cf_layer_count (gn_config g)) (gn_refs g) timing h later ys c cs <->
     layout_chord_run lo timing h later ys c cs).
Proof.
  intros n s lo f g Hw Hs Hsl Hf H.
  destruct (build_sound n s lo f g Hw Hs Hf H) as [H1 [(_ & _ & _ & _ & _ & _ & _ & _ & Hch) [_ [H2 H3]]]].
  pose proof (chord_count _ _ Hsl H3) as Hc. rewrite Hc, Hch.
  assert (Hfit : forall k, In k (kd_layered (gn_data g)) -> length (lk_layered k) = length (lo_uppers lo))
    by (intros k Hk; rewrite <- Hc; now apply H2).
  split; [reflexivity|]. split; [reflexivity|]. split; [|split].
  - pose proof (NclMacroFacts.flen _ _ _ _ _ H1) as E. rewrite <- E. unfold positions. generalize 0%nat. generalize (lo_base lo).
    induction l as [|b bs IH]; intros m; cbn; [reflexivity|]. now rewrite IH.
  - apply Forall_forall. intros r Hr. eapply chord_ref_board; eassumption.
  - intros timing h later ys c cs. eapply chord_board_layout; eassumption.
Qed.

(** The time that a run leaves for chords depends on two of the options only. *)
Lemma chord_timing_options conf fuel c1 c2 k0 ops : chc_timeout c1 = chc_timeout c2 -> chc_required_idle c1 = chc_required_idle c2 ->
  chord_timing conf fuel c1 k0 ops = chord_timing conf fuel c2 k0 ops.
Proof. intros E1 E2. unfold chord_timing. now rewrite E1, E2. Qed.
Lemma chord_options n s lo f g times : writes n s lo -> sound lo -> (4 * (n + 2) <= f)%nat -> build f s = Ok g ->
  given (op_chord_timeout (ks_options s)) 200 (chc_timeout times) -> chc_required_idle times = op_chord_idle (ks_options s) ->
  forall conf fuel k0 ops, chord_timing conf fuel (cf_chorded (gn_config g)) k0 ops = chord_timing conf fuel times k0 ops.
Proof.
  intros Hw Hs Hf H Ht Hi conf fuel k0 ops. destruct (C64_configuration n s lo f g Hw Hs Hf H) as (_ & G1 & G2 & _).
  apply chord_timing_options; [|congruence]. unfold given in *. destruct (op_chord_timeout (ks_options s)); congruence.
Qed.

(** C72, end to end: build the firmware of a keymap.ncl with chords, press and release
    keys in any order and at any pace; whenever nothing is left to do, the keyboard
    reports what keymap.ncl says is down: of the keys that were pressed, the keys that
    came to form a chord are the key of that chord, and the others are what the
    layers say, as the inputs, the timeout and the required idle time of
    keymap.ncl decide. *)
Theorem C72_reports_what_is_written : forall n s lo f g pos dbg fuel setup ops k0 k times,
  position_ok pos -> writes n s lo -> sound lo -> chord_layout lo -> (length (lo_chords lo) <= 256)%nat ->
  (4 * (n + 2) <= f)%nat -> build f s = Ok g ->
  given (op_chord_timeout (ks_options s)) 200 (chc_timeout times) -> chc_required_idle times = op_chord_idle (ks_options s) ->
  (11 <= fuel)%nat -> registers_two setup -> Forall (fun o => plain_op o = true) ops ->
  let conf := cconf (gn_refs g) (gn_data g) pos dbg in
  run_ops conf fuel setup (km_new (ctx_from_config (gn_config g))) = Ok k0 ->
  run_ops conf fuel ops k0 = Ok k ->
  in_turn (let_in conf fuel ops k0) -> km_has_scheduled_events k = false ->
  exists ys c cs, layout_chord_run lo (chord_timing conf fuel times k0 ops) (let_in conf fuel ops k0) [] ys c cs
  /\ km_boot_keyboard_report conf k = Ok (as_hid_boot_keyboard_report (board_output (cb_board c)))
  /\ km_calls k = Base.filter_map (registered setup) cs.
Proof.
  intros n s lo f g pos dbg fuel setup ops k0 k times Hpos Hw Hs Hsl Hfew Hf H Hto Hid Hfu Hset Ho conf H0 Hk Ht Hev.
  destruct (C72_keyboard_of_the_layout n s lo f g Hw Hs Hsl Hf H) as (_ & Hch & _ & H3 & H4).
  assert (Hfew' : (length (chc_chords (cf_chorded (gn_config g))) <= 256)%nat) by (rewrite Hch, map_length; exact Hfew).
  destruct (C71_settled (gn_refs g) (gn_data g) pos dbg 2 fuel setup ops (gn_config g) k0 k Hpos H3 Hfu Hfew' Hset Ho H0 Hk Ht Hev) as (ys & c & cs & R & Rep & _ & _ & C).
  exists ys, c, cs. split; [|auto]. apply H4. fold conf in R. now rewrite (chord_options n s lo f g times Hw Hs Hf H Hto Hid) in R.
Qed.

(** C72: meanwhile, the keyboard sends what the keyboard of the layout sends after the
    inputs taken so far; the rest are still waiting, behind a key that can become
    part of a chord of the layout if one is undecided. *)
Theorem C72_at_any_time : forall n s lo f g pos dbg fuel setup ops k0 k times,
  writes n s lo -> sound lo -> chord_layout lo -> (length (lo_chords lo) <= 256)%nat ->
  (4 * (n + 2) <= f)%nat -> build f s = Ok g ->
  given (op_chord_timeout (ks_options s)) 200 (chc_timeout times) -> chc_required_idle times = op_chord_idle (ks_options s) ->
  (11 <= fuel)%nat -> registers_two setup -> Forall (fun o => plain_op o = true) ops ->
  let conf := cconf (gn_refs g) (gn_data g) pos dbg in
  run_ops conf fuel setup (km_new (ctx_from_config (gn_config g))) = Ok k0 ->
  run_ops conf fuel ops k0 = Ok k ->
  in_turn (let_in conf fuel ops k0) ->
  exists taken waiting ys c cs, let_in conf fuel ops k0 = taken ++ waiting
  /\ layout_chord_run lo (chord_timing conf fuel times k0 ops) taken waiting ys c cs
  /\ km_pressed_keys conf k = Ok (board_output (cb_board c))
  /\ km_calls k = Base.filter_map (registered setup) cs
  /\ match SpecDecide.undecided k with
     | None => waiting = km_inq k
     | Some (i, _) => exists seen, waiting = Press i :: seen ++ km_inq k /\ in_chord lo i
     end.
Proof.
  intros n s lo f g pos dbg fuel setup ops k0 k times Hw Hs Hsl Hfew Hf H Hto Hid Hfu Hset Ho conf H0 Hk Ht.
  destruct (C72_keyboard_of_the_layout n s lo f g Hw Hs Hsl Hf H) as (_ & Hch & _ & H3 & H4).
  assert (Hfew' : (length (chc_chords (cf_chorded (gn_config g))) <= 256)%nat) by (rewrite Hch, map_length; exact Hfew).
  destruct (C71_pressed (gn_refs g) (gn_data g) pos dbg 2 fuel setup ops (gn_config g) k0 k H3 Hfu Hfew' Hset Ho H0 Hk Ht)
    as (taken & waiting & ys & c & cs & E & R & Rep & _ & _ & C & W).
  exists taken, waiting, ys, c, cs. split; [exact E|]. split; [|split; [exact Rep|split; [exact C|]]].
  - apply H4. fold conf in R. now rewrite (chord_options n s lo f g times Hw Hs Hf H Hto Hid) in R.
  - destruct (SpecDecide.undecided k) as [[i p]|]; [|exact W]. destruct W as (seen & W & _ & Hoff & _). exists seen. split; [exact W|].
    rewrite Hch in Hoff. destruct (offered (map fst (lo_chords lo)) (cb_active c) i) as [|[id ch] l] eqn:Eo; [now elim Hoff|].
    destruct (offered_in (map fst (lo_chords lo)) (cb_active c) i id ch) as (A & B & _); [rewrite Eo; now left|].
    apply in_chords in A as (k1 & A). exists ch, k1. split; [eapply nth_error_In, A|exact B].
Qed.

(** C72: the inputs and what comes of them leave no choice what is down. *)
Theorem C72_unique : forall n s lo f g timing timing' h later later' ys c c' cs cs',
  writes n s lo -> sound lo -> chord_layout lo -> (4 * (n + 2) <= f)%nat -> build f s = Ok g ->
  layout_chord_run lo timing h later ys c cs -> layout_chord_run lo timing' h later' ys c' cs' ->
  same_cboard c c' /\ cs = cs'.
Proof.
  intros n s lo f g timing timing' h later later' ys c c' cs cs' Hw Hs Hsl Hf H H1 H2.
  destruct (C72_keyboard_of_the_layout n s lo f g Hw Hs Hsl Hf H) as (_ & _ & _ & _ & H4).
  apply H4 in H1, H2. eapply C71_unique; eassumption.
Qed.

(** A keyboard of three keys and two layers: A, B (E on layer 1) and C; the first two
    together are D, the last two turn on layer 1 while they are held. *)
Definition chord_src1 : keymap_src :=
  mkKeymapSrc [] [LKeys [key 4; key 5; key 6]; LKeys [VNull; key 8; VNull]]
    [mkChordSrc [0; 1] (key 7); mkChordSrc [1; 2] (VRec [("layer_modifier", VRec [("hold", VNum 1)])])]
    (mkOptions None None (Some 4) None None None None None).
Definition chord_lo1 : layout :=
  mkLayout [UCode 4; UCode 5; UCode 6] [[None; Some (UCode 8); None]] [([0; 1], UCode 7); ([1; 2], ULayer (LmHold 1))].
Lemma chord_writes1 : writes 1 chord_src1 chord_lo1.
Proof.
  eexists _, _, _, [_]. split; [reflexivity|]. split; [apply lv_keys|]. split; [|split; [|split]].
  - repeat (constructor; [now apply key_written|]). constructor.
  - constructor; [apply lv_keys|constructor].
  - constructor; [|constructor]. constructor; [constructor|]. constructor; [constructor; now apply key_written|]. constructor; constructor.
  - constructor; [split; [reflexivity|now apply key_written]|]. constructor; [split; [reflexivity|apply layer_key_written]|constructor].
Qed.
Lemma chord_sound1 : sound chord_lo1.
Proof.
  split; [discriminate|]. split; [repeat constructor|]. split; [repeat constructor; discriminate|]. split; [|split; [|split; [|split]]].
  - repeat apply Forall_cons; try apply Forall_nil; apply cf_leaf; reflexivity.
  - repeat apply Forall_cons; try apply Forall_nil; intros k E; try discriminate E; injection E as <-; apply cf_leaf; reflexivity.
  - repeat apply Forall_cons; try apply Forall_nil; apply cf_leaf; reflexivity.
  - intros i b. do 3 (destruct i as [|i]; [intros E; injection E as <-; cbn; auto; discriminate|]). destruct i; discriminate.
  - assert (F : forall p, In p [UCode 4; UCode 5; UCode 6; UCode 7; UCode 8; ULayer (LmHold 1);
        ULayered (UCode 5) [Some (UCode 8)]] -> macro_free (M := macro) p).
    { intros p H. repeat (destruct H as [<-|H]; [first [apply mf_code|apply mf_layer|apply mf_layered; [apply mf_code|]]|]); [|destruct H].
      intros k [E|[]]. injection E as <-. apply mf_code. }
    repeat apply Forall_cons; try apply Forall_nil; intros p H; right; apply F; cbn in H |- *; tauto.
Qed.
Lemma chord_lo1_ok : chord_layout chord_lo1.
Proof.
  assert (K : forall c, simple_key 1 (UCode c)) by (intros c; split; [eexists; constructor|discriminate]).
  split; [|split; [|split]].
  - repeat apply Forall_cons; try apply Forall_nil; [apply K|]. split; [eexists; constructor|]. intros l E. injection E as <-. cbn. lia.
  - repeat apply Forall_cons; try apply Forall_nil; apply K.
  - repeat apply Forall_cons; try apply Forall_nil; intros k E; try discriminate E. injection E as <-. apply K.
  - right. exists 1%nat. split; [cbn; lia|reflexivity].
Qed.
Definition chord_gen1 : generated :=
  mkGenerated [RChorded (ChChorded 0); RChorded (ChChorded 1); RChorded (ChAuxiliary 0)]
    (mkData [] [] [mkChordedKey [(0, RKeyboard (KbKeyCode 7))] (RKeyboard (KbKeyCode 4));
                   mkChordedKey [(1, RLayered (LyModifier 0))] (RLayered (LyLayered 0))]
       [mkChordedAux (RKeyboard (KbKeyCode 6))] [] [LmHold 1]
       [mkLayeredKey (RKeyboard (KbKeyCode 5)) [Some (RKeyboard (KbKeyCode 8))]] [] [] [])
    (mkConfig (mkAutoConfig [] 10) (mkChConfig 4 [[0; 1]; [1; 2]] None 2 2 4) (mkStConfig OnModifiedKeyRelease) (mkTDConfig 200) (mkTHConfig 200 IrIgnore None) 1).
(** The first two keys together, in either order: D.  The first key alone: A, after
    the timeout.  The last two keys turn on layer 1. *)
Example C72_example :
  let conf := cconf (gn_refs chord_gen1) (gn_data chord_gen1) bs_std false in
  let k0 := km_new (ctx_from_config (gn_config chord_gen1)) in
  let run a b := [OpInput (Press a); OpTick; OpInput (Press b); OpTick; OpTick] ++ repeat OpTick 20 in
  writes 1 chord_src1 chord_lo1 /\ sound chord_lo1 /\ chord_layout chord_lo1 /\ (length (lo_chords chord_lo1) <= 256)%nat
  /\ build 12 chord_src1 = Ok chord_gen1 /\ registers_two []
  /\ given (op_chord_timeout (ks_options chord_src1)) 200 4
  /\ Forall (fun o => plain_op o = true) (run 0 1) /\ in_turn (let_in conf 11 (run 0 1) k0) /\ let_in conf 11 (run 0 1) k0 = [Press 0; Press 1]
  /\ returns (run_ops conf 11 (firstn 2 (run 0 1)) k0) (fun k => option_map fst (SpecDecide.undecided k) = Some 0 /\ km_pressed_keys conf k = Ok [])
  /\ returns (run_ops conf 11 (run 0 1) k0) (fun k => km_has_scheduled_events k = false /\ km_boot_keyboard_report conf k = Ok [0; 0; 7; 0; 0; 0; 0; 0])
  /\ returns (run_ops conf 11 (run 1 0) k0) (fun k => km_has_scheduled_events k = false /\ km_boot_keyboard_report conf k = Ok [0; 0; 7; 0; 0; 0; 0; 0])
  /\ returns (run_ops conf 11 ([OpInput (Press 0)] ++ repeat OpTick 20) k0) (fun k => km_has_scheduled_events k = false /\ km_boot_keyboard_report conf k = Ok [0; 0; 4; 0; 0; 0; 0; 0])
  /\ returns (run_ops conf 11 (run 2 1) k0) (fun k => km_has_scheduled_events k = false /\ km_boot_keyboard_report conf k = Ok [0; 0; 0; 0; 0; 0; 0; 0]
       /\ is_on (cx_layered (km_ctx k)) 1 = true).
Proof.
  cbv zeta. split; [exact chord_writes1|]. split; [exact chord_sound1|]. split; [exact chord_lo1_ok|]. split; [cbn; lia|].
  split; [vm_compute; reflexivity|]. split; [exists CbReset, CbReset; constructor|]. split; [reflexivity|].
  split; [repeat constructor|]. split; [apply in_turn_dec; vm_compute; reflexivity|]. vm_compute. repeat split; reflexivity.
Qed.
Print Assumptions C72_keyboard_of_the_layout.
Print Assumptions C72_reports_what_is_written.
Print Assumptions C72_at_any_time.
Print Assumptions C72_unique.
