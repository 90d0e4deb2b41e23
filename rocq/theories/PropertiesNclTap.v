(** C69: keymap.ncl layouts with tap-hold keys, end to end. *)
From Coq Require Import String Ascii Permutation.
From Verif Require Import BaseFacts Output Types Scheduler Keymap SimpleKeys TapHold TapDance Sticky Layered Automation Chorded
  Composite SpecScheduler SpecKeymap KeymapQueue KeymapApi SpecPlain PlainFacts SpecLayer SpecTap TapFacts SpecDecide SpecBoard BoardFacts PropertiesBoard
  Ncl NclCodegen SpecNcl NclLayoutFacts SpecNclBoard NclBoardFacts PropertiesNcl
  SpecTapBoard PropertiesTapBoard SpecNclTap NclTapFacts.
Import List.
Local Open Scope string_scope.
Local Open Scope N_scope.
Local Open Scope list_scope.

(** C69: for a layout of the keys of C65 and tap-hold keys of these, the keyboard of
    C68 with the generated keymap is the keyboard of the layout. *)
Theorem C69_keyboard_of_the_layout : forall n s lo f g,
  writes n s lo -> sound lo -> tap_layout lo -> (4 * (n + 2) <= f)%nat -> build f s = Ok g ->
  cf_layer_count (gn_config g) = length (lo_uppers lo) /\
  length (gn_refs g) = length (lo_base lo) /\
  Forall (tap_board_key (cf_layer_count (gn_config g)) (gn_data g) 2) (gn_refs g) /\
  (forall ir timing h later xs b cs,
     tap_run (cf_layer_count (gn_config g)) (gn_refs g) (gn_data g) ir timing h later xs b cs <->
     layout_tap_run lo ir timing h later xs b cs).
Proof.
  intros n s lo f g Hw Hs Hsl Hf H.
  destruct (build_sound n s lo f g Hw Hs Hf H) as [H1 [_ [_ [H2 H3]]]].
  pose proof (tap_count _ _ Hsl H3) as Hc. rewrite Hc.
  assert (Hfit : forall k, In k (kd_layered (gn_data g)) -> length (lk_layered k) = length (lo_uppers lo))
    by (intros k Hk; rewrite <- Hc; now apply H2).
  split; [reflexivity|]. split; [|split].
  - pose proof (NclMacroFacts.flen _ _ _ _ _ H1) as E. rewrite <- E. unfold positions. generalize 0%nat. generalize (lo_base lo).
    induction l as [|b bs IH]; intros m; cbn; [reflexivity|]. now rewrite IH.
  - apply Forall_forall. intros r Hr. eapply ref_tap_board; eassumption.
  - intros ir timing h later xs b cs. eapply tap_board_layout; eassumption.
Qed.

(** C69, end to end: build the firmware of a keymap.ncl, press and release keys in any
    order and at any pace, within the room of C68, wait until everything is decided,
    and the keyboard reports what the layers of keymap.ncl say is down, each tap-hold
    key being a tap or a hold as the inputs and the options of keymap.ncl say. *)
Theorem C69_reports_what_is_written : forall n s lo f g pos dbg fuel setup ops ticks k0 timeout ir,
  position_ok pos -> writes n s lo -> sound lo -> tap_layout lo -> (4 * (n + 2) <= f)%nat -> build f s = Ok g ->
  given (op_hold_timeout (ks_options s)) 200 timeout -> given (op_hold_interrupt (ks_options s)) IrIgnore ir ->
  N.of_nat (length (lo_base lo)) <= 65535 -> (10 <= fuel)%nat ->
  registers_two setup -> Forall (fun o => plain_op o = true) ops -> one_pace ops ->
  let conf := cconf (gn_refs g) (gn_data g) pos dbg in
  let all := ops ++ repeat OpTick ticks in
  let hold := mkTHConfig timeout ir (op_hold_idle (ks_options s)) in
  run_ops conf fuel setup (km_new (ctx_from_config (gn_config g))) = Ok k0 ->
  in_turn (let_in conf fuel ops k0) -> fits (length (lo_base lo)) 0 (let_in conf fuel ops k0) ->
  96 * (timeout + 1) <= N.of_nat ticks -> ck_now (clocks_run all) + timeout <= u32_max ->
  (forall a o z k, all = a ++ o :: z -> run_ops conf fuel a k0 = Ok k ->
     ~ crowded conf fuel hold k0 a /\ (undecided k <> None -> (behind k + length (let_in conf fuel [o] k) <= 16)%nat)) ->
  exists k xs b cs, run_ops conf fuel all k0 = Ok k
  /\ layout_tap_run lo ir (run_timing conf fuel hold k0 all) (let_in conf fuel ops k0) [] xs b cs
  /\ km_boot_keyboard_report conf k = Ok (as_hid_boot_keyboard_report (board_output b))
  /\ km_calls k = Base.filter_map (registered setup) cs.
Proof.
  intros n s lo f g pos dbg fuel setup ops ticks k0 timeout ir Hpos Hw Hs Hsl Hf H Hto Hir Hl Hfu Hset Ho Hp conf all hold H0 Ht Hfit Hn Hclk Hroom.
  destruct (C69_keyboard_of_the_layout n s lo f g Hw Hs Hsl Hf H) as [_ [H2 [H3 H4]]].
  destruct (C64_sizes n s lo f g Hw Hs Hf H) as [[_ [_ [_ H5]]] _].
  assert (Hch : chc_max_pressed (cf_chorded (gn_config g)) = 0%nat) by (apply H5; destruct Hsl as [-> _]; reflexivity).
  destruct (C64_configuration n s lo f g Hw Hs Hf H) as [_ [_ [_ [_ [_ [G1 [G2 [G3 _]]]]]]]].
  assert (Hhold : cf_tap_hold (gn_config g) = hold).
  { unfold hold. destruct (cf_tap_hold (gn_config g)) as [t0 i0 d0]. cbn in G1, G2, G3. subst d0. unfold given in *.
    destruct (op_hold_timeout (ks_options s)), (op_hold_interrupt (ks_options s)); subst; reflexivity. }
  assert (Hpl : Forall (fun o => plain_op o = true) all) by (apply Forall_app; split; [exact Ho|clear; induction ticks; constructor; auto]).
  assert (Hpa : one_pace all).
  { unfold all. clear -Hp. induction ticks as [|t IH]; [now rewrite app_nil_r|]. cbn [repeat]. rewrite (repeat_cons t OpTick), app_assoc.
    intros a ms z X. destruct z as [|z0 z _] using rev_ind; [apply app_inj_tail in X as (_ & X); discriminate X|].
    change (a ++ OpSetMs ms :: z ++ [z0]) with (a ++ (OpSetMs ms :: z) ++ [z0]) in X. rewrite app_assoc in X. apply app_inj_tail in X as (X & _). exact (IH _ _ _ X). }
  assert (Hin : let_in conf fuel all k0 = let_in conf fuel ops k0).
  { unfold all. clear. generalize (k0 : ckeymap) as k1. induction ops as [|o ops IH]; intros k1; cbn [app let_in].
    - revert k1. induction ticks as [|t IH]; intros k1; [reflexivity|]. cbn [repeat let_in app]. destruct (run_op _ _ k1 OpTick); [apply IH|reflexivity..].
    - destruct (run_op _ _ k1 o); [now rewrite IH|reflexivity..]. }
  destruct (C68_keeps_running (gn_refs g) (gn_data g) pos dbg 2 fuel setup all (gn_config g) k0) as [k E]; try assumption.
  - now rewrite H2.
  - fold conf. now rewrite Hin.
  - fold conf. now rewrite Hin, H2, Hch.
  - now rewrite Hhold.
  - rewrite Hhold. exact Hroom.
  - destruct (C68_settles (gn_refs g) (gn_data g) pos dbg 2 fuel setup ops (gn_config g) k0 ticks k) as [Hev _]; try assumption; [now rewrite Hhold|].
    destruct (C68_settled (gn_refs g) (gn_data g) pos dbg 2 fuel setup all (gn_config g) k0 k) as [xs [b [cs [R [Rep [_ [_ C]]]]]]]; try assumption.
    { fold conf. now rewrite Hin. }
    exists k, xs, b, cs. split; [exact E|]. split; [|split; [exact Rep|exact C]]. apply H4. fold conf in R. rewrite Hin, Hhold in R. exact R.
Qed.

(** C69: the inputs and the decisions leave no choice what is down. *)
Theorem C69_unique : forall n s lo f g ir timing ir' timing' h later later' xs b b' cs cs',
  writes n s lo -> sound lo -> tap_layout lo -> (4 * (n + 2) <= f)%nat -> build f s = Ok g ->
  layout_tap_run lo ir timing h later xs b cs -> layout_tap_run lo ir' timing' h later' xs b' cs' ->
  same_board b b' /\ cs = cs'.
Proof.
  intros n s lo f g ir timing ir' timing' h later later' xs b b' cs cs' Hw Hs Hsl Hf H H1 H2.
  destruct (C69_keyboard_of_the_layout n s lo f g Hw Hs Hsl Hf H) as [_ [_ [_ H4]]].
  apply H4 in H1, H2. eapply C68_unique; eassumption.
Qed.

(** A keyboard of two keys and two layers: the first is C when tapped and layer 1 when
    held, and a key tapped meanwhile makes it a hold; the second is A, and B on layer 1. *)
Definition layer_tap : val := VRec [("hold", VRec [("layer_modifier", VRec [("hold", VNum 1)])]); ("key_code", VNum 6)].
Definition tap_src : keymap_src :=
  mkKeymapSrc [] [LKeys [layer_tap; key 4]; LKeys [VNull; key 5]] []
    (mkOptions None None None None None (Some 4) (Some IrHoldOnKeyTap) None).
Definition tap_lo : layout :=
  mkLayout [UTapHold (UCode 6) (ULayer (LmHold 1)); UCode 4] [[None; Some (UCode 5)]] [].
Lemma layer_tap_written : forall n, written macro_written (S (S n)) layer_tap (UTapHold (UCode 6) (ULayer (LmHold 1))).
Proof.
  intros n. apply (w_record macro_written (S n) _ [("key_code", VNum 6)] (UCode 6)
           (Some (VRec [("layer_modifier", VRec [("hold", VNum 1)])], ULayer (LmHold 1))) None None); try discriminate.
  - now constructor.
  - intros v k E. injection E as <- <-. apply layer_key_written.
  - apply perm_swap.
Qed.
Lemma tap_writes : writes 2 tap_src tap_lo.
Proof.
  eexists _, _, _, [_]. split; [reflexivity|]. split; [apply lv_keys|]. split; [|split; [|split]].
  - constructor; [apply layer_tap_written|]. constructor; [now apply key_written|constructor].
  - constructor; [apply lv_keys|constructor].
  - constructor; [|constructor]. constructor; [constructor|]. constructor; [|constructor]. constructor. now apply key_written.
  - constructor.
Qed.
Lemma tap_sound : sound tap_lo.
Proof.
  split; [discriminate|]. split; [repeat constructor|]. split; [constructor|]. split; [|split; [|split; [constructor|split]]].
  - repeat apply Forall_cons; try apply Forall_nil; [apply cf_hold|]; apply cf_leaf; reflexivity.
  - repeat apply Forall_cons; try apply Forall_nil; intros k E; try discriminate E; injection E as <-; apply cf_leaf; reflexivity.
  - intros i b. do 2 (destruct i as [|i]; [intros E; injection E as <-; cbn; auto; discriminate|]). destruct i; discriminate.
  - repeat apply Forall_cons; try apply Forall_nil; intros p H; cbn in H;
      repeat (destruct H as [<-|H]; [right; repeat constructor|]); destruct H.
Qed.
Lemma tap_lo_ok : tap_layout tap_lo.
Proof.
  split; [reflexivity|]. split; [|split].
  - repeat apply Forall_cons; try apply Forall_nil.
    + right. eexists _, _. split; [reflexivity|]. split; (split; [eexists; constructor|]); intros l E; try discriminate E. injection E as <-. cbn. lia.
    + left. split; [eexists; constructor|discriminate].
  - repeat apply Forall_cons; try apply Forall_nil; intros k E; try discriminate E. injection E as <-.
    left. split; [eexists; constructor|discriminate].
  - right. exists 1%nat. split; [cbn; lia|reflexivity].
Qed.
Definition tap_gen : generated :=
  mkGenerated [RTapHold 0; RLayered (LyLayered 0)]
    (mkData [] [] [] [] [] [LmHold 1] [mkLayeredKey (RKeyboard (KbKeyCode 4)) [Some (RKeyboard (KbKeyCode 5))]] [] []
       [mkTapHold (RKeyboard (KbKeyCode 6)) (RLayered (LyModifier 0))])
    (mkConfig (mkAutoConfig [] 10) (mkChConfig 200 [] None 0 0 0) (mkStConfig OnModifiedKeyRelease) (mkTDConfig 200) (mkTHConfig 4 IrHoldOnKeyTap None) 1).
(** The second key tapped while the first is held: B for a tick, while layer 1 is on. *)
Example C69_example :
  let ops := [OpInput (Press 0); OpTick; OpInput (Press 1); OpTick; OpInput (Release 1); OpTick] in
  let conf := cconf (gn_refs tap_gen) (gn_data tap_gen) bs_std false in
  let k0 := km_new (ctx_from_config (gn_config tap_gen)) in let all := ops ++ repeat OpTick 480 in
  writes 2 tap_src tap_lo /\ sound tap_lo /\ tap_layout tap_lo /\ build 16 tap_src = Ok tap_gen
  /\ Forall (fun o => plain_op o = true) ops /\ one_pace ops
  /\ in_turn (let_in conf 10 ops k0) /\ let_in conf 10 ops k0 = [Press 0; Press 1; Release 1] /\ fits 2 0 (let_in conf 10 ops k0)
  /\ 96 * (4 + 1) <= N.of_nat 480 /\ ck_now (clocks_run all) + 4 <= u32_max
  /\ (forall a o z k, all = a ++ o :: z -> run_ops conf 10 a k0 = Ok k ->
     ~ crowded conf 10 (mkTHConfig 4 IrHoldOnKeyTap None) k0 a /\ (undecided k <> None -> (behind k + length (let_in conf 10 [o] k) <= 16)%nat))
  /\ returns (run_ops conf 10 (firstn 4 ops) k0) (fun k => km_boot_keyboard_report conf k = Ok [0; 0; 0; 0; 0; 0; 0; 0])
  /\ returns (run_ops conf 10 (ops ++ [OpTick]) k0) (fun k => km_boot_keyboard_report conf k = Ok [0; 0; 5; 0; 0; 0; 0; 0])
  /\ returns (run_ops conf 10 all k0) (fun k => km_boot_keyboard_report conf k = Ok [0; 0; 0; 0; 0; 0; 0; 0] /\ is_on (cx_layered (km_ctx k)) 1 = true).
Proof.
  cbv zeta. split; [exact tap_writes|]. split; [exact tap_sound|]. split; [exact tap_lo_ok|]. split; [vm_compute; reflexivity|].
  split; [repeat constructor|]. split; [apply steady_pace; repeat (constructor; [discriminate|]); constructor|].
  split; [apply in_turn_dec; vm_compute; reflexivity|]. split; [vm_compute; reflexivity|]. split; [apply fits_check_spec; vm_compute; reflexivity|].
  split; [cbn; lia|]. split; [vm_compute; discriminate|]. split; [|vm_compute; repeat split; reflexivity].
  intros a o z k E Hr. split.
  - apply C68_not_crowded; [|left; reflexivity].
    assert (X : Forall (fun o => plain_op o = true) (a ++ o :: z)) by (rewrite <- E; apply Forall_app; split; [repeat constructor|apply Forall_forall; intros x Hx; apply repeat_spec in Hx; now subst x]).
    now apply Forall_app in X.
  - eapply never_behind_spec; [|exact E|exact Hr]. vm_compute. reflexivity.
Qed.
Print Assumptions C69_keyboard_of_the_layout.
Print Assumptions C69_reports_what_is_written.
Print Assumptions C69_unique.
