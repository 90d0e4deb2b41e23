(** C80: macro keys of a keymap.ncl, and the text that they type. *)
From Coq Require Import String Ascii Permutation.
From Verif Require Import BaseFacts Output Types Scheduler SpecScheduler SchedulerFacts Keymap SimpleKeys Sticky TapDance TapHold Layered Automation Chorded
  Composite SpecKeymap KeymapQueue KeymapApi SpecPlain SpecLayer SpecBoard SpecMacro SpecMacroBoard Ncl NclCodegen SpecNcl
  NclLayoutFacts SpecNclBoard NclBoardFacts SpecNclKeys NclKeyFacts StringMacro SpecText StringFacts NclString NclMacroKeyFacts
  PropertiesText PropertiesNcl.
Import List.
Local Open Scope string_scope.
Local Open Scope N_scope.
Local Open Scope list_scope.

(** C80: what keymap.ncl has for [K.string_macro] of a text is a macro key that taps the
    keys of its characters when it is pressed, for exactly the texts of printable ASCII. *)
Theorem C80_string_macro : forall t,
  (Forall (fun c => 32 <= N_of_ascii c <= 126) t <-> string_macro t <> None) /\
  (forall v n, string_macro t = Some v -> exists l,
     string_to_instructions t = Some l /\ written macro_written (S n) v (UMacro (mkMacro l [] []))).
Proof.
  intros t. split; [|intros v n; apply string_written]. rewrite <- C78_which_texts. unfold string_macro, string_to_instructions.
  destruct (string_outputs t); cbn; split; intros H; congruence.
Qed.

(** C80: for a layout of ordinary keys, callback keys, layer keys and macro keys, each
    reference of the generated keymap runs the macros that the layout has at its position,
    under any layers, and means what its other keys mean; so the keyboard of C77 is that of
    the layout. *)
Theorem C80_keyboard_of_the_layout : forall n s lo f g,
  writes n s lo -> sound lo -> layout_of (macro_key (length (lo_uppers lo))) lo -> (4 * (n + 2) <= f)%nat -> build f s = Ok g ->
  let d := gn_data g in let cf := cf_automation (gn_config g) in
  cf_layer_count (gn_config g) = length (lo_uppers lo) /\ length (gn_refs g) = length (lo_base lo) /\
  given (op_instruction_duration (ks_options s)) 10 (auc_duration cf) /\
  Forall (macro_board_key (cf_layer_count (gn_config g)) d cf 1) (gn_refs g) /\
  forall i r on default, nth_error (gn_refs g) i = Some r ->
    (forall m, means d on default r m <-> exists k, shows lo i on default k /\ key_means k m) /\
    (forall a, runs d on default r a -> exists x, shows lo i on default (UMacro x) /\
       macro_of cf (ak_on_press a) = mc_press x /\ macro_of cf (ak_while_pressed a) = mc_while x /\ macro_of cf (ak_on_release a) = mc_release x) /\
    (forall x, shows lo i on default (UMacro x) -> exists a, runs d on default r a /\
       macro_of cf (ak_on_press a) = mc_press x /\ macro_of cf (ak_while_pressed a) = mc_while x /\ macro_of cf (ak_on_release a) = mc_release x).
Proof.
  intros n s lo f g Hw Hs Hl Hf H d cf. destruct (build_sound n s lo f g Hw Hs Hf H) as (H1 & (H2 & _) & _ & H4 & H5).
  assert (Hc : cf_layer_count (gn_config g) = length (lo_uppers lo)).
  { eapply layout_count; [exact Hl| |exact H5]. intros k b ls [Hk|(x & ->)]; [now apply simple_no_layers with (n := length (lo_uppers lo))|]. cbn. intros [X|[]]; discriminate X. }
  assert (Hfit : forall k, In k (kd_layered d) -> length (lk_layered k) = length (lo_uppers lo)) by (intros k Hk; rewrite <- Hc; now apply H4).
  split; [exact Hc|]. split; [eapply key_refs_length; exact H1|]. split; [exact H2|]. rewrite Hc. split; [eapply refs_macro_board; eassumption|].
  assert (M : forall a x, is_macro (auc_instructions cf) a x -> macro_of cf (ak_on_press a) = mc_press x /\ macro_of cf (ak_while_pressed a) = mc_while x /\ macro_of cf (ak_on_release a) = mc_release x).
  { intros a x (M1 & M2 & M3). split; [|split]; now apply part_macro. }
  intros i r on def Hi. split; [|split].
  - intros m. eapply macro_means; eassumption.
  - intros a Ha. destruct (runs_shows cf d lo _ H1 Hl Hfit i r on def a Hi Ha) as (x & X & Y). exists x. auto.
  - intros x Hx. destruct (shows_runs cf d lo _ H1 Hl Hfit i r on def x Hi Hx) as (a & X & Y). exists a. auto.
Qed.

(** C80, end to end: build the firmware of a keymap.ncl whose macros are for presses, and
    press, when nothing is scheduled and no key is reported, a key that is, on the active
    layers, the string macro of a text.  A computer with the US layout types the text. *)
Theorem C80_types_what_is_written : forall n s lo f g pos dbg fuel setup before after k0 k1 k i t l rs duration,
  position_ok pos -> finds_the_one pos ->
  writes n s lo -> sound lo -> layout_of (press_macro_key (length (lo_uppers lo))) lo -> (4 * (n + 2) <= f)%nat -> build f s = Ok g ->
  given (op_instruction_duration (ks_options s)) 10 duration ->
  let conf := cconf (gn_refs g) (gn_data g) pos dbg in
  registers_two setup -> Forall (fun o => plain_op o = true) before -> Forall (fun o => presses_none o = true) after ->
  0 < ck_ms (clocks_run before) < duration ->
  run_ops conf fuel setup (km_new (ctx_from_config (gn_config g))) = Ok k0 -> run_ops conf fuel before k0 = Ok k1 ->
  km_has_scheduled_events k1 = false -> km_pressed_keys conf k1 = Ok [] -> has_pressed k1 i = false ->
  (N.to_nat i < length (lo_base lo))%nat ->
  shows lo (N.to_nat i) (is_on (cx_layered (km_ctx k1))) (lyx_default (cx_layered (km_ctx k1))) (UMacro (mkMacro l [] [])) ->
  string_to_instructions t = Some l ->
  reports conf fuel (OpInput (Press i) :: after) k1 = Ok (k, rs) ->
  (exists others, typed no_keys rs ++ others = t)
  /\ (N.of_nat (List.length t) * (duration + 2) + 2 <= N.of_nat (ticks after) -> typed no_keys rs = t /\ km_pressed_keys conf k = Ok []).
Proof.
  intros n s lo f g pos dbg fuel setup before after k0 k1 k i t l rs D Hpos Hone Hw Hs Hl Hf Hg HD conf Hset Hb Ha Hms H0 H Hev Hout Hup Hi Hsh Ht E.
  assert (Hl' : layout_of (macro_key (length (lo_uppers lo))) lo).
  { destruct Hl as (A & B & C & X). split; [exact A|]. split; [|split; [|exact X]].
    - eapply Forall_impl; [|exact B]. intros a [Y|(x & ->)]; [now left|right; eauto].
    - eapply Forall_impl; [|exact C]. intros u Y. eapply Forall_impl; [|exact Y]. intros o Z q ->. destruct (Z q eq_refl) as [W|(x & ->)]; [now left|right; eauto]. }
  destruct (C80_keyboard_of_the_layout n s lo f g Hw Hs Hl' Hf Hg) as (Hc & Hlen & Hd & Hr & Hk).
  assert (D = auc_duration (cf_automation (gn_config g))) as ->. { unfold given in *. destruct (op_instruction_duration (ks_options s)); congruence. }
  rewrite <- Hlen in Hi. apply nth_error_Some in Hi. destruct (nth_error (gn_refs g) (N.to_nat i)) as [r|] eqn:Er; [clear Hi|congruence].
  destruct (proj2 (proj2 (Hk _ _ _ _ Er)) _ Hsh) as (a & Hruns & Hp & _). cbn [mc_press] in Hp.
  eapply (C78_types_the_text _ _ pos dbg 1%nat fuel setup before after (gn_config g) k0 k1 k i r a t rs); try eassumption; [|now rewrite Hp].
  intros q on def b Hq Hrun. apply In_nth_error in Hq as (j & Hj). destruct (proj1 (proj2 (Hk _ _ _ _ Hj)) _ Hrun) as (x & Hx & _ & X2 & X3). rewrite X2, X3.
  assert (Y : press_macro_key (length (lo_uppers lo)) (UMacro x)).
  { destruct Hl as (_ & B & C & _). rewrite Forall_forall in B, C. assert (Z : forall y, on_layer_is lo j y (UMacro x) -> press_macro_key (length (lo_uppers lo)) (UMacro x)).
    { intros y (_ & row & R1 & R2). apply nth_error_In in R1, R2. specialize (C _ R1). rewrite Forall_forall in C. now apply (C _ R2). }
    inversion Hx; subst; eauto. apply B. eapply nth_error_In; eassumption. }
  destruct Y as [((m & Y) & _)|(q' & Y)]; [inversion Y|]. injection Y as ->. auto.
Qed.

(** Two keys and two layers: a key for layer 1, and the letter A, which is a macro on
    layer 1. *)
Definition hi : text := text_of "Hi, Bob!".
Definition hi_value : val := match string_macro hi with Some v => v | None => VNull end.
Definition hi_src : keymap_src :=
  mkKeymapSrc [] [LKeys [VRec [("layer_modifier", VRec [("hold", VNum 1)])]; key 4]; LKeys [VNull; hi_value]] [] no_options.
Definition hi_layout : layout :=
  mkLayout [ULayer (LmHold 1); UCode 4]
    [[None; Some (UMacro (mkMacro (match string_to_instructions hi with Some l => l | None => [] end) [] []))]] [].
Lemma hi_written : writes 1 hi_src hi_layout.
Proof.
  eexists _, _, _, [_]. split; [reflexivity|]. split; [apply lv_keys|]. split; [|split; [|split]].
  - constructor; [apply layer_key_written|]. constructor; [now apply key_written|constructor].
  - constructor; [apply lv_keys|constructor].
  - constructor; [|constructor]. constructor; [constructor|]. constructor; [|constructor]. constructor.
    destruct (proj2 (C80_string_macro hi) hi_value 0%nat eq_refl) as (l & E & W). rewrite E. exact W.
  - constructor.
Qed.
Lemma hi_sound : sound hi_layout.
Proof.
  split; [discriminate|]. split; [repeat constructor|]. split; [constructor|]. split; [|split; [|split; [constructor|split]]].
  - repeat apply Forall_cons; try apply Forall_nil; apply cf_leaf; reflexivity.
  - repeat apply Forall_cons; try apply Forall_nil; intros k E; try discriminate E; injection E as <-; apply cf_leaf; reflexivity.
  - intros i b. do 2 (destruct i as [|i]; [intros E; injection E as <-; cbn; auto; discriminate|]). destruct i; discriminate.
  - repeat apply Forall_cons; try apply Forall_nil; intros p H; cbn [positions positions_from parts] in H;
      repeat (destruct H as [<-|H]; [try (right; constructor); left; eexists; reflexivity|]); destruct H.
Qed.
Lemma hi_macros : layout_of (press_macro_key 1) hi_layout.
Proof.
  split; [reflexivity|]. split; [|split].
  - repeat apply Forall_cons; try apply Forall_nil; left; (split; [eexists; constructor|]); intros l E; try discriminate E.
    injection E as <-. cbn. lia.
  - repeat apply Forall_cons; try apply Forall_nil; intros k E; try discriminate E. injection E as <-. right. eauto.
  - right. exists 1%nat. split; [cbn; lia|reflexivity].
Qed.
Example C80_example :
  let before := [OpInput (Press 0); OpTick; OpTick] in let after := OpInput (Release 1) :: repeat OpTick 100 in
  string_macro hi = Some hi_value /\ writes 1 hi_src hi_layout /\ sound hi_layout /\ layout_of (press_macro_key 1) hi_layout
  /\ Forall (fun o => plain_op o = true) before /\ Forall (fun o => presses_none o = true) after
  /\ N.of_nat (List.length hi) * (10 + 2) + 2 <= N.of_nat (ticks after)
  /\ returns (build 12 hi_src) (fun g => let conf := cconf (gn_refs g) (gn_data g) bs_std false in
       returns (run_ops conf 10 before (km_new (ctx_from_config (gn_config g)))) (fun k1 =>
         km_has_scheduled_events k1 = false /\ km_pressed_keys conf k1 = Ok [] /\ has_pressed k1 1 = false
         /\ is_on (cx_layered (km_ctx k1)) 1 = true
         /\ returns (reports conf 10 (OpInput (Press 1) :: after) k1) (fun '(k, rs) => typed no_keys rs = hi /\ km_pressed_keys conf k = Ok []))).
Proof.
  cbv zeta. split; [reflexivity|]. split; [exact hi_written|]. split; [exact hi_sound|]. split; [exact hi_macros|]. split; [repeat constructor|]. split; [apply Forall_forall; intros o [<-|Ho]; [reflexivity|apply repeat_spec in Ho; now subst]|].
  split; [vm_compute; discriminate|]. vm_compute. repeat split; reflexivity.
Qed.

Print Assumptions C80_string_macro.
Print Assumptions C80_keyboard_of_the_layout.
Print Assumptions C80_types_what_is_written.
