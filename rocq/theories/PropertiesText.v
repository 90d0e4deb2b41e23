(** C78: string macros type their text. *)
From Verif Require Import BaseFacts Output Types Scheduler Reporter Keymap SimpleKeys TapHold TapDance Sticky CapsWord Layered Automation Chorded Composite Samples SpecScheduler SpecKeymap
  KeymapHist KeymapInv KeymapQueue KeymapApi CtxFacts SpecPlain PlainFacts SpecLayer SpecKinds SpecBoard BoardFacts SpecTapBoard TapBoardFacts TapBoardTotal TapBoardLive
  SpecMacro MacroFacts SpecDanceBoard SpecMacroBoard MacroBoardFacts MacroBoardLive StringMacro SpecText StringFacts PropertiesTapBoard PropertiesDanceBoard PropertiesMacroBoard.
From Coq Require Import Ascii String.
Local Open Scope N_scope.
Local Open Scope list_scope.

(** C78: the texts that can be written are those of the 95 printable characters of
    ASCII. *)
Theorem C78_which_texts : forall t : text,
  string_to_instructions t <> None <-> Forall (fun c => 32 <= N_of_ascii c <= 126) t.
Proof.
  intros t. transitivity (string_outputs t <> None).
  - unfold string_to_instructions. destruct (string_outputs t); cbn; split; try discriminate; intros H; now elim H.
  - rewrite <- outputs_some. split; intros H; (eapply Forall_impl; [|exact H]); cbn; intros c Hc; now apply char_all.
Qed.

(** C78: a key with the macro of a text is pressed, when nothing is scheduled and no key
    is reported, and no key is pressed after that.  Whatever is ticked, released and
    reported then, a computer with the US layout that gets the report after each call
    has typed a beginning of the text; and all of it after as many ticks as said. *)
Theorem C78_types_the_text :
  forall refs d pos dbg height fuel setup before after cf k0 k1 k i r a t rs, position_ok pos -> finds_the_one pos ->
  Forall (macro_board_key (cf_layer_count cf) d (cf_automation cf) height) refs -> only_when_pressed refs d (cf_automation cf) ->
  registers_two setup -> Forall (fun o => plain_op o = true) before -> Forall (fun o => presses_none o = true) after ->
  0 < ck_ms (clocks_run before) < auc_duration (cf_automation cf) ->
  run_ops (cconf refs d pos dbg) fuel setup (km_new (ctx_from_config cf)) = Ok k0 ->
  run_ops (cconf refs d pos dbg) fuel before k0 = Ok k1 ->
  km_has_scheduled_events k1 = false -> km_pressed_keys (cconf refs d pos dbg) k1 = Ok [] -> has_pressed k1 i = false ->
  nth_error refs (N.to_nat i) = Some r ->
  runs d (is_on (cx_layered (km_ctx k1))) (lyx_default (cx_layered (km_ctx k1))) r a ->
  string_to_instructions t = Some (macro_of (cf_automation cf) (ak_on_press a)) ->
  reports (cconf refs d pos dbg) fuel (OpInput (Press i) :: after) k1 = Ok (k, rs) ->
  (exists others, typed no_keys rs ++ others = t)
  /\ (N.of_nat (List.length t) * (auc_duration (cf_automation cf) + 2) + 2 <= N.of_nat (ticks after) ->
      typed no_keys rs = t /\ km_pressed_keys (cconf refs d pos dbg) k = Ok []).
Proof.
  intros refs d pos dbg height fuel setup before after cf k0 k1 k i r a t rs Hpos Hone Hr Honly Hset Hb Ha (Hms & HD) H0 H Hev Hout Hup Er Hruns Ht E.
  destruct (setup_total (cconf refs d pos dbg) fuel setup Hset (ctx_from_config cf)) as (L & EL). rewrite H0 in EL. injection EL as ->.
  pose proof (registered_same _ _ _ _ _ _ _ _ H0) as Hreg.
  destruct (run_play refs d pos dbg cf fuel Hpos (ex_intro _ height Hr) L before k1 Hb H) as (s & Hrun & Hs).
  destruct (sim_displays refs d pos dbg _ _ _ setup _ _ _ Hreg Hs) as (Dp & Don & Ddf & _ & _ & Dev). destruct (proj1 Dev Hev) as (Ea & Ew).
  rewrite Hout in Dp. injection Dp as Dp. symmetry in Dp. destruct (output_silent _ Dp) as (Hsil & Hvir).
  unfold string_to_instructions in Ht. destruct (string_outputs t) as [kos|] eqn:Ek; [|discriminate]. cbn [option_map] in Ht. injection Ht as Ht.
  assert (Hlen : len kos = N.of_nat (List.length t)). { pose proof (outputs_all _ _ Ek) as X. unfold len. clear -X. induction X; cbn [List.length]; lia. }
  destruct (press_string refs d pos dbg cf fuel Hpos Hone (ex_intro _ height Hr) L i Honly after before s k1 k rs kos t Hb Ha H Hs Ew) as (s' & vs' & kos' & mu' & cs' & A1 & A2 & A3 & A4 & A5); auto.
  - split; [exact Hsil|]. eapply Forall_impl; [|eapply run_macros_of; exact Hrun]. cbn. intros p (r' & on & def & X & Y). eapply Honly; eassumption.
  - split; [exact Ea|]. split; [eapply nothing_left; [eapply run_ok; exact Hrun|exact Ea]|]. split; [exact Hvir|]. split.
    + destruct Hs as (Hs & _). unfold has_pressed in Hup. erewrite <- mheld_has; [exact Hup|exact (ms_held _ _ _ _ _ _ _ _ _ Hs)].
    + exists r, a. split; [exact Er|]. split; [|now rewrite Ht]. rewrite <- Ddf. eapply runs_ext; [exact Don|exact Hruns].
  - apply outputs_all. exact Ek.
  - split; [eauto|]. intros Htk. rewrite Hlen in A3. unfold per in A3. assert (mu' = 0) as -> by (unfold u16 in *; lia).
    pose proof (stage_over refs d pos cf Hone i _ _ _ _ A2) as Hover; destruct Hover as (-> & -> & _). inversion A4; subst. rewrite app_nil_r. split; [reflexivity|].
    destruct A1 as (A1 & _).
    pose proof (mheld_outputs refs d pos dbg _ _ _ _ (ms_held _ _ _ _ _ _ _ _ _ A1)) as Y. unfold km_pressed_keys. rewrite Y. now rewrite (stage_virtuals _ _ _ _ _ _ _ _ _ A2).
Qed.

(** A keyboard with one such key and a letter; the letter is tapped first. *)
Definition greeting : text := text_of "Hello, World: 50% ""off""!".
Definition text_config (duration : u16) (t : text) : config :=
  mkConfig (mkAutoConfig (match string_to_instructions t with Some l => l | None => [] end) duration)
    (cf_chorded sample_config) sticky_config_default tapdance_config_default (cf_tap_hold sample_config) 1.
Definition text_key (t : text) : automation_key := mkAutoKey (mkExec 0 (N.of_nat (List.length t))) exec_empty exec_empty.
Definition text_data (t : text) : key_data := mkData [text_key t] [] [] [] [] [] [] [] [] [].
Definition text_refs : list ref := [RAutomation 0; kD].
Local Notation tconf t := (cconf text_refs (text_data t) bs_std false).
Local Notation tstart n t := (km_new (ctx_from_config (text_config n t))).
Notation P i := (OpInput (Press i)).
Notation Rl i := (OpInput (Release i)).
Definition letter_tapped : list op := [P 1; OpTick; Rl 1; OpTick; OpTick].
Lemma text_refs_ok n t : string_to_instructions t <> None -> Forall (macro_board_key 1 (text_data t) (cf_automation (text_config n t)) 0) text_refs.
Proof.
  intros Ht. apply Forall_cons; [|apply Forall_cons; [apply mbk_key; eapply bk_plain; reflexivity|apply Forall_nil]].
  eapply mbk_macro; [reflexivity|..]; [|left; reflexivity|left; reflexivity]. right. unfold text_config. cbn [cf_automation auc_instructions ex_start ex_length text_key ak_on_press].
  unfold string_to_instructions in *. destruct (string_outputs t) as [kos|] eqn:E; [|now elim Ht]. cbn [option_map].
  pose proof (outputs_all _ _ E) as X. assert (Hl : List.length (map InTap kos) = List.length t) by (rewrite map_length; clear -X; induction X; cbn; congruence).
  rewrite Hl. unfold u16. lia.
Qed.
Lemma text_only n t : only_when_pressed text_refs (text_data t) (cf_automation (text_config n t)).
Proof.
  intros r on def a [<-|[<-|[]]] H; inversion H as [q a' E|]; subst. cbn in E. injection E as <-. split; reflexivity.
Qed.
Example C78_example :
  let cf := text_config 10 greeting in let after := Rl 0 :: repeat OpTick 290 in
  Forall (macro_board_key (cf_layer_count cf) (text_data greeting) (cf_automation cf) 0) text_refs
  /\ only_when_pressed text_refs (text_data greeting) (cf_automation cf)
  /\ position_ok bs_std /\ finds_the_one bs_std /\ registers_two []
  /\ Forall (fun o => plain_op o = true) letter_tapped /\ Forall (fun o => presses_none o = true) after
  /\ 0 < ck_ms (clocks_run letter_tapped) < auc_duration (cf_automation cf)
  /\ (forall on def, runs (text_data greeting) on def (RAutomation 0) (text_key greeting))
  /\ string_to_instructions greeting = Some (macro_of (cf_automation cf) (ak_on_press (text_key greeting)))
  /\ N.of_nat (List.length greeting) * (auc_duration (cf_automation cf) + 2) + 2 <= N.of_nat (ticks after)
  /\ returns (run_ops (tconf greeting) 60 letter_tapped (tstart 10 greeting)) (fun k1 =>
       km_has_scheduled_events k1 = false /\ km_pressed_keys (tconf greeting) k1 = Ok [] /\ has_pressed k1 0 = false
       /\ returns (reports (tconf greeting) 60 (P 0 :: after) k1) (fun '(k, rs) => typed no_keys rs = greeting /\ km_pressed_keys (tconf greeting) k = Ok [])
       /\ returns (reports (tconf greeting) 60 (P 0 :: firstn 60 after) k1) (fun '(k, rs) => typed no_keys rs = text_of "Hello,")).
Proof.
  cbv zeta. split; [apply text_refs_ok; vm_compute; discriminate|]. split; [exact (text_only _ _)|].
  split; [exact SchedulerFacts.bs_std_position_ok|]. split; [intros t; unfold bs_std; cbn; now rewrite N.eqb_refl|]. split; [exists CbReset, CbReset; constructor|].
  split; [repeat constructor|]. split; [apply Forall_forall; intros o [<-|Ho]; [reflexivity|apply repeat_spec in Ho; now subst]|].
  split; [split; vm_compute; reflexivity|]. split; [intros on def; constructor; reflexivity|]. split; [vm_compute; reflexivity|]. split; [vm_compute; discriminate|].
  vm_compute. repeat split; reflexivity.
Qed.

Definition word : text := text_of "ab".
Definition just_released : list op := [P 1; OpTick; OpTick; Rl 1].
Lemma first_letter_lost :
  returns (run_ops (tconf word) 60 just_released (tstart 1 word)) (fun k1 =>
    km_has_scheduled_events k1 = false /\ km_pressed_keys (tconf word) k1 = Ok [] /\ has_pressed k1 0 = false
    /\ returns (reports (tconf word) 60 (P 0 :: repeat OpTick 12) k1) (fun '(k, rs) => typed no_keys rs = text_of "b")).
Proof. vm_compute. repeat split; reflexivity. Qed.
(** C78: the instructions must last longer than a tick.  Here they do not: the first
    letter is pressed and released in one tick and no report has it. *)
Theorem C78_short_duration_refuted :
  ~ (forall refs d pos dbg height fuel before after cf k1 k i r a t rs, position_ok pos -> finds_the_one pos ->
     Forall (macro_board_key (cf_layer_count cf) d (cf_automation cf) height) refs -> only_when_pressed refs d (cf_automation cf) ->
     Forall (fun o => plain_op o = true) before -> Forall (fun o => presses_none o = true) after ->
     0 < ck_ms (clocks_run before) <= auc_duration (cf_automation cf) ->
     run_ops (cconf refs d pos dbg) fuel before (km_new (ctx_from_config cf)) = Ok k1 ->
     km_has_scheduled_events k1 = false -> km_pressed_keys (cconf refs d pos dbg) k1 = Ok [] -> has_pressed k1 i = false ->
     nth_error refs (N.to_nat i) = Some r ->
     runs d (is_on (cx_layered (km_ctx k1))) (lyx_default (cx_layered (km_ctx k1))) r a ->
     string_to_instructions t = Some (macro_of (cf_automation cf) (ak_on_press a)) ->
     reports (cconf refs d pos dbg) fuel (OpInput (Press i) :: after) k1 = Ok (k, rs) ->
     exists others, typed no_keys rs ++ others = t).
Proof.
  intros H. destruct (returns_inv _ _ first_letter_lost) as (k1 & E & X1 & X2 & X3 & X4). destruct (returns_inv _ _ X4) as ((k & rs) & E' & X5). clear X4.
  assert (Y : exists others, typed no_keys rs ++ others = word); [|destruct Y as (others & Y); rewrite X5 in Y; vm_compute in Y; discriminate Y].
  refine (H text_refs (text_data word) bs_std false 0%nat 60%nat just_released (repeat OpTick 12) (text_config 1 word) k1 k 0 (RAutomation 0) (text_key word) word rs
    SchedulerFacts.bs_std_position_ok _ (text_refs_ok 1 word _) _ _ _ _ E X1 X2 X3 eq_refl _ _ E').
  - intros t. unfold bs_std. cbn. now rewrite N.eqb_refl.
  - vm_compute. discriminate.
  - exact (text_only _ _).
  - repeat constructor.
  - repeat constructor.
  - split; vm_compute; [reflexivity|discriminate].
  - constructor. reflexivity.
  - vm_compute. reflexivity.
Qed.

Print Assumptions C78_which_texts.
Print Assumptions C78_types_the_text.
Print Assumptions C78_short_duration_refuted.
