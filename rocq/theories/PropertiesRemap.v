(** C79: a keymap remapped to another keyboard. *)
From Coq Require Import String Ascii Permutation.
From Verif Require Import BaseFacts Output Types Scheduler Keymap SimpleKeys TapHold TapDance Sticky Layered Automation Chorded
  Composite SpecKeymap KeymapQueue KeymapApi SpecPlain PlainFacts SpecLayer SpecBoard BoardFacts PropertiesBoard
  Ncl NclCodegen NclRemap SpecNcl NclLayoutFacts SpecNclBoard NclBoardFacts PropertiesNcl SpecRemap RemapFacts.
Import List.
Local Open Scope string_scope.
Local Open Scope N_scope.
Local Open Scope list_scope.

(** C79: a keymap.ncl is remapped iff its layers have the number of keys that they are
    taken apart into, and each key of a chord goes to exactly one key. *)
Theorem C79_remaps_iff : forall n m places s lo, writes m s lo ->
  ((exists s', into_layout n places s = Ok s') <-> complete_layers n lo /\ within n places /\ chords_kept places lo).
Proof.
  intros n m L s lo Hw. destruct (remap_spec n m L s lo Hw) as (H1 & H2). split.
  - intros (s' & H). apply H2 in H. apply H.
  - exact H1.
Qed.

(** C79: the remapped keymap.ncl writes the layout on the other keyboard, which can be
    built if the layout could, and keeps the options. *)
Theorem C79_written : forall n m places s lo s', writes m s lo -> sound lo -> places <> [] ->
  into_layout n places s = Ok s' ->
  writes m s' (laid_out places lo) /\ sound (laid_out places lo) /\ ks_options s' = ks_options s.
Proof.
  intros n m L s lo s' Hw Hs HL H. destruct (remap_spec n m L s lo Hw) as (_ & H2). destruct (H2 s' H) as (Hr & Ho & Hx).
  split; [apply Hx; apply Hs|]. split; [eapply laid_out_sound; eassumption|exact Ho].
Qed.

(** C79: the firmware of the remapped keymap.ncl has a key for each key of the other
    keyboard, and each is the key that the original has at its position, with its layers
    and its chords, or the key without a function. *)
Theorem C79_same_keys : forall n m places s lo s' f g, writes m s lo -> sound lo -> places <> [] ->
  into_layout n places s = Ok s' -> (4 * (m + 2) <= f)%nat -> build f s' = Ok g ->
  length (gn_refs g) = length places /\
  (forall t i, nth_error places t = Some (Some i) -> exists k r,
     nth_error (positions lo) i = Some k /\ nth_error (gn_refs g) t = Some r /\
     denotes (is_macro (auc_instructions (cf_automation (gn_config g)))) (gn_data g) k r) /\
  (forall t, nth_error places t = Some None -> exists k r,
     (lo_uppers lo = [] /\ k = nothing \/ lo_uppers lo <> [] /\ k = ULayered nothing (repeat (Some nothing) (length (lo_uppers lo)))) /\
     nth_error (gn_refs g) t = Some r /\
     denotes (is_macro (auc_instructions (cf_automation (gn_config g)))) (gn_data g) k r).
Proof.
  intros n m L s lo s' f g Hw Hs HL H Hf Hb. destruct (C79_written n m L s lo s' Hw Hs HL H) as (Hw' & Hs' & _).
  destruct (remap_spec n m L s lo Hw) as (_ & H2). destruct (H2 s' H) as (Hr & _).
  pose proof (C63_means_what_is_written m s' _ f g Hw' Hs' Hf Hb) as HD.
  assert (F : forall t k, nth_error (positions (laid_out L lo)) t = Some k -> exists r, nth_error (gn_refs g) t = Some r /\
     denotes (is_macro (auc_instructions (cf_automation (gn_config g)))) (gn_data g) k r).
  { revert HD. generalize (positions (laid_out L lo)), (gn_refs g) at 1 2. intros l1 l2 HD. induction HD as [|k r l1 l2 H0 HD IH]; intros [|t] x Hx; try discriminate Hx.
    - injection Hx as <-. exists r. split; [reflexivity|exact H0].
    - now apply IH. }
  split; [|split].
  - apply f2_len in HD. rewrite <- HD, positions_length. cbn. apply map_length.
  - intros t i Ht. pose proof (positions_moved n L lo t Hr) as P. rewrite Ht in P.
    assert (Hi : (i < length (positions lo))%nat). { rewrite positions_length. destruct Hr as ((A & _) & B & _). rewrite A. apply B. eapply nth_error_In; exact Ht. }
    apply nth_error_Some in Hi. destruct (nth_error (positions lo) i) as [k|] eqn:Ek; [|congruence]. destruct (F t k P) as (r & R1 & R2). exists k, r. auto.
  - intros t Ht. pose proof (positions_moved n L lo t Hr) as P. rewrite Ht in P. destruct (F t _ P) as (r & R1 & R2). exists (nothing_at lo), r. split; [|auto].
    unfold nothing_at. destruct (lo_uppers lo); [left; auto|right; split; [discriminate|reflexivity]].
Qed.

(** C79: the other keyboard does what the original does.  For a layout of ordinary keys,
    callback keys and layer keys: play the same keys on both in the same order, each at any
    pace, and the keys without a function on the other in between; wait 32 ticks; the
    reports and the calls are the same. *)
Theorem C79_same_reports : forall n m places s lo s' f g g' pos dbg fuel setup ops ops',
  writes m s lo -> sound lo -> simple_layout lo -> places <> [] -> layers_left places lo ->
  into_layout n places s = Ok s' -> (4 * (m + 2) <= f)%nat -> build f s = Ok g -> build f s' = Ok g' ->
  N.of_nat (length (lo_base lo)) <= 65535 -> N.of_nat (length places) <= 65535 -> (5 <= fuel)%nat ->
  registers_two setup ->
  Forall (fun o => plain_op o = true) ops -> fits (length (lo_base lo)) 0 (accepted ops) ->
  ck_now (clocks_run ops) + 32 * ck_ms (clocks_run ops) <= u32_max ->
  Forall (fun o => plain_op o = true) ops' -> fits (length places) 0 (accepted ops') ->
  ck_now (clocks_run ops') + 32 * ck_ms (clocks_run ops') <= u32_max ->
  Forall (names_placed places) (accepted ops) ->
  filter (has_place places) (accepted ops') = map (move_input places) (accepted ops) ->
  exists k k',
    run_ops (cconf (gn_refs g) (gn_data g) pos dbg) fuel (setup ++ ops ++ repeat OpTick 32)
      (km_new (ctx_from_config (gn_config g))) = Ok k
  /\ run_ops (cconf (gn_refs g') (gn_data g') pos dbg) fuel (setup ++ ops' ++ repeat OpTick 32)
      (km_new (ctx_from_config (gn_config g'))) = Ok k'
  /\ km_boot_keyboard_report (cconf (gn_refs g') (gn_data g') pos dbg) k' =
     km_boot_keyboard_report (cconf (gn_refs g) (gn_data g) pos dbg) k
  /\ km_calls k' = km_calls k.
Proof.
  intros n m L s lo s' f g g' pos dbg fuel setup ops ops' Hw Hs Hsl HL Hll Hi Hf Hb Hb' Hl Hl' Hfu Hset Ho Hfit Hc Ho' Hfit' Hc' Hp HA.
  destruct (remap_spec n m L s lo Hw) as (_ & H2). destruct (H2 s' Hi) as (Hr & _).
  destruct (C79_written n m L s lo s' Hw Hs HL Hi) as (Hw' & Hs' & _).
  pose proof (laid_out_simple n L lo Hr Hsl Hll) as Hsl'.
  destruct (C65_reports_what_is_written m s lo f g pos dbg fuel setup ops) as (k & b & cs & A1 & A2 & A3 & A4 & A5); try assumption.
  destruct (C65_reports_what_is_written m s' (laid_out L lo) f g' pos dbg fuel setup ops') as (k' & b' & cs' & B1 & B2 & B3 & B4 & B5); try assumption.
  - cbn. now rewrite map_length.
  - cbn [laid_out lo_base]. now rewrite map_length.
  - exists k, k'. split; [exact A1|]. split; [exact B1|].
    destruct (run_moved n L lo _ b Hr Hp A2) as (A2' & _).
    assert (U : forall h b1 b2, layout_run (laid_out L lo) h b1 -> layout_run (laid_out L lo) h b2 -> same_board b1 b2) by (intros h b1 b2; eapply C65_unique; eassumption).
    destruct (without_run L lo _ _ B2) as (b2 & B2' & W). rewrite HA in B2'.
    split.
    + rewrite A3, B3. f_equal. rewrite <- (output_moved L b), <- (without_report L _ _ W). destruct (U _ _ _ B2' A2') as (E & _). unfold board_output. now rewrite E.
    + rewrite A5, B5. f_equal. apply (without_calls L lo _ _ U) in B4. rewrite HA in B4. eapply layout_calls_fun; [exact U|exact B4|]. eapply calls_moved; eassumption.
Qed.

(** *** Examples

    The keyboard of C63 with four keys, on one of six. *)
Definition six : list (option nat) := [None; Some 3%nat; Some 1%nat; Some 2%nat; None; Some 0%nat].
Example C79_example :
  writes 2 sample_src sample_layout /\ sound sample_layout /\
  complete_layers 4 sample_layout /\ within 4 six /\ chords_kept six sample_layout /\
  returns (into_layout 4 six sample_src) (fun s' =>
    ks_layers s' = [LKeys [NO_KEY; VRec [("automation_instructions", VRec [("on_press", VArr [tap_7; VStr "NoOp"])])];
                           VRec [("hold", VRec [("modifiers", VRec [("left_shift", VBool true)])]); ("key_code", VNum 6)];
                           VRec [("layer_modifier", VRec [("hold", VNum 1)])]; NO_KEY; key 4];
                    LKeys [NO_KEY; VNull; VNull; VNull; NO_KEY; key 5]] /\
    ks_chords s' = [mkChordSrc [2; 3] (key 41)] /\
    returns (build 16 s') (fun g => gn_refs g =
      [RLayered (LyLayered 0); RAutomation 0; RChorded (ChChorded 0); RChorded (ChAuxiliary 0); RLayered (LyLayered 1); RLayered (LyLayered 2)])).
Proof.
  split; [exact sample_writes|]. split; [exact sample_sound|]. split; [split; [reflexivity|repeat constructor]|].
  split; [intros i H; cbn in H; repeat (destruct H as [H|H]; [try discriminate H; injection H as <-; lia|]); destruct H|].
  split; [repeat constructor|]. vm_compute. repeat split; reflexivity.
Qed.
Definition three : list (option nat) := [Some 1%nat; None; Some 0%nat].
Example C79_reports_example :
  let ops := [OpInput (Press 1); OpTick; OpInput (Press 0)] in
  let ops' := [OpInput (Press 1); OpInput (Press 0); OpTick; OpInput (Press 2); OpInput (Release 1)] in
  writes 1 small_src small_layout /\ sound small_layout /\ simple_layout small_layout /\ layers_left three small_layout
  /\ Forall (fun o => plain_op o = true) ops /\ fits 2 0 (accepted ops) /\ Forall (names_placed three) (accepted ops)
  /\ Forall (fun o => plain_op o = true) ops' /\ fits 3 0 (accepted ops')
  /\ filter (has_place three) (accepted ops') = map (move_input three) (accepted ops)
  /\ returns (into_layout 2 three small_src) (fun s' =>
     returns (build 12 s') (fun g =>
       returns (run_ops (cconf (gn_refs g) (gn_data g) bs_std false) 5 (ops' ++ repeat OpTick 32)
                  (km_new (ctx_from_config (gn_config g)))) (fun k =>
         km_boot_keyboard_report (cconf (gn_refs g) (gn_data g) bs_std false) k = Ok [0; 0; 5; 0; 0; 0; 0; 0]))).
Proof.
  cbv zeta. destruct C65_example as (H1 & H2 & H3 & H4 & H5 & H6 & _).
  split; [exact H1|]. split; [exact H2|]. split; [exact H3|]. split; [right; left; cbn; auto|]. split; [exact H4|]. split; [exact H6|].
  split; [rewrite H5; repeat constructor|]. split; [repeat constructor|]. split; [|split; [reflexivity|vm_compute; repeat split; reflexivity]].
  split.
  - intros i Hi. cbn in Hi. repeat (destruct Hi as [Hi|Hi]; [try discriminate Hi; injection Hi as <-; cbn; lia|]). destruct Hi.
  - intros n. do 5 (destruct n as [|n]; [vm_compute; split; [lia|now left]|]). cbv zeta. rewrite firstn_all2 by (cbn; lia). vm_compute. split; [lia|now left].
Qed.

(** *** What is not possible

    remap.ncl means to leave out the keys that the other keyboard does not have (its filter
    of [remapped_indices], and [false] for an index that is not found), but a chord of a key
    that is left out makes the remapping fail, and so does a chord of a key that the other
    keyboard has twice. *)
Lemma dropped_fails : into_layout 4 [Some 0%nat; Some 1%nat; Some 3%nat] sample_src = Panic.
Proof. vm_compute. reflexivity. Qed.
Lemma doubled_fails : into_layout 4 [Some 0%nat; Some 1%nat; Some 2%nat; Some 3%nat; Some 1%nat] sample_src = Panic.
Proof. vm_compute. reflexivity. Qed.
Theorem C79_dropped_or_doubled_chord_key_refuted :
  ~ (forall n m places s lo, writes m s lo -> sound lo -> complete_layers n lo -> within n places ->
     exists s', into_layout n places s = Ok s').
Proof.
  intros H. assert (W : within 4 [Some 0%nat; Some 1%nat; Some 3%nat]). { intros i Hi; cbn in Hi; repeat (destruct Hi as [Hi|Hi]; [try discriminate Hi; injection Hi as <-; lia|]); destruct Hi. }
  destruct (H 4%nat 2%nat [Some 0%nat; Some 1%nat; Some 3%nat] sample_src sample_layout sample_writes sample_sound) as (s' & E); [split; [reflexivity|repeat constructor]|exact W|].
  rewrite dropped_fails in E. discriminate.
Qed.

Print Assumptions C79_remaps_iff.
Print Assumptions C79_written.
Print Assumptions C79_same_keys.
Print Assumptions C79_same_reports.
Print Assumptions C79_dropped_or_doubled_chord_key_refuted.
