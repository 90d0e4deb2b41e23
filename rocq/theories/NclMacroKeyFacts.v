(** Proofs for C80: macro keys of a keymap.ncl. *)
From Coq Require Import String Ascii Permutation.
From Verif Require Import BaseFacts Output Types Scheduler Keymap SimpleKeys Layered Automation Chorded
  Composite SpecKeymap SpecPlain SpecLayer SpecBoard SpecKinds SpecMacro SpecMacroBoard Ncl NclCodegen SpecNcl NclMacroFacts
  NclLayoutFacts SpecNclBoard NclBoardFacts SpecNclKeys NclKeyFacts StringMacro StringFacts NclString.
Import List.
Local Open Scope N_scope.
Local Open Scope list_scope.

(** *** Macros in the table of instructions *)
Lemma part_macro cf e l : names_part (auc_instructions cf) e l -> SpecMacro.macro_of cf e = l /\ exec_in_range cf e.
Proof.
  intros (b & a & E & H1 & H2). split.
  - unfold SpecMacro.macro_of. rewrite E, H1, H2, !Nat2N.id, skipn_app, skipn_all, Nat.sub_diag. cbn [skipn app]. rewrite firstn_app, firstn_all, Nat.sub_diag. cbn [firstn]. apply app_nil_r.
  - right. rewrite E, H1, H2, !app_length. unfold u16. lia.
Qed.

Section Macros.
  Variables (cf : automation_config) (d : key_data) (lo : layout) (refs : list ref).
  Local Notation md := (is_macro (auc_instructions cf)).
  Local Notation n := (length (lo_uppers lo)).
  Hypothesis Hden : Forall2 (denotes md d) (positions lo) refs.
  Hypothesis Hlay : layout_of (macro_key n) lo.
  Hypothesis Hfit : forall k, In k (kd_layered d) -> length (lk_layered k) = n.

  Lemma leaf_macro_board h k r : macro_key n k -> denotes md d k r -> macro_board_key n d cf h r.
  Proof.
    intros [Hs|(x & ->)] Hd; [apply mbk_key; eapply leaf_board; eassumption|].
    destruct Hd as (i & a & -> & He & (H1 & H2 & H3)). eapply mbk_macro; [exact He|eapply part_macro; eassumption..].
  Qed.
  Lemma refs_macro_board : Forall (macro_board_key n d cf 1) refs.
  Proof.
    apply Forall_forall. intros r H. apply In_nth_error in H as (i & H). destruct (resolve md d lo refs _ Hden Hlay Hfit i r H) as (b & _ & Hb & [(Hd & _)|(j & lk & -> & Hj & Hl & Hd & Hr & _)]).
    - eapply leaf_macro_board; eassumption.
    - eapply mbk_layered; [exact Hj|exact Hl|eapply leaf_macro_board; eassumption|]. intros q Hq. destruct (Hr q Hq) as (k & Hk & Hkd). eapply leaf_macro_board; eassumption.
  Qed.
  Lemma leaf_runs on df k r a : macro_key n k -> denotes md d k r -> (runs d on df r a <-> exists x, k = UMacro x /\ md a x /\ exists q, r = RAutomation q /\ nth_error (kd_automation d) (N.to_nat q) = Some a).
  Proof.
    intros Hk Hd. split.
    - intros H. destruct Hk as [Hs|(x & ->)].
      + destruct (simple_ref md d n k r Hs Hd) as (X & _ & Y). destruct H as [q a Hq|j lk r a Hj _ _]; [now elim (X q)|now elim (Y j)].
      + destruct Hd as (i & a' & -> & He & Hm). inversion H as [q a0 Hq|]; subst. unfold entry in He. rewrite He in Hq. injection Hq as <-. eauto 6.
    - intros (x & -> & Hm & q & -> & Hq). now constructor.
  Qed.
  (** A position runs a macro exactly when the key that it shows is that macro. *)
  Lemma runs_shows i r on df a : nth_error refs i = Some r -> runs d on df r a -> exists x, shows lo i on df (UMacro x) /\ md a x.
  Proof.
    intros Hi H. destruct (resolve md d lo refs _ Hden Hlay Hfit i r Hi) as (b & _ & Hb & [(Hd & Hs)|(j & lk & -> & Hj & Hl & Hd & _ & Ha & _)]).
    - apply (leaf_runs on df b r a Hb Hd) in H. destruct H as (x & Eb & Hm & _). exists x. split; [apply Hs; now symmetry|exact Hm].
    - inversion H as [|? k' q ? Hk' Hq Hr]; subst. rewrite Hj in Hk'. injection Hk' as <-. destruct (Ha on df q Hq) as (k & Hs & Hk & Hkd).
      apply (leaf_runs on df k q a Hk Hkd) in Hr. destruct Hr as (x & Ek & Hm & _). subst k. eauto.
  Qed.
  Lemma shows_runs i r on df x : nth_error refs i = Some r -> shows lo i on df (UMacro x) -> exists a, runs d on df r a /\ md a x.
  Proof.
    intros Hi H. destruct (resolve md d lo refs _ Hden Hlay Hfit i r Hi) as (b & _ & Hb & [(Hd & Hs)|(j & lk & -> & Hj & Hl & Hd & _ & _ & Ha)]).
    - apply Hs in H. subst b. destruct Hd as (q & a & -> & He & Hm). exists a. split; [now constructor|exact Hm].
    - destruct (Ha on df _ H) as (q & Hq & _ & Hkd). destruct Hkd as (q' & a & -> & He & Hm). exists a. split; [|exact Hm]. eapply runs_layered; [exact Hj|exact Hq|]. now constructor.
  Qed.
  (** It means what the other keys that it shows mean. *)
  Lemma leaf_macro_means on df k r m : macro_key n k -> denotes md d k r -> (means d on df r m <-> key_means k m).
  Proof.
    intros [[[m0 Hk] Hl]|(x & ->)] Hd; [eapply leaf_means; eassumption|]. destruct Hd as (i & a & -> & _). split; intros H; [|inversion H]. inversion H; subst; contradiction.
  Qed.
  Lemma macro_means i r on df m : nth_error refs i = Some r -> (means d on df r m <-> exists k, shows lo i on df k /\ key_means k m).
  Proof.
    intros Hi. destruct (resolve md d lo refs _ Hden Hlay Hfit i r Hi) as (b & _ & Hb & [(Hd & Hs)|(j & lk & -> & Hj & Hl & Hd & _ & Ha & Ha')]).
    - rewrite (leaf_macro_means on df b r m Hb Hd). split; [intros H; exists b; split; [now apply Hs|exact H]|]. intros (k & Hk & H). apply Hs in Hk. now subst.
    - split.
      + intros H. inversion H as [? ? Hp|? ? Hp|? ? Hp|? k' q ? Hk' Hq Hr]; subst; [contradiction Hp|]. rewrite Hj in Hk'. injection Hk' as <-. destruct (Ha on df q Hq) as (k & Hs & Hk & Hkd).
        exists k. split; [exact Hs|]. now apply (leaf_macro_means on df k q m Hk Hkd).
      + intros (k & Hs & Hm). destruct (Ha' on df k Hs) as (q & Hq & Hk & Hkd). apply (leaf_macro_means on df k q m Hk Hkd) in Hm.
        eapply means_layered; eassumption.
  Qed.
End Macros.

(** *** String macros as they are written *)
Definition char_fine (c : ascii) : bool :=
  match char_output c with
  | Some ko => match ko_usage ko with Keyboard kc => (kc <=? 255) && (ko_mods ko <=? 255) && match mods_from_key_code kc with None => true | Some _ => false end | _ => false end
  | None => true
  end.
Lemma chars_fine : forallb (fun n => char_fine (ascii_of_nat n)) (seq 0 256) = true.
Proof. vm_compute. reflexivity. Qed.
Lemma char_output_fine c ko : char_output c = Some ko -> exists kc, ko = mkKO (Keyboard kc) (ko_mods ko) /\ kc <= 255 /\ ko_mods ko <= 255 /\ mods_from_key_code kc = None.
Proof.
  intros H. assert (X : char_fine c = true).
  { pose proof chars_fine as F. rewrite forallb_forall in F. specialize (F (nat_of_ascii c)). cbv beta in F. rewrite ascii_nat_embedding in F. apply F. apply in_seq. pose proof (nat_ascii_bounded c). lia. }
  unfold char_fine in X. rewrite H in X. destruct ko as [[kc| | |] m]; cbn [ko_usage ko_mods] in *; try discriminate. apply andb_prop in X as (X & X3). apply andb_prop in X as (X1 & X2). apply N.leb_le in X1, X2.
  exists kc. split; [reflexivity|]. destruct (mods_from_key_code kc); [discriminate|auto].
Qed.
Lemma tap_written c ko : char_output c = Some ko -> instruction_written (tap_value ko) (InTap ko).
Proof.
  intros H. destruct (char_output_fine c ko H) as (kc & E & H1 & H2 & H3). rewrite E. unfold tap_value. cbn [ko_usage ko_mods]. constructor. destruct (N.eqb_spec (ko_mods ko) 0) as [Z|Z].
  - rewrite Z. replace (mkKO (Keyboard kc) 0) with (ko_from_usage (Keyboard kc)); [apply ow_usage; now constructor|]. cbn. unfold ko_from_key_code. now rewrite H3.
  - replace (mkKO (Keyboard kc) (ko_mods ko)) with (ko_from_usage_with_modifiers (Keyboard kc) (ko_mods ko)); [eapply ow_both; [constructor; exact H1|exact H2|apply Permutation_refl]|]. cbn. now rewrite H3.
Qed.
Lemma string_written t v n : string_macro t = Some v -> exists l, string_to_instructions t = Some l /\ written macro_written (S n) v (UMacro (mkMacro l [] [])).
Proof.
  unfold string_macro, string_to_instructions. intros H. destruct (string_outputs t) as [kos|] eqn:E; [|discriminate]. cbn [option_map] in *. injection H as <-. exists (map InTap kos). split; [reflexivity|].
  pose proof (outputs_all _ _ E) as X.
  apply (w_record macro_written n _ [("automation_instructions", VRec [("on_press", VArr (map tap_value kos))])]%string _ None None None); try discriminate; [|apply Permutation_refl].
  constructor. eexists. split; [reflexivity|]. split; [repeat constructor; intros []|]. split; [intros f [<-|[]]; cbn; auto|]. split; [|split; reflexivity].
  cbn. eexists. split; [reflexivity|]. clear -X. induction X as [|c ko t kos H X IH]; constructor; [eapply tap_written; exact H|exact IH].
Qed.
