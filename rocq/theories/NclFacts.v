(** Proofs about the way from keymap.ncl to keymap.json (C63). *)
From Coq Require Import String Ascii Permutation.
From Verif Require Import BaseFacts Output Types SimpleKeys TapHold TapDance Sticky Layered Automation Chorded
  Composite Ncl NclCodegen SpecNcl.
Import List.
Local Open Scope string_scope.
Local Open Scope N_scope.
Local Open Scope list_scope.

(** ** Records *)

Lemma get_in : forall fs f v, NoDup (names fs) -> In (f, v) fs -> get f fs = Some v.
Proof.
  induction fs as [|[g w] fs IH]; intros f v Hd Hi; [contradiction|].
  cbn [get]. inversion Hd as [|? ? Hn Hd']; subst.
  destruct Hi as [E|Hi].
  - inversion E; subst. now rewrite String.eqb_refl.
  - destruct (String.eqb_spec f g) as [->|_]; [|now apply IH].
    exfalso. apply Hn. apply in_map_iff. exists (g, v). auto.
Qed.

Lemma get_none : forall fs f, ~ In f (names fs) -> get f fs = None.
Proof.
  induction fs as [|[g w] fs IH]; intros f Hn; [reflexivity|].
  cbn [get]. destruct (String.eqb_spec f g) as [->|_].
  - exfalso. apply Hn. now left.
  - apply IH. intros Hi. apply Hn. now right.
Qed.

Lemma get_some_in : forall fs f v, get f fs = Some v -> In (f, v) fs.
Proof.
  induction fs as [|[g w] fs IH]; intros f v H; [discriminate|].
  cbn [get] in H. destruct (String.eqb_spec f g) as [->|_]; [inversion H; now left|right; now apply IH].
Qed.

Lemma names_perm : forall a b, Permutation a b -> Permutation (names a) (names b).
Proof. intros. now apply Permutation_map. Qed.

Lemma get_perm : forall a b f, NoDup (names b) -> Permutation a b -> get f a = get f b.
Proof.
  intros a b f Hd Hp.
  assert (Ha : NoDup (names a)).
  { eapply Permutation_NoDup; [apply Permutation_sym, names_perm; eassumption|assumption]. }
  destruct (get f b) as [v|] eqn:E.
  - apply get_in; [assumption|]. eapply Permutation_in; [apply Permutation_sym; eassumption|].
    now apply get_some_in.
  - destruct (get f a) as [v|] eqn:Ea; [|reflexivity].
    apply get_some_in in Ea. eapply Permutation_in in Ea; [|eassumption].
    rewrite (get_in _ _ _ Hd Ea) in E. discriminate.
Qed.

Lemma without_perm : forall a b f, Permutation a b -> Permutation (without f a) (without f b).
Proof.
  unfold without. intros a b f H. induction H; cbn [filter].
  - apply Permutation_refl.
  - destruct (negb (String.eqb f (fst x))); [now constructor|assumption].
  - destruct (negb (String.eqb f (fst x))), (negb (String.eqb f (fst y))); try apply Permutation_refl. constructor.
  - eapply Permutation_trans; eassumption.
Qed.

Lemma without_notin : forall a f, ~ In f (names a) -> without f a = a.
Proof.
  unfold without. induction a as [|[g v] a IH]; intros f Hn; [reflexivity|]. cbn [filter fst].
  destruct (String.eqb_spec f g) as [->|_]; [exfalso; apply Hn; now left|].
  cbn [negb]. f_equal. apply IH. intros Hi. apply Hn. now right.
Qed.

Lemma without_app : forall a b f, without f (a ++ b) = without f a ++ without f b.
Proof. intros. unfold without. apply filter_app. Qed.

Lemma names_app : forall a b, names (a ++ b) = names a ++ names b.
Proof. intros. apply map_app. Qed.

Lemma mem_true : forall l f, mem f l = true <-> In f l.
Proof.
  intros l f. unfold mem. rewrite existsb_exists. split.
  - intros [x [Hi E]]. apply String.eqb_eq in E. now subst.
  - intros Hi. exists f. split; [assumption|apply String.eqb_refl].
Qed.

Lemma mem_false : forall l f, ~ In f l -> mem f l = false.
Proof. intros l f H. destruct (mem f l) eqn:E; [|reflexivity]. now apply mem_true in E. Qed.

Lemma has_only_false : forall ns r f, In f r -> mem f ns = false -> has_only_fields ns r = false.
Proof.
  intros ns r f Hi Hm. unfold has_only_fields.
  destruct (forallb (fun f => mem f ns) r) eqn:E; [|reflexivity].
  rewrite forallb_forall in E. rewrite (E f Hi) in Hm. discriminate.
Qed.

Lemma has_exact_false : forall ns r f, In f r -> mem f ns = false -> has_exact_fields ns r = false.
Proof. intros. unfold has_exact_fields. erewrite has_only_false by eassumption. apply andb_false_r. Qed.

Lemma only_false : forall fs f x, In x (names fs) -> String.eqb f x = false -> only f (VRec fs) = None.
Proof.
  intros [|[g v] [|]] f x Hi E; try reflexivity.
  destruct Hi as [E0|[]]. cbn in E0. subst x. cbn. now rewrite E.
Qed.

(** ** Keys with more fields than their own *)

Definition extra : list string := ["hold"; "tap_dances"; "layered"].

Definition plain_module (m : kmod) : bool :=
  match m with KChorded | KLayered | KTapDance | KTapHold => false | _ => true end.

Lemma plain_module_false : forall rec fs x m,
  In x (names fs) -> In x extra -> plain_module m = true -> module_valid rec m (VRec fs) = Ok false.
Proof.
  intros rec fs x m Hi He Hm.
  destruct m; try discriminate Hm; cbn [module_valid];
    unfold automation_valid, record_of, callback_valid, layer_modifier_valid, equals_string;
    try reflexivity;
    try (erewrite only_false; [reflexivity|exact Hi|]; destruct He as [<-|[<-|[<-|[]]]]; reflexivity);
    try (erewrite has_only_false; [reflexivity|exact Hi|]; destruct He as [<-|[<-|[<-|[]]]]; reflexivity);
    try (erewrite has_exact_false; [reflexivity|exact Hi|]; destruct He as [<-|[<-|[<-|[]]]]; reflexivity).
  erewrite (has_only_false ["key_code"; "modifiers"]); [now rewrite andb_false_r|exact Hi|].
  destruct He as [<-|[<-|[<-|[]]]]; reflexivity.
Qed.

(** ** Lists of modules *)

Lemma any_of_filter : forall (g : kmod -> vtor) v ms m l,
  filter_modules (fun m => g m v) ms = Ok (m :: l) -> any_of (map g ms) v = Ok true.
Proof.
  induction ms as [|m0 ms IH]; intros m l H; cbn [filter_modules] in H; [discriminate H|].
  cbn [map any_of]. destruct (g m0 v) as [b| |]; cbn [bind] in *; try discriminate H.
  destruct b; [reflexivity|].
  destruct (filter_modules (fun m => g m v) ms) as [l0| |] eqn:E; cbn [bind] in H; try discriminate H.
  inv_ok H. now apply IH with (1 := eq_refl).
Qed.

(** The modules of [v], given their answers. *)
Lemma filter_modules_ext : forall p q ms, (forall m, p m = q m) -> filter_modules p ms = filter_modules q ms.
Proof. induction ms as [|m ms IH]; intros H; cbn [filter_modules]; [reflexivity|]. now rewrite H, IH. Qed.

(** [v] is a key of module [m] at fuel [f]. *)
Definition good (f : nat) (v : val) (m : kmod) : Prop :=
  exists l, filter_modules (fun m => module_valid (key_valid f) m v) key_modules = Ok (m :: l).

Lemma good_valid : forall f v m, good f v m -> key_valid (S f) v = Ok true.
Proof. intros f v m [l H]. cbn [key_valid]. eapply any_of_filter with (1 := H). Qed.

Lemma good_module : forall f v m, good f v m -> key_module_for_value f v = Ok m.
Proof. intros f v m [l H]. unfold key_module_for_value. now rewrite H. Qed.

(** ** Modifiers *)

Lemma modifiers_are_valid : forall fs m, modifiers_written fs m -> modifiers_valid (VRec fs) = Ok true.
Proof.
  intros fs m [_ [Hb _]]. unfold modifiers_valid, record_of.
  replace (has_only_fields modifier_names (names fs)) with true.
  - assert (H : forall fs, (forall f v, In (f, v) fs -> exists b, v = VBool b) ->
        validate_fields (map (fun f => (f, is_bool)) modifier_names) fs = Ok true).
    { clear. induction fs as [|[f v] fs IH]; intros H; [reflexivity|]. cbn [validate_fields].
      destruct (H f v (or_introl eq_refl)) as [b ->].
      assert (E : match vget f (map (fun f => (f, is_bool)) modifier_names) with
                  | Some p => p (VBool b) | None => Ok true end = Ok true).
      { generalize modifier_names. induction l as [|g l IHl]; [reflexivity|]. cbn [map vget].
        destruct (String.eqb f g); [reflexivity|assumption]. }
      rewrite E. cbn [bind]. apply IH. intros f' v' Hi. apply (H f' v'). now right. }
    apply H. intros f v Hi. exact (proj2 (Hb f v Hi)).
  - symmetry. apply forallb_forall. intros f Hi. apply in_map_iff in Hi. destruct Hi as [[f' v] [<- Hi]].
    apply mem_true. exact (proj1 (Hb f' v Hi)).
Qed.

Lemma byte_bits : forall m, m < 256 ->
  m = 0 + N.b2n (N.testbit m 0) * 1 + N.b2n (N.testbit m 1) * 2 + N.b2n (N.testbit m 2) * 4
      + N.b2n (N.testbit m 3) * 8 + N.b2n (N.testbit m 4) * 16 + N.b2n (N.testbit m 5) * 32
      + N.b2n (N.testbit m 6) * 64 + N.b2n (N.testbit m 7) * 128.
Proof.
  assert (H : forallb (fun i => let m := N.of_nat i in
      m =? 0 + N.b2n (N.testbit m 0) * 1 + N.b2n (N.testbit m 1) * 2 + N.b2n (N.testbit m 2) * 4
      + N.b2n (N.testbit m 3) * 8 + N.b2n (N.testbit m 4) * 16 + N.b2n (N.testbit m 5) * 32
      + N.b2n (N.testbit m 6) * 64 + N.b2n (N.testbit m 7) * 128) (seq 0 256) = true) by (vm_compute; reflexivity).
  rewrite forallb_forall in H. intros m Hm.
  specialize (H (N.to_nat m)). cbv zeta in H. rewrite N2Nat.id in H.
  apply N.eqb_eq. apply H. apply in_seq. lia.
Qed.

Lemma modifier_bit_written : forall fs m f i bit,
  modifiers_written fs m -> In (f, i) modifier_bits ->
  modifier_bit fs f bit = Ok (N.b2n (N.testbit m i) * bit).
Proof.
  intros fs m f i bit [Hd [Hb [_ Hm]]] Hi. unfold modifier_bit. specialize (Hm f i Hi).
  destruct (get f fs) as [v|] eqn:E.
  - apply get_some_in in E. destruct (Hb f v E) as [_ [b ->]].
    destruct b; [rewrite (proj2 Hm E); cbn [N.b2n]; now rewrite N.mul_1_l|].
    destruct (N.testbit m i) eqn:Et; [|cbn [N.b2n]; now rewrite N.mul_0_l].
    exfalso. apply proj1 in Hm. specialize (Hm eq_refl).
    pose proof (get_in _ _ _ Hd E) as E1. rewrite (get_in _ _ _ Hd Hm) in E1. discriminate.
  - destruct (N.testbit m i) eqn:Et; [|cbn [N.b2n]; now rewrite N.mul_0_l].
    exfalso. apply proj1 in Hm. specialize (Hm eq_refl). rewrite (get_in _ _ _ Hd Hm) in E. discriminate.
Qed.

Lemma modifiers_json : forall fs m, modifiers_written fs m -> modifiers_to_json (VRec fs) = Ok (VNum m).
Proof.
  intros fs m H. unfold modifiers_to_json.
  rewrite (modifier_bit_written fs m "left_ctrl" 0 1 H) by (cbn; auto 10).
  rewrite (modifier_bit_written fs m "left_shift" 1 2 H) by (cbn; auto 10).
  rewrite (modifier_bit_written fs m "left_alt" 2 4 H) by (cbn; auto 10).
  rewrite (modifier_bit_written fs m "left_gui" 3 8 H) by (cbn; auto 10).
  rewrite (modifier_bit_written fs m "right_ctrl" 4 16 H) by (cbn; auto 10).
  rewrite (modifier_bit_written fs m "right_shift" 5 32 H) by (cbn; auto 10).
  rewrite (modifier_bit_written fs m "right_alt" 6 64 H) by (cbn; auto 10).
  rewrite (modifier_bit_written fs m "right_gui" 7 128 H) by (cbn; auto 10).
  cbn [bind]. rewrite <- byte_bits; [reflexivity|]. exact (proj1 (proj2 (proj2 H))).
Qed.

(** ** Keys that are not made of keys *)

Definition core_module {M} (k : ukey M) : kmod :=
  match k with
  | UCode _ | UMods _ | UCodeMods _ _ => KKeyboard
  | UConsumer _ => KConsumer
  | UCustom _ => KCustom
  | UMouse _ => KMouse
  | UCallback _ => KCallback
  | UCapsWord => KCapsWord
  | USticky _ => KSticky
  | ULayer _ => KLayerModifier
  | UMacro _ => KAutomation
  | UTapHold _ _ => KTapHold
  | UTapDance _ _ => KTapDance
  | ULayered _ _ => KLayered
  | UChorded _ _ => KChorded
  | UAux _ => KChordedAux
  end.

Lemma numbers_valid : forall ls, validate_elements is_number (map VNum ls) = Ok true.
Proof. induction ls as [|l ls IH]; [reflexivity|]. cbn. exact IH. Qed.

Lemma layer_is_valid : forall f v l, layer_written f v l ->
  layer_modifier_valid (VRec [("layer_modifier", VRec [(f, v)])]) = Ok true.
Proof.
  intros f v l H. destruct H; try reflexivity.
  - cbn -[N.ltb]. replace (0 <? l) with true by (symmetry; now apply N.ltb_lt). reflexivity.
  - cbn. apply numbers_valid.
Qed.

Lemma callback_is_valid : forall c, callback_valid (VRec [("keymap_callback", callback_value c)]) = Ok true.
Proof. intros [| |[]|]; reflexivity. Qed.

Lemma core_good : forall M (mw : val -> M -> Prop) cf c fs f,
  (forall v x, mw v x -> key_instructions_valid v = Ok true) ->
  core_written mw cf c -> Permutation fs cf -> good f (VRec fs) (core_module c).
Proof.
  intros M mw cf c fs f Hmw Hc Hp. apply Permutation_sym in Hp.
  destruct Hc; (apply Permutation_length_1_inv in Hp || (apply Permutation_length_2_inv in Hp; destruct Hp as [Hp|Hp]));
    subst fs; exists []; cbn [filter_modules key_modules core_module].
  - reflexivity.
  - cbn -[modifiers_valid]. rewrite (modifiers_are_valid _ _ H). reflexivity.
  - cbn -[modifiers_valid]. rewrite (modifiers_are_valid _ _ H0). reflexivity.
  - cbn -[modifiers_valid]. rewrite (modifiers_are_valid _ _ H0). reflexivity.
  - reflexivity.
  - reflexivity.
  - destruct m; reflexivity.
  - destruct c as [| |[]|]; reflexivity.
  - cbn -[modifiers_valid]. rewrite (modifiers_are_valid _ _ H). reflexivity.
  - cbn -[layer_modifier_valid]. rewrite (layer_is_valid _ _ _ H). reflexivity.
  - cbn -[key_instructions_valid]. rewrite (Hmw _ _ H). reflexivity.
Qed.

Lemma caps_good : forall f, good f (VStr "ToggleCapsWord") KCapsWord.
Proof. intros f. exists []. reflexivity. Qed.

(** ** Keys made of keys *)

Lemma core_names : forall M (mw : val -> M -> Prop) cf c x, core_written mw cf c -> In x (names cf) ->
  In x ["key_code"; "modifiers"; "consumer_code"; "custom"; "mouse"; "keymap_callback"; "sticky_modifiers";
        "layer_modifier"; "automation_instructions"].
Proof.
  intros M mw cf c x H Hi. destruct H; cbn in Hi; cbn; intuition.
Qed.

Lemma core_nodup : forall M (mw : val -> M -> Prop) cf c, core_written mw cf c -> NoDup (names cf).
Proof.
  intros M mw cf c H. destruct H; repeat (constructor; [cbn; intuition discriminate|]); constructor.
Qed.

Lemma core_not_extra : forall M (mw : val -> M -> Prop) cf c x, core_written mw cf c ->
  In x ("chords" :: "passthrough" :: extra) -> ~ In x (names cf).
Proof.
  intros M mw cf c x H Hx Hi. apply (core_names _ _ _ _ _ H) in Hi.
  cbn in Hx, Hi. intuition (subst; discriminate).
Qed.

Lemma elements_valid : forall p l, Forall (fun v => p v = Ok true) l -> validate_elements p l = Ok true.
Proof. induction 1 as [|v l H _ IH]; [reflexivity|]. cbn [validate_elements]. rewrite H. exact IH. Qed.

(** A record with an extra field: the plain modules and the chord modules say
    no; the answers of the others decide. *)
Lemma filter_extra : forall f fs x a b c,
  In x (names fs) -> In x extra -> ~ In "chords" (names fs) ->
  module_valid (key_valid f) KLayered (VRec fs) = Ok a ->
  module_valid (key_valid f) KTapDance (VRec fs) = Ok b ->
  module_valid (key_valid f) KTapHold (VRec fs) = Ok c ->
  filter_modules (fun m => module_valid (key_valid f) m (VRec fs)) key_modules
  = Ok ((if a then [KLayered] else []) ++ (if b then [KTapDance] else []) ++ (if c then [KTapHold] else [])).
Proof.
  intros f fs x a b c Hi He Hch Ha Hb Hc.
  assert (Hp : forall m, plain_module m = true -> module_valid (key_valid f) m (VRec fs) = Ok false).
  { intros m Hm. eapply plain_module_false; eassumption. }
  assert (Hcd : module_valid (key_valid f) KChorded (VRec fs) = Ok false).
  { cbn [module_valid only2]. rewrite (get_none _ _ Hch). now destruct (length fs) as [|[|[|]]]. }
  unfold key_modules. cbn [filter_modules].
  rewrite (Hp KAutomation), (Hp KCallback), (Hp KCapsWord), Hcd, (Hp KChordedAux), (Hp KConsumer),
    (Hp KCustom), (Hp KKeyboard), (Hp KLayerModifier), Ha, (Hp KMouse), (Hp KSticky), Hb, Hc by reflexivity.
  cbn [bind]. destruct a, b, c; reflexivity.
Qed.

Lemma nodup_app : forall A (l m : list A),
  NoDup l -> NoDup m -> (forall x, In x l -> ~ In x m) -> NoDup (l ++ m).
Proof.
  intros A l m Hl Hm Hd. induction Hl as [|x l Hx _ IH]; [exact Hm|]. cbn. constructor.
  - intros Hi. apply in_app_or in Hi. destruct Hi as [Hi|Hi]; [now apply Hx|]. apply (Hd x); [now left|assumption].
  - apply IH. intros y Hy. apply Hd. now right.
Qed.

Lemma get_app_notin : forall x (l r : list (string * val)), ~ In x (names l) -> get x (l ++ r) = get x r.
Proof.
  intros x l r Hn. induction l as [|[g v] l IH]; [reflexivity|]. cbn [app get].
  destruct (String.eqb_spec x g) as [->|_]; [exfalso; apply Hn; now left|].
  apply IH. intros Hi. apply Hn. now right.
Qed.

(** The fields of a written record. *)
Definition some_n {A} (o : option A) : nat := match o with Some _ => 1 | None => 0 end.

Section Fields.
  Context {M : Type} (mw : val -> M -> Prop).
  Variables (cf : list (string * val)) (c : ukey M).
  Hypothesis Hcore : core_written mw cf c.

  Definition fields (h : option (val * ukey M)) (t : option (list val * list (ukey M)))
      (l : option (list val * list (option (ukey M)))) : list (string * val) :=
    cf ++ hold_field h ++ dances_field t ++ layers_field l.

  Lemma core_no : forall x, In x ("chords" :: "passthrough" :: extra) -> ~ In x (names cf).
  Proof. intros x. apply (core_not_extra _ _ _ _ _ Hcore). Qed.

  Lemma fields_nodup : forall h t l, NoDup (names (fields h t l)).
  Proof.
    intros h t l. unfold fields. rewrite names_app. apply nodup_app.
    - exact (core_nodup _ _ _ _ Hcore).
    - destruct h as [[? ?]|], t as [[? ?]|], l as [[? ?]|]; cbn;
        repeat (constructor; [cbn; intuition discriminate|]); constructor.
    - intros x Hx Hi. revert Hx. apply core_no.
      destruct h as [[? ?]|], t as [[? ?]|], l as [[? ?]|]; cbn in Hi |- *; intuition.
  Qed.

  Lemma fields_chords : forall h t l, ~ In "chords" (names (fields h t l)).
  Proof.
    intros h t l Hi. unfold fields in Hi. rewrite names_app in Hi. apply in_app_or in Hi.
    destruct Hi as [Hi|Hi]; [revert Hi; apply core_no; cbn; auto|].
    destruct h as [[? ?]|], t as [[? ?]|], l as [[? ?]|]; cbn in Hi; intuition discriminate.
  Qed.

  Lemma get_core_none : forall x r, In x extra -> get x (cf ++ r) = get x r.
  Proof.
    intros x r Hx. assert (Hn : ~ In x (names cf)) by (apply core_no; cbn in *; tauto).
    now apply get_app_notin.
  Qed.
  Lemma get_hold : forall h t l, get "hold" (fields h t l) = option_map fst h.
  Proof. intros h t l. unfold fields. rewrite get_core_none by (cbn; auto). now destruct h as [[? ?]|], t as [[? ?]|], l as [[? ?]|]. Qed.
  Lemma get_dances : forall h t l, get "tap_dances" (fields h t l) = option_map (fun x => VArr (fst x)) t.
  Proof. intros h t l. unfold fields. rewrite get_core_none by (cbn; auto). now destruct h as [[? ?]|], t as [[? ?]|], l as [[? ?]|]. Qed.
  Lemma get_layers : forall h t l, get "layered" (fields h t l) = option_map (fun x => VArr (fst x)) l.
  Proof. intros h t l. unfold fields. rewrite get_core_none by (cbn; auto). now destruct h as [[? ?]|], t as [[? ?]|], l as [[? ?]|]. Qed.

  Lemma without_core : forall x r, In x extra -> without x (cf ++ r) = cf ++ without x r.
  Proof.
    intros x r Hx. rewrite without_app. rewrite (without_notin cf); [reflexivity|].
    apply core_no. cbn in *. tauto.
  Qed.
  Lemma without_hold : forall h t l, without "hold" (fields h t l) = fields None t l.
  Proof. intros h t l. unfold fields. rewrite without_core by (cbn; auto). now destruct h as [[? ?]|], t as [[? ?]|], l as [[? ?]|]. Qed.
  Lemma without_dances : forall h t l, without "tap_dances" (fields h t l) = fields h None l.
  Proof. intros h t l. unfold fields. rewrite without_core by (cbn; auto). now destruct h as [[? ?]|], t as [[? ?]|], l as [[? ?]|]. Qed.
  Lemma without_layers : forall h t l, without "layered" (fields h t l) = fields h t None.
  Proof. intros h t l. unfold fields. rewrite without_core by (cbn; auto). now destruct h as [[? ?]|], t as [[? ?]|], l as [[? ?]|]. Qed.
End Fields.

Lemma null_or_valid : forall M (P : val -> ukey M -> Prop) (p : vtor) vs ks,
  (forall v k, P v k -> p v = Ok true) -> Forall2 (null_or P) vs ks ->
  validate_elements (any_of [is_null; p]) vs = Ok true.
Proof.
  intros M P p vs ks Hp H. apply elements_valid. induction H as [|v o vs ks Hv _ IH]; [constructor|].
  constructor; [|assumption]. destruct Hv as [|v k Hk]; [reflexivity|].
  cbn [any_of]. cbn. destruct v; try reflexivity; rewrite (Hp _ _ Hk); reflexivity.
Qed.

Lemma written_elements_valid : forall M (P : val -> ukey M -> Prop) (p : vtor) vs ks,
  (forall v k, P v k -> p v = Ok true) -> Forall2 P vs ks -> validate_elements p vs = Ok true.
Proof.
  intros M P p vs ks Hp H. apply elements_valid. induction H; constructor; eauto.
Qed.

Lemma record_good : forall M (mw : val -> M -> Prop) n K,
  (forall v x, mw v x -> key_instructions_valid v = Ok true) ->
  (forall v k, written mw n v k -> forall f, (K <= f)%nat -> key_valid f v = Ok true) ->
  forall j cf c h t l fs f,
  core_written mw cf c ->
  (forall v k, h = Some (v, k) -> written mw n v k) ->
  (forall vs ks, t = Some (vs, ks) -> Forall2 (written mw n) vs ks) ->
  (forall vs ks, l = Some (vs, ks) -> Forall2 (null_or (written mw n)) vs ks) ->
  Permutation fs (fields cf h t l) ->
  (some_n h + some_n t + some_n l = j)%nat -> (K + j <= f)%nat ->
  good f (VRec fs) (core_module (with_layers l (with_dances t (with_hold h c)))).
Proof.
  intros M mw n K Hmw HK. induction j as [|j IH]; intros cf c h t l fs f Hc Hh Ht Hl Hp Hj Hf.
  - destruct h, t, l; try discriminate Hj. cbn [with_layers with_dances with_hold].
    eapply core_good; [eassumption|eassumption|]. unfold fields in Hp. cbn in Hp. now rewrite app_nil_r in Hp.
  - destruct f as [|f]; [lia|].
    pose proof (fields_nodup mw cf c Hc h t l) as Hnd.
    assert (Hx : exists x, In x (names fs) /\ In x extra).
    { destruct h as [[hv hk]|]; [exists "hold"|destruct t as [[tv tk]|]; [exists "tap_dances"|
        destruct l as [[lv lk]|]; [exists "layered"|discriminate Hj]]].
      all: split; [|cbn; auto].
      all: apply (Permutation_in _ (Permutation_sym (names_perm _ _ Hp))).
      all: unfold fields; rewrite names_app; apply in_or_app; right; cbn; auto.
      all: try (destruct t as [[? ?]|]); cbn; auto. }
    destruct Hx as [x [Hx1 Hx2]].
    assert (Hch : ~ In "chords" (names fs)).
    { intros Hi. apply (Permutation_in _ (names_perm _ _ Hp)) in Hi. revert Hi. eapply fields_chords. eassumption. }
    assert (Hrest : forall h' t' l' fs',
        (h' = h \/ h' = None) -> (t' = t \/ t' = None) -> (l' = l \/ l' = None) ->
        Permutation fs' (fields cf h' t' l') ->
        (some_n h' + some_n t' + some_n l' = j)%nat -> key_valid (S f) (VRec fs') = Ok true).
    { intros h' t' l' fs' Eh Et El Hp' Hj'. eapply good_valid. eapply IH; [exact Hc| | | |exact Hp'|exact Hj'|lia].
      - intros v k E. destruct Eh as [->| ->]; [now apply Hh|discriminate].
      - intros vs ks E. destruct Et as [->| ->]; [now apply Ht|discriminate].
      - intros vs ks E. destruct El as [->| ->]; [now apply Hl|discriminate]. }
    assert (Ha : module_valid (key_valid (S f)) KLayered (VRec fs)
                 = Ok (match l with Some _ => true | None => false end)).
    { cbn [module_valid]. rewrite (get_perm _ _ _ Hnd Hp), (get_layers mw cf c Hc).
      destruct l as [[lv lk]|]; [|reflexivity]. cbn [option_map fst]. unfold two_results, array_of. cbv beta iota.
      rewrite (null_or_valid M (written mw n) (key_valid (S f)) lv lk)
        by (try (apply Hl; reflexivity); intros v k Hk; apply (HK _ _ Hk); lia).
      cbn [bind]. rewrite (Hrest h t None); [reflexivity|auto|auto|auto| |].
      - rewrite <- (without_layers mw cf c Hc h t (Some (lv, lk))). now apply without_perm.
      - cbn [some_n] in Hj |- *. lia. }
    assert (Hb : module_valid (key_valid (S f)) KTapDance (VRec fs)
                 = Ok (match t with Some _ => true | None => false end)).
    { cbn [module_valid]. rewrite (get_perm _ _ _ Hnd Hp), (get_dances mw cf c Hc).
      destruct t as [[tv tk]|]; [|reflexivity]. cbn [option_map fst]. unfold two_results, array_of. cbv beta iota.
      rewrite (written_elements_valid M (written mw n) (key_valid (S f)) tv tk)
        by (try (apply Ht; reflexivity); intros v k Hk; apply (HK _ _ Hk); lia).
      cbn [bind]. rewrite (Hrest h None l); [reflexivity|auto|auto|auto| |].
      - rewrite <- (without_dances mw cf c Hc h (Some (tv, tk)) l). now apply without_perm.
      - cbn [some_n] in Hj |- *. lia. }
    assert (Hcc : module_valid (key_valid (S f)) KTapHold (VRec fs)
                 = Ok (match h with Some _ => true | None => false end)).
    { cbn [module_valid]. rewrite (get_perm _ _ _ Hnd Hp), (get_hold mw cf c Hc).
      destruct h as [[hv hk]|]; [|reflexivity]. cbn [option_map fst]. unfold two_results.
      rewrite (HK _ _ (Hh _ _ eq_refl)) by lia.
      cbn [bind]. rewrite (Hrest None t l); [reflexivity|auto|auto|auto| |].
      - rewrite <- (without_hold mw cf c Hc (Some (hv, hk)) t l). now apply without_perm.
      - cbn [some_n] in Hj |- *. lia. }
    pose proof (filter_extra (S f) fs x _ _ _ Hx1 Hx2 Hch Ha Hb Hcc) as Hfil.
    unfold good. rewrite Hfil.
    destruct l as [[lv lk]|], t as [[tv tk]|], h as [[hv hk]|]; try discriminate Hj; cbn; eauto.
Qed.

Lemma chorded_good : forall f fs vs pv,
  validate_elements (tuple_of [is_number; key_valid f]) vs = Ok true ->
  key_valid f pv = Ok true ->
  Permutation fs [("chords", VArr vs); ("passthrough", pv)] ->
  good f (VRec fs) KChorded.
Proof.
  intros f fs vs pv Hv Hp Hperm. apply Permutation_sym, Permutation_length_2_inv in Hperm.
  unfold good. exists []. destruct Hperm; subst fs; cbn -[key_valid]; unfold two_results; cbn -[key_valid tuple_of];
    rewrite Hv; cbn -[key_valid]; rewrite Hp; reflexivity.
Qed.

Lemma aux_good : forall f pv, key_valid f pv = Ok true -> good f (VRec [("passthrough", pv)]) KChordedAux.
Proof. intros f pv Hp. exists []. cbn -[key_valid]. rewrite Hp. reflexivity. Qed.

(** Every written key is accepted, by the module of its kind. *)
Lemma written_good : forall M (mw : val -> M -> Prop),
  (forall v x, mw v x -> key_instructions_valid v = Ok true) ->
  forall n v k, written mw n v k ->
  forall f, (4 * n <= S f)%nat -> good f v (core_module k).
Proof.
  intros M mw Hmw. induction n as [|n IH]; intros v k H f Hf; [inversion H|].
  assert (HK : forall v k, written mw n v k -> forall f, (4 * n <= f)%nat -> key_valid f v = Ok true).
  { intros v' k' H' f' Hf'. destruct n as [|n]; [inversion H'|]. destruct f' as [|f']; [lia|].
    eapply good_valid. apply IH with (1 := H'). lia. }
  inversion H as [|n' fs cf c h t l Hc Hh Ht Hl Hp|n' fs vs cs pv pk Hcs Hpk Hp|n' pv pk Hpk]; subst.
  - apply caps_good.
  - eapply (record_good M mw n (4 * n)%nat Hmw HK); try eassumption; [reflexivity|].
    destruct h, t, l; cbn [some_n]; lia.
  - apply chorded_good with (vs := vs) (pv := pv); [|apply (HK _ _ Hpk); lia|assumption].
    apply elements_valid. clear Hp H. induction Hcs as [|v e vs cs [kv [-> Hk]] _ IHcs]; [constructor|].
    constructor; [|assumption]. cbn -[key_valid]. rewrite (HK _ _ Hk) by lia. reflexivity.
  - apply aux_good. apply (HK _ _ Hpk). lia.
Qed.
