(** Proofs about macros on the way from keymap.ncl to keymap.json (C63): their
    instructions are collected and their keys name them. *)
From Coq Require Import String Ascii Permutation.
From Verif Require Import BaseFacts Output Types SimpleKeys TapHold TapDance Sticky Layered Automation Chorded
  Composite Ncl NclCodegen SpecNcl NclFacts.
Import List.
Local Open Scope string_scope.
Local Open Scope N_scope.
Local Open Scope list_scope.

(** ** Induction on keys *)

Definition is_leaf {M} (k : ukey M) : bool :=
  match k with
  | UTapHold _ _ | UTapDance _ _ | ULayered _ _ | UChorded _ _ | UAux _ => false
  | _ => true
  end.

Section UkeyInd.
  Context {M : Type} (P : ukey M -> Prop).
  Hypothesis Hleaf : forall k, is_leaf k = true -> P k.
  Hypothesis Hhold : forall t h, P t -> P h -> P (UTapHold t h).
  Hypothesis Hdance : forall k ks, P k -> Forall P ks -> P (UTapDance k ks).
  Hypothesis Hlayered : forall b ls, P b -> (forall k, In (Some k) ls -> P k) -> P (ULayered b ls).
  Hypothesis Hchorded : forall cs p, (forall e, In e cs -> P (snd e)) -> P p -> P (UChorded cs p).
  Hypothesis Haux : forall p, P p -> P (UAux p).
  Fixpoint ukey_ind' (k : ukey M) : P k.
  Proof.
    destruct k as [ | | | | | | | | | | |t h|k ks|b ls|cs p|p]; try (apply Hleaf; reflexivity).
    - apply Hhold; apply ukey_ind'.
    - apply Hdance; [apply ukey_ind'|]. induction ks as [|x ks IH]; constructor; [apply ukey_ind'|exact IH].
    - apply Hlayered; [apply ukey_ind'|]. induction ls as [|[x|] ls IH]; intros k Hi.
      + destruct Hi.
      + destruct Hi as [E|Hi]; [injection E as <-; apply ukey_ind'|now apply IH].
      + destruct Hi as [E|Hi]; [discriminate E|now apply IH].
    - apply Hchorded; [|apply ukey_ind']. induction cs as [|[n x] cs IH]; intros e Hi.
      + destruct Hi.
      + destruct Hi as [<-|Hi]; [apply ukey_ind'|now apply IH].
    - apply Haux. apply ukey_ind'.
  Defined.
End UkeyInd.

(** ** Keys that differ in their macros *)

Definition both {A B} (R : A -> B -> Prop) (o : option A) (o' : option B) : Prop :=
  match o, o' with Some a, Some b => R a b | None, None => True | _, _ => False end.
Definition same_fst {A B C} (R : A -> B -> Prop) (e : C * A) (e' : C * B) : Prop :=
  match e, e' with (n, a), (n', b) => n = n' /\ R a b end.

Fixpoint umap {A B} (R : A -> B -> Prop) (k : ukey A) (k' : ukey B) : Prop :=
  match k, k' with
  | UCode c, UCode c' => c = c'
  | UMods m, UMods m' => m = m'
  | UCodeMods c m, UCodeMods c' m' => c = c' /\ m = m'
  | UConsumer c, UConsumer c' => c = c'
  | UCustom c, UCustom c' => c = c'
  | UMouse m, UMouse m' => m = m'
  | UCallback c, UCallback c' => c = c'
  | UCapsWord, UCapsWord => True
  | USticky m, USticky m' => m = m'
  | ULayer l, ULayer l' => l = l'
  | UMacro x, UMacro x' => R x x'
  | UTapHold t h, UTapHold t' h' => umap R t t' /\ umap R h h'
  | UTapDance k ks, UTapDance k' ks' => umap R k k' /\ all2 (umap R) ks ks'
  | ULayered b ls, ULayered b' ls' => umap R b b' /\ all2 (both (umap R)) ls ls'
  | UChorded cs p, UChorded cs' p' => all2 (same_fst (umap R)) cs cs' /\ umap R p p'
  | UAux p, UAux p' => umap R p p'
  | _, _ => False
  end.

Lemma all2_iff : forall A B (R : A -> B -> Prop) l m, all2 R l m <-> Forall2 R l m.
Proof.
  induction l as [|x l IH]; intros [|y m]; cbn; split; intros H; try contradiction; try (inversion H; fail).
  - constructor.
  - exact I.
  - destruct H. constructor; [assumption|]. now apply IH.
  - inversion H; subst. split; [assumption|]. now apply IH.
Qed.

Lemma all2_mono : forall A B (R S : A -> B -> Prop) l m,
  (forall x y, In x l -> R x y -> S x y) -> all2 R l m -> all2 S l m.
Proof.
  induction l as [|x l IH]; intros [|y m] H Ha; cbn in *; try contradiction; [exact I|].
  destruct Ha as [Hx Ha]. split; [apply H; auto|]. apply IH; auto.
Qed.

Lemma umap_mono : forall A B (R S : A -> B -> Prop), (forall x y, R x y -> S x y) ->
  forall k k', umap R k k' -> umap S k k'.
Proof.
  intros A B R S HRS. induction k as [k Hk|t h IHt IHh|k ks IHk IHks|b ls IHb IHls|cs p IHcs IHp|p IHp] using ukey_ind';
    intros k' H.
  - destruct k; try discriminate Hk; destruct k'; cbn in *; try contradiction; auto.
  - destruct k'; cbn in *; try contradiction. destruct H. split; auto.
  - destruct k'; cbn in *; try contradiction. destruct H as [Ha Hb]. split; auto.
    revert Hb. apply all2_mono. intros x y Hi. rewrite Forall_forall in IHks. apply IHks. exact Hi.
  - destruct k'; cbn in *; try contradiction. destruct H as [Ha Hb]. split; auto.
    revert Hb. apply all2_mono. intros [x|] [y|] Hi Hr; cbn in *; auto.
  - destruct k'; cbn in *; try contradiction. destruct H as [Ha Hb]. split; auto.
    revert Ha. apply all2_mono. intros [n x] [m y] Hi [-> Hr]; cbn in *. split; [reflexivity|].
    apply (IHcs _ Hi). exact Hr.
  - destruct k'; cbn in *; try contradiction. auto.
Qed.

(** ** Instructions are accepted *)

Lemma usage_valid : forall v u, usage_written v u -> key_usage_valid v = Ok true.
Proof.
  intros v u H. destruct H; try reflexivity. cbn -[mouse_output_valid].
  assert (E : mouse_output_valid (VRec fs) = Ok true); [|now rewrite E].
  unfold mouse_output_valid, record_of.
  assert (Hn : forall f w, In (f, w) fs -> In f mouse_output_fields /\ is_number w = Ok true).
  { intros f w Hi. apply (Permutation_in _ H4) in Hi. cbn in Hi.
    repeat (destruct Hi as [Hi|Hi]; [injection Hi as <- <-; split; [cbn; auto 10|reflexivity]|]). destruct Hi. }
  replace (has_only_fields mouse_output_fields (names fs)) with true.
  - clear -Hn. induction fs as [|[f w] fs IH]; [reflexivity|]. cbn [validate_fields].
    destruct (Hn f w (or_introl eq_refl)) as [Hf Hw].
    assert (E : match vget f (map (fun f => (f, is_number)) mouse_output_fields) with
                | Some p => p w | None => Ok true end = Ok true).
    { generalize mouse_output_fields. induction l as [|g l IHl]; [reflexivity|]. cbn [map vget].
      destruct (String.eqb f g); assumption. }
    rewrite E. cbn [bind]. apply IH. intros f' w' Hi. apply Hn. now right.
  - symmetry. apply forallb_forall. intros f Hi. apply in_map_iff in Hi. destruct Hi as [[f' w] [<- Hi]].
    apply mem_true. exact (proj1 (Hn _ _ Hi)).
Qed.

Lemma output_valid : forall v k, output_written v k -> key_output_valid v = Ok true.
Proof.
  intros v k H. destruct H as [v u Hu|m Hm|fs v u m Hu Hm Hp].
  - cbn -[key_usage_valid]. now rewrite (usage_valid _ _ Hu).
  - reflexivity.
  - apply Permutation_sym, Permutation_length_2_inv in Hp. destruct Hp; subst fs;
      cbn -[key_usage_valid]; now rewrite (usage_valid _ _ Hu).
Qed.

Lemma instruction_is_valid : forall v i, instruction_written v i -> instruction_valid v = Ok true.
Proof.
  intros v i H. destruct H; try reflexivity; cbn -[key_output_valid]; now rewrite (output_valid _ _ H).
Qed.

Lemma part_valid : forall vs is, Forall2 instruction_written vs is ->
  any_of [execution_valid; array_of instruction_valid] (VArr vs) = Ok true.
Proof.
  intros vs is H. cbn [any_of]. change (execution_valid (VArr vs)) with (Ok false). cbn [bind array_of].
  rewrite elements_valid; [reflexivity|]. induction H; constructor; eauto using instruction_is_valid.
Qed.

Lemma macro_valid : forall v x, macro_written v x -> key_instructions_valid v = Ok true.
Proof.
  intros v x [fs [-> [Hd [Hn [Hp [Hw Hr]]]]]]. unfold key_instructions_valid. cbv zeta.
  set (p := any_of [execution_valid; array_of instruction_valid]).
  unfold record_of.
  assert (Hf : forall f w, In (f, w) fs -> In f ["on_press"; "while_pressed"; "on_release"] /\ p w = Ok true).
  { intros f w Hi. assert (Hf : In f ["on_press"; "while_pressed"; "on_release"]).
    { apply Hn. apply in_map_iff. exists (f, w). auto. }
    split; [exact Hf|]. pose proof (get_in fs f w Hd Hi) as Hg.
    unfold part_written in Hp, Hw, Hr.
    destruct Hf as [<-|[<-|[<-|[]]]]; rewrite Hg in *.
    - destruct Hp as [vs [-> Hp]]. now apply part_valid with (1 := Hp).
    - destruct Hw as [vs [-> Hp0]]. now apply part_valid with (1 := Hp0).
    - destruct Hr as [vs [-> Hp0]]. now apply part_valid with (1 := Hp0). }
  replace (has_only_fields ["on_press"; "while_pressed"; "on_release"] (names fs)) with true.
  - clear -Hf. induction fs as [|[f w] fs IH]; [reflexivity|]. cbn [validate_fields].
    destruct (Hf f w (or_introl eq_refl)) as [Hi Hw].
    assert (E : match vget f [("on_press", p); ("while_pressed", p); ("on_release", p)] with
                | Some p => p w | None => Ok true end = Ok true).
    { cbn [vget]. destruct (String.eqb f "on_press"), (String.eqb f "while_pressed"), (String.eqb f "on_release");
        first [exact Hw|reflexivity]. }
    rewrite E. cbn [bind]. apply IH. intros f' w' Hi'. apply Hf. now right.
  - symmetry. apply forallb_forall. intros f Hi. apply in_map_iff in Hi. destruct Hi as [[f' w] [<- Hi]].
    apply mem_true. exact (proj1 (Hf _ _ Hi)).
Qed.

(** The keys of macros in keymap.json. *)
Definition exec_json (e : execution) : val :=
  VRec [("start", VNum (ex_start e)); ("length", VNum (ex_length e))].
Definition auto_json (a : automation_key) : val :=
  VRec [("on_press", exec_json (ak_on_press a)); ("while_pressed", exec_json (ak_while_pressed a));
        ("on_release", exec_json (ak_on_release a))].
Definition auto_written (v : val) (a : automation_key) : Prop := v = auto_json a.

Lemma auto_valid : forall v a, auto_written v a -> key_instructions_valid v = Ok true.
Proof. intros v a ->. reflexivity. Qed.

(** ** Keys without macros keep their values *)

Fixpoint recast {A B} (k : ukey A) : ukey B :=
  match k with
  | UCode c => UCode c
  | UMods m => UMods m
  | UCodeMods c m => UCodeMods c m
  | UConsumer c => UConsumer c
  | UCustom c => UCustom c
  | UMouse m => UMouse m
  | UCallback c => UCallback c
  | UCapsWord | UMacro _ => UCapsWord
  | USticky m => USticky m
  | ULayer l => ULayer l
  | UTapHold t h => UTapHold (recast t) (recast h)
  | UTapDance k ks => UTapDance (recast k) (map recast ks)
  | ULayered b ls => ULayered (recast b) (map (option_map recast) ls)
  | UChorded cs p => UChorded (map (fun e => match e with (n, k) => (n, recast k) end) cs) (recast p)
  | UAux p => UAux (recast p)
  end.

Lemma recast_umap : forall A B (R : A -> B -> Prop) k, macro_free k -> umap R k (recast k).
Proof.
  intros A B R. induction k as [k Hk|t h IHt IHh|k ks IHk IHks|b ls IHb IHls|cs p IHcs IHp|p IHp] using ukey_ind';
    intros H.
  - destruct H; try discriminate Hk; cbn; auto.
  - inversion H; subst. cbn. auto.
  - inversion H as [| | | | | | | | | | |? ? Hk Hks| | |]; subst. cbn. split; [auto|]. clear -IHks Hks.
    induction ks as [|x ks IH]; cbn; [exact I|]. inversion IHks; inversion Hks; subst. auto.
  - inversion H as [| | | | | | | | | | | |? ? Hb Hls| |]; subst. cbn. split; [auto|]. clear -IHls Hls.
    induction ls as [|[x|] ls IH]; cbn; [exact I| |].
    + split; [|apply IH; intros; auto with datatypes].
      apply IHls; [now left|]. apply Hls. now left.
    + split; [exact I|apply IH; intros; auto with datatypes].
  - inversion H as [| | | | | | | | | | | | |? ? Hcs Hp|]; subst. cbn. split; [|auto]. clear -IHcs Hcs.
    induction cs as [|[n x] cs IH]; cbn; [exact I|].
    split; [|apply IH; intros; auto with datatypes].
    split; [reflexivity|]. apply (IHcs (n, x)); [now left|]. apply (Hcs (n, x)). now left.
  - inversion H; subst. cbn. auto.
Qed.

Lemma recast_written : forall A B (mw : val -> A -> Prop) (mw' : val -> B -> Prop) n v k,
  written mw n v k -> macro_free k -> written mw' n v (recast k).
Proof.
  intros A B mw mw'. induction n as [|n IH]; intros v k H Hf; [inversion H|].
  inversion H as [|n' fs cf c h t l Hc Hh Ht Hl Hp|n' fs vs cs pv pk Hcs Hpk Hp|n' pv pk Hpk]; subst.
  - constructor.
  - assert (F1 : forall k, l = None -> macro_free (with_layers l k) -> macro_free k) by (intros ? ->; auto).
    assert (Hfd : macro_free (with_dances t (with_hold h c))).
    { destruct l as [[? ?]|]; [now inversion Hf|exact Hf]. }
    assert (Hfh : macro_free (with_hold h c)) by (destruct t as [[? ?]|]; [now inversion Hfd|exact Hfd]).
    assert (Hfc : macro_free c) by (destruct h as [[? ?]|]; [now inversion Hfh|exact Hfh]).
    set (h' := option_map (fun x => (fst x, recast (B := B) (snd x))) h).
    set (t' := option_map (fun x => (fst x, map (recast (B := B)) (snd x))) t).
    set (l' := option_map (fun x => (fst x, map (option_map (recast (B := B))) (snd x))) l).
    replace (recast (with_layers l (with_dances t (with_hold h c))))
      with (with_layers l' (with_dances t' (with_hold h' (recast (B := B) c)))).
    2:{ destruct l as [[? ?]|], t as [[? ?]|], h as [[? ?]|]; reflexivity. }
    apply w_record with (cf := cf).
    + destruct Hc; try (constructor; assumption). inversion Hfc.
    + intros v k E. destruct h as [[hv hk]|]; [|discriminate E]. injection E as <- <-.
      apply IH; [now apply Hh|]. now inversion Hfh.
    + intros vs ks E. destruct t as [[tv tk]|]; [|discriminate E]. injection E as <- <-. cbn [fst snd].
      assert (Hfs : Forall macro_free tk) by now inversion Hfd.
      specialize (Ht _ _ eq_refl). clear -IH Ht Hfs. induction Ht; inversion Hfs; subst; constructor; auto.
    + intros vs ks E. destruct l as [[lv lk]|]; [|discriminate E]. injection E as <- <-. cbn [fst snd].
      assert (Hfs : forall k, In (Some k) lk -> macro_free k) by now inversion Hf.
      specialize (Hl _ _ eq_refl). clear -IH Hl Hfs. induction Hl as [|v o vs os Hv _ IHl]; constructor.
      * destruct Hv as [|v k Hk]; constructor. apply IH; [assumption|]. apply Hfs. now left.
      * apply IHl. intros k Hi. apply Hfs. now right.
    + destruct h as [[? ?]|], t as [[? ?]|], l as [[? ?]|]; exact Hp.
  - inversion Hf as [| | | | | | | | | | | | |? ? Hfs Hfp|]; subst. cbn [recast].
    apply w_chorded with (vs := vs) (pv := pv); [|now apply IH|assumption].
    clear -IH Hcs Hfs. induction Hcs as [|v [m k] vs cs [kv [-> Hk]] _ IHcs]; constructor.
    + exists kv. split; [reflexivity|]. cbn [snd] in *. apply IH; [assumption|]. apply (Hfs (m, k)). now left.
    + apply IHcs. intros e Hi. apply Hfs. now right.
  - inversion Hf; subst. cbn [recast]. constructor. now apply IH.
Qed.

(** ** Adding a field to a written record *)

Lemma add_hold : forall M (mw : val -> M -> Prop) n fs fs' b hv hk,
  written mw (S n) (VRec fs') b ->
  (forall x, In x ("chords" :: "passthrough" :: extra) -> ~ In x (names fs')) ->
  written mw n hv hk -> Permutation fs (("hold", hv) :: fs') ->
  written mw (S n) (VRec fs) (UTapHold b hk).
Proof.
  intros M mw n fs fs' b hv hk H Hno Hh Hp.
  assert (Hx : forall x, In x ("chords" :: "passthrough" :: extra) -> forall l, Permutation fs' l -> ~ In x (names l)).
  { intros x Hx l Hl Hi. apply (Hno x Hx). apply (Permutation_in _ (Permutation_sym (names_perm _ _ Hl))), Hi. }
  inversion H as [|n' fs0 cf c h t l Hc Hh' Ht Hl Hp'|n' fs0 vs cs pv pk Hcs Hpk Hp'|n' pv pk Hpk]; subst.
  - destruct h as [[? ?]|].
    { exfalso. apply (Hx "hold" ltac:(cbn; auto) _ Hp'). rewrite names_app. apply in_or_app. right. cbn. auto. }
    destruct t as [[? ?]|].
    { exfalso. apply (Hx "tap_dances" ltac:(cbn; auto) _ Hp'). rewrite names_app. apply in_or_app. right. cbn. auto. }
    destruct l as [[? ?]|].
    { exfalso. apply (Hx "layered" ltac:(cbn; auto 10) _ Hp'). rewrite names_app. apply in_or_app. right. cbn. auto. }
    apply (w_record mw n fs cf c (Some (hv, hk)) None None Hc).
    + intros v k E. injection E as <- <-. exact Hh.
    + discriminate.
    + discriminate.
    + rewrite Hp. cbn in *. rewrite app_nil_r in Hp'. rewrite Hp'. apply Permutation_cons_append.
  - exfalso. apply (Hx "chords" ltac:(cbn; auto) _ Hp'). cbn. auto.
  - exfalso. apply (Hno "passthrough"); cbn; auto.
Qed.

Lemma add_dances : forall M (mw : val -> M -> Prop) n fs fs' b tv tk,
  written mw (S n) (VRec fs') b ->
  (forall x, In x ["chords"; "passthrough"; "tap_dances"; "layered"] -> ~ In x (names fs')) ->
  Forall2 (written mw n) tv tk -> Permutation fs (("tap_dances", VArr tv) :: fs') ->
  written mw (S n) (VRec fs) (UTapDance b tk).
Proof.
  intros M mw n fs fs' b tv tk H Hno Hh Hp.
  assert (Hx : forall x, In x ["chords"; "passthrough"; "tap_dances"; "layered"] ->
      forall l, Permutation fs' l -> ~ In x (names l)).
  { intros x Hx l Hl Hi. apply (Hno x Hx). apply (Permutation_in _ (Permutation_sym (names_perm _ _ Hl))), Hi. }
  inversion H as [|n' fs0 cf c h t l Hc Hh' Ht Hl Hp'|n' fs0 vs cs pv pk Hcs Hpk Hp'|n' pv pk Hpk]; subst.
  - destruct t as [[? ?]|].
    { exfalso. apply (Hx "tap_dances" ltac:(cbn; auto) _ Hp'). rewrite !names_app. apply in_or_app. right. apply in_or_app. right. cbn. auto. }
    destruct l as [[? ?]|].
    { exfalso. apply (Hx "layered" ltac:(cbn; auto 10) _ Hp'). rewrite !names_app. apply in_or_app. right. apply in_or_app. right. cbn. auto. }
    apply (w_record mw n fs cf c h (Some (tv, tk)) None Hc).
    + exact Hh'.
    + intros vs ks E. injection E as <- <-. exact Hh.
    + discriminate.
    + rewrite Hp. cbn in *. rewrite app_nil_r in Hp'. rewrite Hp'. rewrite app_assoc. apply Permutation_cons_append.
  - exfalso. apply (Hx "chords" ltac:(cbn; auto) _ Hp'). cbn. auto.
  - exfalso. apply (Hno "passthrough"); cbn; auto.
Qed.

Lemma add_layers : forall M (mw : val -> M -> Prop) n fs fs' b lv lk,
  written mw (S n) (VRec fs') b ->
  (forall x, In x ["chords"; "passthrough"; "layered"] -> ~ In x (names fs')) ->
  Forall2 (null_or (written mw n)) lv lk -> Permutation fs (("layered", VArr lv) :: fs') ->
  written mw (S n) (VRec fs) (ULayered b lk).
Proof.
  intros M mw n fs fs' b lv lk H Hno Hh Hp.
  assert (Hx : forall x, In x ["chords"; "passthrough"; "layered"] ->
      forall l, Permutation fs' l -> ~ In x (names l)).
  { intros x Hx l Hl Hi. apply (Hno x Hx). apply (Permutation_in _ (Permutation_sym (names_perm _ _ Hl))), Hi. }
  inversion H as [|n' fs0 cf c h t l Hc Hh' Ht Hl Hp'|n' fs0 vs cs pv pk Hcs Hpk Hp'|n' pv pk Hpk]; subst.
  - destruct l as [[? ?]|].
    { exfalso. apply (Hx "layered" ltac:(cbn; auto 10) _ Hp'). rewrite !names_app.
      apply in_or_app. right. apply in_or_app. right. apply in_or_app. right. cbn. auto. }
    apply (w_record mw n fs cf c h t (Some (lv, lk)) Hc).
    + exact Hh'.
    + exact Ht.
    + intros vs ks E. injection E as <- <-. exact Hh.
    + rewrite Hp. cbn in *. rewrite app_nil_r in Hp'. rewrite Hp'. rewrite !app_assoc. apply Permutation_cons_append.
  - exfalso. apply (Hx "chords" ltac:(cbn; auto) _ Hp'). cbn. auto.
  - exfalso. apply (Hno "passthrough"); cbn; auto.
Qed.

(** ** Collecting instructions *)

Definition code_of (k : ukey macro) : list instruction :=
  match k with UMacro x => mc_press x ++ mc_while x ++ mc_release x | _ => [] end.
Definition code_size (k : ukey macro) : nat := length (flat_map code_of (all_parts k)).

Lemma names_part_mono : forall I J e l, names_part I e l -> names_part (I ++ J) e l.
Proof.
  intros I J e l [b [a [-> H]]]. exists b, (a ++ J). split; [|exact H]. now rewrite <- !app_assoc.
Qed.
Lemma is_macro_mono : forall I J a x, is_macro I a x -> is_macro (I ++ J) a x.
Proof. intros I J a x [Hp [Hw Hr]]. repeat split; now apply names_part_mono. Qed.

(** [is_macro] from the key's side. *)
Definition lowers (I : list instruction) : ukey macro -> ukey automation_key -> Prop :=
  umap (fun x a => is_macro I a x).
Lemma lowers_mono : forall I J k k', lowers I k k' -> lowers (I ++ J) k k'.
Proof. intros I J. apply umap_mono. intros x a. apply is_macro_mono. Qed.

Lemma f2_impl : forall A B (R S : A -> B -> Prop), (forall x y, R x y -> S x y) ->
  forall l m, Forall2 R l m -> Forall2 S l m.
Proof. induction 2; constructor; auto. Qed.
Lemma flen : forall A B (R : A -> B -> Prop) l m, Forall2 R l m -> length l = length m.
Proof. induction 1; cbn; congruence. Qed.
Lemma thread_cons : forall S A B (f : S -> A -> res (S * B)) s x l,
  thread f s (x :: l) = let! (s, y) := f s x in let! (s, t) := thread f s l in Ok (s, y :: t).
Proof. reflexivity. Qed.

Section Thread.
  Context {A B K K' : Type}.
  Variables (f : list val -> A -> res (list val * B)) (Inp : A -> K -> Prop) (Q : B -> K' -> Prop)
    (U : list instruction -> K -> K' -> Prop) (size : K -> nat).
  Hypothesis Umono : forall I J k k', U I k k' -> U (I ++ J) k k'.
  Hypothesis Hf : forall x k acc I, Inp x k -> Forall2 instruction_written acc I ->
    exists acc' y k' I', f acc x = Ok (acc', y) /\ Forall2 instruction_written acc' (I ++ I') /\
      Q y k' /\ U (I ++ I') k k' /\ length I' = size k.

  Lemma thread_ok : forall xs ks, Forall2 Inp xs ks -> forall acc I, Forall2 instruction_written acc I ->
    exists acc' ys ks' I', thread f acc xs = Ok (acc', ys) /\ Forall2 instruction_written acc' (I ++ I') /\
      Forall2 Q ys ks' /\ Forall2 (U (I ++ I')) ks ks' /\ length I' = list_sum (map size ks).
  Proof.
    induction 1 as [|x k xs ks Hx _ IH]; intros acc I HI.
    - exists acc, [], [], []. rewrite app_nil_r. repeat split; auto.
    - destruct (Hf x k acc I Hx HI) as [acc1 [y [k' [I1 [E1 [HI1 [Hq [Hu Hs]]]]]]]].
      destruct (IH acc1 (I ++ I1) HI1) as [acc2 [ys [ks' [I2 [E2 [HI2 [Hqs [Hus Hss]]]]]]]].
      exists acc2, (y :: ys), (k' :: ks'), (I1 ++ I2). rewrite thread_cons, E1. cbn [bind].
      rewrite E2. cbn [bind]. rewrite app_assoc. repeat split; auto.
      rewrite app_length, Hs, Hss. reflexivity.
  Qed.
End Thread.

Lemma only_in : forall f v w, only f v = Some w -> v = VRec [(f, w)].
Proof.
  intros f v w H. destruct v as [| | | | |fs]; try discriminate H. destruct fs as [|[g x] [|? ?]]; try discriminate H.
  cbn in H. destruct (String.eqb_spec f g) as [->|_]; [|discriminate H]. now injection H as ->.
Qed.

(** A part that is not a macro is not changed. *)
Lemma transform_plain : forall n v (k : ukey macro) acc,
  written macro_written n v k -> (forall x, k <> UMacro x) -> transform acc v = Ok (acc, v).
Proof.
  intros n v k acc H Hk. unfold transform. destruct (only "automation_instructions" v) as [w|] eqn:E; [|reflexivity].
  exfalso. apply only_in in E. subst v.
  inversion H as [|n' fs cf c h t l Hc Hh Ht Hl Hp|n' fs vs cs pv pk Hcs Hpk Hp|n' pv pk Hpk]; subst.
  - apply Permutation_length_1_inv in Hp.
    destruct Hc; cbn in Hp; try discriminate Hp.
    destruct h as [[? ?]|], t as [[? ?]|], l as [[? ?]|]; try discriminate Hp.
    now apply (Hk x).
  - apply Permutation_length_1_inv in Hp. discriminate Hp.
Qed.

Lemma transform_macro : forall v x acc I, macro_written v x -> Forall2 instruction_written acc I ->
  exists acc' a I', transform acc (VRec [("automation_instructions", v)])
    = Ok (acc', VRec [("automation_instructions", auto_json a)]) /\
    Forall2 instruction_written acc' (I ++ I') /\ is_macro (I ++ I') a x /\
    length I' = length (mc_press x ++ mc_while x ++ mc_release x).
Proof.
  intros v x acc I [fs [-> [Hd [Hn [Hp [Hw Hr]]]]]] HI.
  assert (Hpart : forall f is, part_written f fs is -> exists vs, or_empty (get f fs) = VArr vs /\
      Forall2 instruction_written vs is).
  { intros f is H. unfold part_written in H. destruct (get f fs) as [v|]; cbn.
    - destruct H as [vs [-> H]]. eauto.
    - subst is. exists []. auto. }
  destruct (Hpart _ _ Hp) as [pv [Ep Fp]]. destruct (Hpart _ _ Hw) as [wv [Ew Fw]].
  destruct (Hpart _ _ Hr) as [rv [Er Fr]].
  exists (((acc ++ pv) ++ wv) ++ rv).
  exists (mkAutoKey (mkExec (N.of_nat (length acc)) (N.of_nat (length pv)))
                    (mkExec (N.of_nat (length (acc ++ pv))) (N.of_nat (length wv)))
                    (mkExec (N.of_nat (length ((acc ++ pv) ++ wv))) (N.of_nat (length rv)))).
  exists (mc_press x ++ mc_while x ++ mc_release x).
  pose proof (flen _ _ _ _ _ HI) as LI. pose proof (flen _ _ _ _ _ Fp) as Lp.
  pose proof (flen _ _ _ _ _ Fw) as Lw. pose proof (flen _ _ _ _ _ Fr) as Lr.
  split.
  { unfold transform. cbn [only]. rewrite String.eqb_refl. rewrite Ep, Ew, Er. reflexivity. }
  split.
  { rewrite <- !app_assoc. repeat (apply Forall2_app; [assumption|]). assumption. }
  split; [|reflexivity].
  repeat split; cbn [ak_on_press ak_while_pressed ak_on_release ex_start ex_length].
  - exists I, (mc_while x ++ mc_release x). rewrite LI, Lp. auto.
  - exists (I ++ mc_press x), (mc_release x). rewrite <- !app_assoc, !app_length, LI, Lp, Lw. auto.
  - exists (I ++ mc_press x ++ mc_while x), []. rewrite app_nil_r, <- !app_assoc, !app_length, LI, Lp, Lw, Lr. auto.
Qed.

Lemma macro_free_code : forall k, macro_free k -> flat_map code_of (all_parts k) = [].
Proof.
  induction k as [k Hk|t h IHt IHh|k ks IHk IHks|b ls IHb IHls|cs p IHcs IHp|p IHp] using ukey_ind'; intros H.
  - destruct H; try discriminate Hk; reflexivity.
  - inversion H; subst. cbn. rewrite flat_map_app, IHt, IHh; auto.
  - inversion H as [| | | | | | | | | | |? ? Hk Hks| | |]; subst. cbn. rewrite flat_map_app, IHk by auto. cbn.
    clear -IHks Hks. induction ks as [|x ks IH]; cbn; [reflexivity|]. inversion IHks; inversion Hks; subst.
    rewrite flat_map_app. rewrite IH by assumption. rewrite app_nil_r. auto.
  - inversion H as [| | | | | | | | | | | |? ? Hb Hls| |]; subst. cbn. rewrite flat_map_app, IHb by auto. cbn.
    clear -IHls Hls. induction ls as [|[x|] ls IH]; cbn; [reflexivity| |].
    + rewrite flat_map_app. rewrite IH by (intros; auto with datatypes). rewrite app_nil_r.
      apply IHls; [now left|]. apply Hls. now left.
    + apply IH; intros; auto with datatypes.
  - inversion H as [| | | | | | | | | | | | |? ? Hcs Hp|]; subst. cbn. rewrite flat_map_app, (IHp Hp), app_nil_r.
    clear -IHcs Hcs. induction cs as [|[n x] cs IH]; cbn; [reflexivity|].
    rewrite flat_map_app. rewrite IH by (intros; auto with datatypes). rewrite app_nil_r.
    apply (IHcs (n, x)); [now left|]. apply (Hcs (n, x)). now left.
  - inversion H; subst. cbn. auto.
Qed.

(** A part: a macro, or a key without macros. *)
Definition near (k : ukey macro) : Prop := (exists x, k = UMacro x) \/ macro_free k.

Lemma transform_part : forall n v k acc I, written macro_written n v k -> near k ->
  Forall2 instruction_written acc I ->
  exists acc' v' k' I', transform acc v = Ok (acc', v') /\ Forall2 instruction_written acc' (I ++ I') /\
    (written auto_written n v' k' /\ (v' = v \/ exists w, v' = VRec [("automation_instructions", w)])) /\
    lowers (I ++ I') k k' /\ length I' = code_size k.
Proof.
  intros n v k acc I H [[x ->]|Hf] HI.
  - inversion H as [|n' fs cf c h t l Hc Hh Ht Hl Hp E|n' fs vs cs pv pk Hcs Hpk Hp|n' pv pk Hpk]; subst.
    destruct l as [[? ?]|], t as [[? ?]|], h as [[? ?]|]; try discriminate. cbn in Hp.
    rewrite app_nil_r in Hp. cbn [with_layers with_dances with_hold] in *. subst c. inversion Hc as [| | | | | | | | |w x' Hw]; subst.
    apply Permutation_sym, Permutation_length_1_inv in Hp. subst fs.
    destruct (transform_macro w x acc I Hw HI) as [acc' [a [I' [E [HI' [Hm Hs]]]]]].
    exists acc', (VRec [("automation_instructions", auto_json a)]), (UMacro a), I'.
    split; [exact E|]. split; [exact HI'|]. split.
    + split; [|right; eauto].
      apply (w_record auto_written n' _ [("automation_instructions", auto_json a)] (UMacro a) None None None);
        try discriminate; [|cbn; apply Permutation_refl].
      constructor. reflexivity.
    + split; [exact Hm|]. rewrite Hs. unfold code_size. cbn. now rewrite app_nil_r.
  - exists acc, v, (recast k), []. rewrite app_nil_r.
    split; [eapply transform_plain; [eassumption|]; intros x ->; inversion Hf|].
    split; [exact HI|]. split; [|split].
    + split; [|now left]. now apply recast_written with (mw := macro_written).
    + now apply recast_umap.
    + unfold code_size. now rewrite macro_free_code.
Qed.

Lemma leaf_near : forall k, is_leaf k = true -> near k.
Proof. intros k H. destruct k; try discriminate H; try (right; constructor). left. eauto. Qed.

(** Sizes of keys made of keys. *)
Definition osize (o : option (ukey macro)) : nat := match o with Some k => code_size k | None => 0 end.

Lemma size_hold : forall t h, code_size (UTapHold t h) = (code_size t + code_size h)%nat.
Proof. intros. unfold code_size. cbn. now rewrite flat_map_app, app_length. Qed.
Lemma size_dance : forall k ks, code_size (UTapDance k ks) = (code_size k + list_sum (map code_size ks))%nat.
Proof.
  intros k ks. unfold code_size at 1. cbn. rewrite flat_map_app, app_length. f_equal.
  induction ks as [|x ks IH]; cbn; [reflexivity|]. now rewrite flat_map_app, app_length, IH.
Qed.
Lemma size_layered : forall b ls, code_size (ULayered b ls) = (code_size b + list_sum (map osize ls))%nat.
Proof.
  intros b ls. unfold code_size at 1. cbn. rewrite flat_map_app, app_length. f_equal.
  induction ls as [|[x|] ls IH]; cbn; [reflexivity| |exact IH]. now rewrite flat_map_app, app_length, IH.
Qed.
Lemma size_chorded : forall cs p,
  code_size (UChorded cs p) = (list_sum (map (fun e => code_size (snd e)) cs) + code_size p)%nat.
Proof.
  intros cs p. unfold code_size at 2. unfold code_size at 1. cbn. rewrite flat_map_app, app_length. f_equal.
  induction cs as [|[n x] cs IH]; cbn; [reflexivity|]. now rewrite flat_map_app, app_length, IH.
Qed.
Lemma size_aux : forall p, code_size (UAux p) = code_size p.
Proof. reflexivity. Qed.

(** Lists of parts. *)
Lemma transform_parts : forall n vs ks acc I,
  Forall2 (written macro_written n) vs ks -> Forall near ks -> Forall2 instruction_written acc I ->
  exists acc' vs' ks' I', thread transform acc vs = Ok (acc', vs') /\
    Forall2 instruction_written acc' (I ++ I') /\ Forall2 (written auto_written n) vs' ks' /\
    Forall2 (lowers (I ++ I')) ks ks' /\ length I' = list_sum (map code_size ks).
Proof.
  intros n vs ks acc I H Hn HI.
  apply (thread_ok transform (fun v k => written macro_written n v k /\ near k) (written auto_written n) lowers
           code_size).
  - intros. now apply lowers_mono.
  - intros v k acc0 I0 [Hw Hk] HI0.
    destruct (transform_part n v k acc0 I0 Hw Hk HI0) as [a [v' [k' [I' [E [H1 [[H2 _] [H3 H4]]]]]]]].
    exists a, v', k', I'. auto.
  - clear -H Hn. induction H; inversion Hn; subst; constructor; auto.
  - exact HI.
Qed.

Lemma transform_nullable : forall n vs os acc I,
  Forall2 (null_or (written macro_written n)) vs os -> (forall k, In (Some k) os -> near k) ->
  Forall2 instruction_written acc I ->
  exists acc' vs' os' I', thread transform acc vs = Ok (acc', vs') /\
    Forall2 instruction_written acc' (I ++ I') /\ Forall2 (null_or (written auto_written n)) vs' os' /\
    Forall2 (both (lowers (I ++ I'))) os os' /\ length I' = list_sum (map osize os).
Proof.
  intros n vs os acc I H Hn HI.
  apply (thread_ok transform
           (fun v o => null_or (written macro_written n) v o /\ (forall k, o = Some k -> near k))
           (null_or (written auto_written n)) (fun I => both (lowers I)) osize).
  - intros I0 J [k|] [k'|] Hb; cbn in *; auto. now apply lowers_mono.
  - intros v o acc0 I0 [Hw Hk] HI0. destruct Hw as [|v k Hw].
    + exists acc0, VNull, None, []. rewrite app_nil_r. repeat split; auto. constructor.
    + destruct (transform_part n v k acc0 I0 Hw (Hk k eq_refl) HI0) as [a [v' [k' [I' [E [H1 [[H2 _] [H3 H4]]]]]]]].
      exists a, v', (Some k'), I'. repeat split; auto. now constructor.
  - clear -H Hn. induction H as [|v o vs os Hv _ IH]; constructor.
    + split; [assumption|]. intros k ->. apply Hn. now left.
    + apply IH. intros k Hi. apply Hn. now right.
  - exact HI.
Qed.

Lemma transform_chords : forall n vs cs acc I,
  Forall2 (fun v e => exists kv, v = VArr [VNum (fst e); kv] /\ written macro_written n kv (snd e)) vs cs ->
  (forall e, In e cs -> near (snd e)) ->
  Forall2 instruction_written acc I ->
  exists acc' vs' cs' I',
    thread (fun acc e => match e with
                         | VArr [i; k] => let! (acc, k') := transform acc k in Ok (acc, VArr [i; k'])
                         | _ => Panic
                         end) acc vs = Ok (acc', vs') /\
    Forall2 instruction_written acc' (I ++ I') /\
    Forall2 (fun v e => exists kv, v = VArr [VNum (fst e); kv] /\ written auto_written n kv (snd e)) vs' cs' /\
    Forall2 (same_fst (lowers (I ++ I'))) cs cs' /\
    length I' = list_sum (map (fun e => code_size (snd e)) cs).
Proof.
  intros n vs cs acc I H Hn HI.
  apply (thread_ok (fun acc e => match e with
                         | VArr [i; k] => let! (acc, k') := transform acc k in Ok (acc, VArr [i; k'])
                         | _ => Panic
                         end)
           (fun v e => (exists kv, v = VArr [VNum (fst e); kv] /\ written macro_written n kv (snd e)) /\ near (snd e))
           (fun v e => exists kv, v = VArr [VNum (fst e); kv] /\ written auto_written n kv (snd e))
           (fun I => same_fst (lowers I)) (fun e => code_size (snd e))).
  - intros I0 J [m k] [m' k'] [-> Hb]; cbn in *. split; [reflexivity|]. now apply lowers_mono.
  - intros v [m k] acc0 I0 [[kv [-> Hw]] Hk] HI0. cbn [fst snd] in *.
    destruct (transform_part n kv k acc0 I0 Hw Hk HI0) as [a [v' [k' [I' [E [H1 [[H2 _] [H3 H4]]]]]]]].
    exists a, (VArr [VNum m; v']), (m, k'), I'. rewrite E. cbn [bind fst snd]. repeat split; auto. eauto.
  - clear -H Hn. induction H as [|v o vs os Hv _ IH]; constructor.
    + split; [assumption|]. apply Hn. now left.
    + apply IH. intros k Hi. apply Hn. now right.
  - exact HI.
Qed.

Lemma merge_field : forall f v fs, ~ In f (names fs) -> merge_into f v (VRec fs) = Ok (VRec ((f, v) :: fs)).
Proof.
  intros f v fs H. unfold merge_into, merge. cbn [names map fst existsb].
  fold (names fs). rewrite (mem_false _ _ H). reflexivity.
Qed.

(** Instructions of one key. *)
Lemma map_accum_ok : forall n v k f acc I,
  written macro_written n v k -> macros_near k -> (4 * n <= S f)%nat ->
  Forall2 instruction_written acc I ->
  exists acc' v' k' I', key_map_accum f acc v = Ok (acc', v') /\
    Forall2 instruction_written acc' (I ++ I') /\ written auto_written n v' k' /\
    lowers (I ++ I') k k' /\ length I' = code_size k.
Proof.
  intros n v k f acc I H Hnear Hf HI. unfold key_map_accum.
  rewrite (good_module _ _ _ (written_good _ _ macro_valid _ _ _ H f Hf)). cbn [bind].
  assert (Hpart : is_leaf k = true -> exists acc' v' k' I', transform acc v = Ok (acc', v') /\
    Forall2 instruction_written acc' (I ++ I') /\ written auto_written n v' k' /\
    lowers (I ++ I') k k' /\ length I' = code_size k).
  { intros Hk. destruct (transform_part n v k acc I H (leaf_near _ Hk) HI) as [a [v' [k' [I' [E [H1 [[H2 _] [H3 H4]]]]]]]].
    exists a, v', k', I'. auto. }
  destruct n as [|n]; [inversion H|].
  inversion H as [|n' fs cf c h t l Hc Hh Ht Hl Hp|n' fs vs cs pv pk Hcs Hpk Hp|n' pv pk Hpk]; subst.
  - apply Hpart. reflexivity.
  - change (cf ++ hold_field h ++ dances_field t ++ layers_field l) with (fields cf h t l) in Hp.
    pose proof (fields_nodup _ cf c Hc h t l) as Hnd.
    destruct l as [[lv lk]|]; [|destruct t as [[tv tk]|]; [|destruct h as [[hv hk]|]]].
    + cbn [with_layers core_module module_map_accum].
      rewrite (get_perm _ _ _ Hnd Hp), (get_layers _ cf c Hc). cbn [option_map fst as_array bind].
      destruct (transform_nullable n lv lk acc I (Hl _ _ eq_refl)) as [a1 [lv' [lk' [I1 [E1 [HI1 [Hw1 [Hu1 Hs1]]]]]]]].
      { intros k Hi. apply Hnear. cbn [with_layers parts]. right. apply in_flat_map. exists (Some k). split; [assumption|now left]. }
      { exact HI. }
      rewrite E1. cbn [bind].
      set (b := with_dances t (with_hold h c)) in *.
      assert (Hpb : Permutation (without "layered" fs) (fields cf h t None)).
      { rewrite <- (without_layers _ cf c Hc h t (Some (lv, lk))). now apply without_perm. }
      assert (Hb : written macro_written (S n) (VRec (without "layered" fs)) b).
      { apply (w_record macro_written n _ cf c h t None Hc Hh Ht); [discriminate|exact Hpb]. }
      assert (Hno : forall x, In x ["chords"; "passthrough"; "layered"] -> ~ In x (names (without "layered" fs))).
      { intros x Hx Hi. apply (Permutation_in _ (names_perm _ _ Hpb)) in Hi. revert Hi. unfold fields.
        rewrite !names_app. rewrite !in_app_iff. intros [Hi|Hi].
        - revert Hi. apply (core_no _ cf c Hc). cbn in *. tauto.
        - destruct h as [[? ?]|], t as [[? ?]|]; cbn in Hi, Hx; intuition (subst; discriminate). }
      destruct (transform_part (S n) _ b a1 (I ++ I1) Hb) as [a2 [v2 [b' [I2 [E2 [HI2 [[Hw2 Hv2] [Hu2 Hs2]]]]]]]].
      { apply Hnear. now left. }
      { exact HI1. }
      rewrite E2. cbn [bind].
      assert (Hv : exists fs2, v2 = VRec fs2 /\
          (forall x, In x ["chords"; "passthrough"; "layered"] -> ~ In x (names fs2))).
      { destruct Hv2 as [->|[w ->]]; [eauto|]. eexists. split; [reflexivity|].
        intros x Hx [E|[]]. cbn in E. subst x. cbn in Hx. intuition discriminate. }
      destruct Hv as [fs2 [-> Hno2]].
      rewrite merge_field by (apply Hno2; cbn; auto). cbn [bind].
      exists a2, (VRec (("layered", VArr lv') :: fs2)), (ULayered b' lk'), (I1 ++ I2).
      rewrite app_assoc. split; [reflexivity|]. split; [exact HI2|]. split; [|split].
      * eapply add_layers; [exact Hw2|exact Hno2|exact Hw1|apply Permutation_refl].
      * cbn. split; [exact Hu2|]. apply all2_iff.
        revert Hu1. apply f2_impl. intros [x|] [y|] Hr; cbn in *; auto. now apply lowers_mono.
      * rewrite size_layered, app_length, Hs1, Hs2. lia.
    + cbn [with_layers with_dances core_module module_map_accum] in *.
      rewrite (get_perm _ _ _ Hnd Hp), (get_dances _ cf c Hc). cbn [option_map fst as_array bind].
      destruct (transform_parts n tv tk acc I (Ht _ _ eq_refl)) as [a1 [tv' [tk' [I1 [E1 [HI1 [Hw1 [Hu1 Hs1]]]]]]]].
      { apply Forall_forall. intros k Hi. apply Hnear. now right. }
      { exact HI. }
      rewrite E1. cbn [bind].
      set (b := with_hold h c) in *.
      assert (Hpb : Permutation (without "tap_dances" fs) (fields cf h None None)).
      { rewrite <- (without_dances _ cf c Hc h (Some (tv, tk)) None). now apply without_perm. }
      assert (Hb : written macro_written (S n) (VRec (without "tap_dances" fs)) b).
      { apply (w_record macro_written n _ cf c h None None Hc Hh); [discriminate|discriminate|exact Hpb]. }
      assert (Hno : forall x, In x ["chords"; "passthrough"; "tap_dances"; "layered"] ->
                ~ In x (names (without "tap_dances" fs))).
      { intros x Hx Hi. apply (Permutation_in _ (names_perm _ _ Hpb)) in Hi. revert Hi. unfold fields.
        rewrite !names_app. rewrite !in_app_iff. intros [Hi|Hi].
        - revert Hi. apply (core_no _ cf c Hc). cbn in *. tauto.
        - destruct h as [[? ?]|]; cbn in Hi, Hx; intuition (subst; discriminate). }
      destruct (transform_part (S n) _ b a1 (I ++ I1) Hb) as [a2 [v2 [b' [I2 [E2 [HI2 [[Hw2 Hv2] [Hu2 Hs2]]]]]]]].
      { apply Hnear. now left. }
      { exact HI1. }
      rewrite E2. cbn [bind].
      assert (Hv : exists fs2, v2 = VRec fs2 /\
          (forall x, In x ["chords"; "passthrough"; "tap_dances"; "layered"] -> ~ In x (names fs2))).
      { destruct Hv2 as [->|[w ->]]; [eauto|]. eexists. split; [reflexivity|].
        intros x Hx [E|[]]. cbn in E. subst x. cbn in Hx. intuition discriminate. }
      destruct Hv as [fs2 [-> Hno2]].
      rewrite merge_field by (apply Hno2; cbn; auto). cbn [bind].
      exists a2, (VRec (("tap_dances", VArr tv') :: fs2)), (UTapDance b' tk'), (I1 ++ I2).
      rewrite app_assoc. split; [reflexivity|]. split; [exact HI2|]. split; [|split].
      * eapply add_dances; [exact Hw2|exact Hno2|exact Hw1|apply Permutation_refl].
      * cbn. split; [exact Hu2|]. apply all2_iff.
        revert Hu1. apply f2_impl. intros x y Hr. now apply lowers_mono.
      * rewrite size_dance, app_length, Hs1, Hs2. lia.
    + cbn [with_layers with_dances with_hold core_module module_map_accum] in *.
      rewrite (get_perm _ _ _ Hnd Hp), (get_hold _ cf c Hc). cbn [option_map fst].
      assert (Hpb : Permutation (without "hold" fs) (fields cf (M := macro) None None None)).
      { rewrite <- (without_hold _ cf c Hc (Some (hv, hk)) None None). now apply without_perm. }
      assert (Hb : written macro_written (S n) (VRec (without "hold" fs)) c).
      { apply (w_record macro_written n _ cf c None None None Hc); [discriminate|discriminate|discriminate|exact Hpb]. }
      assert (Hno : forall x, In x ("chords" :: "passthrough" :: extra) -> ~ In x (names (without "hold" fs))).
      { intros x Hx Hi. apply (Permutation_in _ (names_perm _ _ Hpb)) in Hi. revert Hi. unfold fields.
        cbn [hold_field dances_field layers_field]. rewrite app_nil_r. now apply (core_no _ cf c Hc). }
      destruct (transform_part (S n) _ c acc I Hb) as [a2 [v2 [b' [I2 [E2 [HI2 [[Hw2 Hv2] [Hu2 Hs2]]]]]]]].
      { apply Hnear. now left. }
      { exact HI. }
      rewrite E2. cbn [bind].
      destruct (transform_part n hv hk a2 (I ++ I2) (Hh _ _ eq_refl)) as [a1 [hv' [hk' [I1 [E1 [HI1 [[Hw1 _] [Hu1 Hs1]]]]]]]].
      { apply Hnear. right. now left. }
      { exact HI2. }
      rewrite E1. cbn [bind].
      assert (Hv : exists fs2, v2 = VRec fs2 /\
          (forall x, In x ("chords" :: "passthrough" :: extra) -> ~ In x (names fs2))).
      { destruct Hv2 as [->|[w ->]]; [eauto|]. eexists. split; [reflexivity|].
        intros x Hx [E|[]]. cbn in E. subst x. cbn in Hx. intuition discriminate. }
      destruct Hv as [fs2 [-> Hno2]].
      rewrite merge_field by (apply Hno2; cbn; auto). cbn [bind].
      exists a1, (VRec (("hold", hv') :: fs2)), (UTapHold b' hk'), (I2 ++ I1).
      rewrite app_assoc. split; [reflexivity|]. split; [exact HI1|]. split; [|split].
      * eapply add_hold; [exact Hw2|exact Hno2|exact Hw1|apply Permutation_refl].
      * cbn. split; [now apply lowers_mono|exact Hu1].
      * rewrite size_hold, app_length, Hs1, Hs2. lia.
    + assert (Hleaf : is_leaf c = true) by now destruct Hc.
      cbn [with_layers with_dances with_hold] in *. specialize (Hpart Hleaf).
      destruct c; try discriminate Hleaf; exact Hpart.
  - cbn [core_module module_map_accum].
    assert (E : only2 "chords" "passthrough" (VRec fs) = Some (VArr vs, pv)).
    { apply Permutation_sym, Permutation_length_2_inv in Hp. destruct Hp; subst fs; reflexivity. }
    rewrite E. cbn [as_array bind].
    destruct (transform_chords n vs cs acc I Hcs) as [a1 [vs' [cs' [I1 [E1 [HI1 [Hw1 [Hu1 Hs1]]]]]]]].
    { intros e Hi. apply Hnear. cbn. apply in_or_app. left. now apply in_map. }
    { exact HI. }
    rewrite E1. cbn [bind].
    destruct (transform_part n pv pk a1 (I ++ I1) Hpk) as [a2 [v2 [b' [I2 [E2 [HI2 [[Hw2 _] [Hu2 Hs2]]]]]]]].
    { apply Hnear. cbn. apply in_or_app. right. now left. }
    { exact HI1. }
    rewrite E2. cbn [bind].
    exists a2, (VRec [("chords", VArr vs'); ("passthrough", v2)]), (UChorded cs' b'), (I1 ++ I2).
    rewrite app_assoc. split; [reflexivity|]. split; [exact HI2|]. split; [|split].
    + eapply w_chorded; [exact Hw1|exact Hw2|apply Permutation_refl].
    + cbn. split; [|exact Hu2]. apply all2_iff.
      revert Hu1. apply f2_impl. intros [? x] [? y] [-> Hr]. split; [reflexivity|]. now apply lowers_mono.
    + rewrite size_chorded, app_length, Hs1, Hs2. lia.
  - cbn [core_module module_map_accum].
    assert (E : only "passthrough" (VRec [("passthrough", pv)]) = Some pv) by reflexivity.
    rewrite E.
    destruct (transform_part n pv pk acc I Hpk) as [a2 [v2 [b' [I2 [E2 [HI2 [[Hw2 _] [Hu2 Hs2]]]]]]]].
    { apply Hnear. now left. }
    { exact HI. }
    rewrite E2. cbn [bind].
    exists a2, (VRec [("passthrough", v2)]), (UAux b'), I2.
    split; [reflexivity|]. split; [exact HI2|]. split; [now constructor|]. split; [exact Hu2|exact Hs2].
Qed.

(** Instructions of all keys. *)
Lemma all_accum_ok : forall n f vs ks,
  Forall2 (written macro_written n) vs ks -> Forall macros_near ks -> (4 * n <= S f)%nat ->
  exists is vs' ks' I, thread (key_map_accum f) [] vs = Ok (is, vs') /\ Forall2 instruction_written is I /\
    Forall2 (written auto_written n) vs' ks' /\ Forall2 (lowers I) ks ks' /\
    length I = list_sum (map code_size ks).
Proof.
  intros n f vs ks H Hn Hf.
  destruct (thread_ok (key_map_accum f) (fun v k => written macro_written n v k /\ macros_near k)
           (written auto_written n) lowers code_size) with (xs := vs) (ks := ks) (acc := @nil val) (I := @nil instruction)
    as [a [vs' [ks' [I H0]]]].
  - intros. now apply lowers_mono.
  - intros v k acc0 I0 [Hw Hk] HI0. apply (map_accum_ok n v k f acc0 I0 Hw Hk Hf HI0).
  - clear -H Hn. induction H; inversion Hn; subst; constructor; auto.
  - constructor.
  - exists a, vs', ks', I. exact H0.
Qed.
