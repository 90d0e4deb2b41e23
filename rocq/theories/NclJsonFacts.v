(** Proofs about the JSON of keys (C63): written keys get the JSON of the key
    they write, and the generator reads the same key back. *)
From Coq Require Import String Ascii Permutation.
From Verif Require Import BaseFacts Output Types SimpleKeys TapHold TapDance Sticky Layered Automation Chorded
  Composite Ncl NclCodegen SpecNcl NclFacts NclMacroFacts.
Import List.
Local Open Scope string_scope.
Local Open Scope N_scope.
Local Open Scope list_scope.

Definition layer_json (l : layer_modifier) : val :=
  match l with
  | LmDefault n => VRec [("Default", VNum n)]
  | LmHold n => VRec [("Hold", VNum n)]
  | LmSticky n => VRec [("Sticky", VNum n)]
  | LmToggle n => VRec [("Toggle", VNum n)]
  | LmSetActiveLayers b => VRec [("SetActiveLayers", VNum b)]
  end.

Fixpoint json (k : ukey automation_key) : val :=
  match k with
  | UCode c => VRec [("key_code", VNum c)]
  | UMods m => VRec [("modifiers", VNum m)]
  | UCodeMods c m => VRec [("key_code", VNum c); ("modifiers", VNum m)]
  | UConsumer c => VRec [("consumer_code", VNum c)]
  | UCustom c => VRec [("custom", VNum c)]
  | UMouse m => VRec [("mouse", mouse_value m)]
  | UCallback c => VRec [("keymap_callback", callback_value c)]
  | UCapsWord => VStr "ToggleCapsWord"
  | USticky m => VRec [("sticky_modifiers", VNum m)]
  | ULayer l => layer_json l
  | UMacro a => VRec [("automation_instructions", auto_json a)]
  | UTapHold t h => VRec [("hold", json h); ("tap", json t)]
  | UTapDance k ks => VRec [("definitions", VArr (json k :: map json ks))]
  | ULayered b ls =>
      VRec [("base", json b);
            ("layered", VArr (map (fun o => match o with Some k => json k | None => VNull end) ls))]
  | UChorded cs p =>
      VRec [("chords", VArr (map (fun e => match e with (n, k) => VArr [VNum n; json k] end) cs));
            ("passthrough", json p)]
  | UAux p => VRec [("passthrough", json p)]
  end.

(** ** Sets of layers *)

Lemma add_bit : forall s l, N.testbit s l = false -> s + 2 ^ l = N.setbit s l.
Proof.
  intros s l H.
  assert (H0 : N.land s (2 ^ l) = 0).
  { apply N.bits_inj. intros i. rewrite N.land_spec, N.bits_0. destruct (N.eq_dec i l) as [->|Hi].
    - now rewrite H.
    - rewrite N.pow2_bits_false by auto. apply andb_false_r. }
  rewrite N.setbit_spec'. rewrite N.add_nocarry_lxor by exact H0. now rewrite N.lxor_lor.
Qed.

Lemma sum_bits : forall ls s, NoDup ls -> (forall l, In l ls -> N.testbit s l = false) ->
  forall i, N.testbit (fold_left N.add (map (fun l => 2 ^ l) ls) s) i = true <->
            (N.testbit s i = true \/ In i ls).
Proof.
  induction ls as [|l ls IH]; intros s Hd Hs i; cbn [map fold_left].
  - split; [auto|]. intros [H|[]]; exact H.
  - inversion Hd as [|? ? Hn Hd']; subst.
    rewrite add_bit by (apply Hs; now left).
    rewrite IH; [|assumption|].
    + rewrite N.setbit_iff. split; intros H; cbn [In] in *; intuition.
    + intros l' Hl'. rewrite N.setbit_neq; [apply Hs; now right|]. intros ->. contradiction.
Qed.

Lemma map_res_nums : forall ls,
  map_res (fun v => let! n := as_num v in Ok (2 ^ n)) (map VNum ls) = Ok (map (fun l => 2 ^ l) ls).
Proof. induction ls as [|l ls IH]; [reflexivity|]. cbn [map map_res as_num bind]. now rewrite IH. Qed.

Lemma bitset_written : forall ls b, ls <> [] -> NoDup ls ->
  (forall l, N.testbit b l = true <-> In l ls) -> layer_bitset (map VNum ls) = Ok b.
Proof.
  intros ls b Hne Hd Hb. unfold layer_bitset. rewrite map_res_nums. cbn [bind].
  destruct ls as [|l ls]; [contradiction|]. cbn [map].
  pose proof (sum_bits (l :: ls) 0 Hd ltac:(intros; apply N.bits_0)) as Hs.
  cbn [map fold_left] in Hs. rewrite N.add_0_l in Hs. f_equal.
  apply N.bits_inj. intros i.
  destruct (N.testbit b i) eqn:E.
  - apply Hb in E. apply Hs. now right.
  - destruct (N.testbit (fold_left N.add (map (fun l => 2 ^ l) ls) (2 ^ l)) i) eqn:E'; [|reflexivity].
    apply Hs in E'. rewrite N.bits_0 in E'. destruct E' as [E'|E']; [discriminate E'|].
    apply Hb in E'. congruence.
Qed.

Lemma layer_to_json : forall f v l, layer_written f v l ->
  layer_modifier_to_json (VRec [("layer_modifier", VRec [(f, v)])]) = Ok (layer_json l).
Proof.
  intros f v l H. destruct H; try reflexivity.
  cbn -[layer_bitset N.pow]. now rewrite (bitset_written ls b).
Qed.

(** ** The JSON of written keys *)

Lemma core_to_json : forall cf c fs rec, core_written auto_written cf c -> Permutation fs cf ->
  module_to_json rec (core_module c) (VRec fs) = Ok (json c).
Proof.
  intros cf c fs rec Hc Hp. apply Permutation_sym in Hp.
  destruct Hc; (apply Permutation_length_1_inv in Hp || (apply Permutation_length_2_inv in Hp; destruct Hp as [Hp|Hp]));
    subst fs; cbn [core_module module_to_json]; try reflexivity.
  - cbn -[modifiers_to_json]. now rewrite (modifiers_json _ _ H).
  - cbn -[modifiers_to_json]. now rewrite (modifiers_json _ _ H0).
  - cbn -[modifiers_to_json]. now rewrite (modifiers_json _ _ H0).
  - cbn -[modifiers_to_json]. now rewrite (modifiers_json _ _ H).
  - now apply layer_to_json.
  - unfold auto_written in H. now subst v.
Qed.

Lemma map_res_ok : forall A B C (f : A -> res B) (g : C -> B) (P : A -> C -> Prop) xs ys,
  (forall x y, P x y -> f x = Ok (g y)) -> Forall2 P xs ys -> map_res f xs = Ok (map g ys).
Proof.
  intros A B C f g P xs ys Hf H. induction H as [|x y xs ys Hx _ IH]; [reflexivity|].
  cbn [map_res map]. rewrite (Hf _ _ Hx). cbn [bind]. now rewrite IH.
Qed.

Lemma key_to_json_S : forall f v m, good f v m -> key_to_json (S f) v = module_to_json (key_to_json f) m v.
Proof. intros f v m H. cbn [key_to_json]. now rewrite (good_module _ _ _ H). Qed.

Lemma written_not_null : forall M (mw : val -> M -> Prop) n v k, written mw n v k -> v <> VNull.
Proof. intros M mw n v k H E. subst v. inversion H. Qed.

Lemma record_json : forall n K,
  (forall v k, written auto_written n v k -> forall f, (K <= f)%nat -> key_valid f v = Ok true) ->
  (forall v k, written auto_written n v k -> forall f, (K <= f)%nat -> key_to_json f v = Ok (json k)) ->
  forall j cf c h t l fs f,
  core_written auto_written cf c ->
  (forall v k, h = Some (v, k) -> written auto_written n v k) ->
  (forall vs ks, t = Some (vs, ks) -> Forall2 (written auto_written n) vs ks) ->
  (forall vs ks, l = Some (vs, ks) -> Forall2 (null_or (written auto_written n)) vs ks) ->
  Permutation fs (fields cf h t l) ->
  (some_n h + some_n t + some_n l = j)%nat -> (K + j <= f)%nat ->
  key_to_json (S f) (VRec fs) = Ok (json (with_layers l (with_dances t (with_hold h c)))).
Proof.
  intros n K HK HJ. induction j as [|j IH]; intros cf c h t l fs f Hc Hh Ht Hl Hp Hj Hf;
    pose proof (record_good _ auto_written n K auto_valid HK _ cf c h t l fs f Hc Hh Ht Hl Hp Hj Hf) as Hg;
    rewrite (key_to_json_S _ _ _ Hg).
  - destruct h, t, l; try discriminate Hj. cbn [with_layers with_dances with_hold].
    eapply core_to_json; [eassumption|]. unfold fields in Hp. cbn in Hp. now rewrite app_nil_r in Hp.
  - destruct f as [|f]; [lia|].
    pose proof (fields_nodup auto_written cf c Hc h t l) as Hnd.
    assert (Hrest : forall h' t' l' fs',
        (h' = h \/ h' = None) -> (t' = t \/ t' = None) -> (l' = l \/ l' = None) ->
        Permutation fs' (fields cf h' t' l') ->
        (some_n h' + some_n t' + some_n l' = j)%nat ->
        key_to_json (S f) (VRec fs') = Ok (json (with_layers l' (with_dances t' (with_hold h' c))))).
    { intros h' t' l' fs' Eh Et El Hp' Hj'. apply (IH cf c h' t' l' fs' f Hc); [| | |exact Hp'|exact Hj'|lia].
      - intros v k E. destruct Eh as [->| ->]; [now apply Hh|discriminate].
      - intros vs ks E. destruct Et as [->| ->]; [now apply Ht|discriminate].
      - intros vs ks E. destruct El as [->| ->]; [now apply Hl|discriminate]. }
    destruct l as [[lv lk]|]; [|destruct t as [[tv tk]|]; [|destruct h as [[hv hk]|]; [|discriminate Hj]]].
    + cbn [with_layers core_module module_to_json].
      rewrite (get_perm _ _ _ Hnd Hp), (get_layers auto_written cf c Hc). cbn [option_map fst].
      rewrite (Hrest h t None); [|auto|auto|auto| |cbn [some_n] in *; lia].
      2:{ rewrite <- (without_layers auto_written cf c Hc h t (Some (lv, lk))). now apply without_perm. }
      cbn [bind as_array].
      rewrite (map_res_ok _ _ _ _ (fun o => match o with Some k => json k | None => VNull end)
                 (null_or (written auto_written n)) lv lk); [reflexivity| |apply Hl; reflexivity].
      intros v o Hv. destruct Hv as [|v k Hk]; [reflexivity|].
      rewrite <- (HJ _ _ Hk (S f)) by lia. pose proof (written_not_null _ _ _ _ _ Hk). now destruct v.
    + cbn [with_layers with_dances core_module module_to_json].
      rewrite (get_perm _ _ _ Hnd Hp), (get_dances auto_written cf c Hc). cbn [option_map fst].
      rewrite (Hrest h None None); [|auto|auto|auto| |cbn [some_n] in *; lia].
      2:{ rewrite <- (without_dances auto_written cf c Hc h (Some (tv, tk)) None). now apply without_perm. }
      cbn [bind as_array].
      rewrite (map_res_ok _ _ _ _ json (written auto_written n) tv tk); [reflexivity| |apply Ht; reflexivity].
      intros v k Hk. apply (HJ _ _ Hk). lia.
    + cbn [with_layers with_dances with_hold core_module module_to_json].
      rewrite (get_perm _ _ _ Hnd Hp), (get_hold auto_written cf c Hc). cbn [option_map fst].
      rewrite (HJ _ _ (Hh _ _ eq_refl)) by lia. cbn [bind].
      rewrite (Hrest None None None); [reflexivity|auto|auto|auto| |cbn [some_n] in *; lia].
      rewrite <- (without_hold auto_written cf c Hc (Some (hv, hk)) None None). now apply without_perm.
Qed.

Lemma written_valid : forall M (mw : val -> M -> Prop),
  (forall v x, mw v x -> key_instructions_valid v = Ok true) ->
  forall n v k, written mw n v k -> forall f, (4 * n <= f)%nat -> key_valid f v = Ok true.
Proof.
  intros M mw Hmw n v k H f Hf. destruct n as [|n]; [inversion H|]. destruct f as [|f]; [lia|].
  eapply good_valid. eapply written_good; [exact Hmw|exact H|lia].
Qed.

Lemma written_json : forall n v k, written auto_written n v k ->
  forall f, (4 * n <= f)%nat -> key_to_json f v = Ok (json k).
Proof.
  induction n as [|n IH]; intros v k H f Hf; [inversion H|].
  destruct f as [|f]; [lia|].
  pose proof (written_good _ _ auto_valid _ _ _ H f ltac:(lia)) as Hg.
  inversion H as [|n' fs cf c h t l Hc Hh Ht Hl Hp|n' fs vs cs pv pk Hcs Hpk Hp|n' pv pk Hpk]; subst.
  - rewrite (key_to_json_S _ _ _ Hg). reflexivity.
  - eapply (record_json n (4 * n)%nat); try eassumption; [|reflexivity|destruct h, t, l; cbn [some_n]; lia].
    intros v k Hk f' Hf'. eapply written_valid; [exact auto_valid|exact Hk|exact Hf'].
  - rewrite (key_to_json_S _ _ _ Hg). cbn [core_module module_to_json].
    assert (E : only2 "chords" "passthrough" (VRec fs) = Some (VArr vs, pv)).
    { apply Permutation_sym, Permutation_length_2_inv in Hp. destruct Hp; subst fs; reflexivity. }
    rewrite E. cbn [as_array bind].
    rewrite (map_res_ok _ _ _ _ (fun e : N * ukey automation_key => match e with (n, k) => VArr [VNum n; json k] end)
                (fun v e => exists kv, v = VArr [VNum (fst e); kv] /\ written auto_written n kv (snd e)) vs cs).
    + cbn [bind]. rewrite (IH _ _ Hpk) by lia. reflexivity.
    + intros v [m k] [kv [-> Hk]]. cbn [fst snd] in *. rewrite (IH _ _ Hk) by lia. reflexivity.
    + exact Hcs.
  - rewrite (key_to_json_S _ _ _ Hg). cbn [core_module module_to_json].
    assert (E : only "passthrough" (VRec [("passthrough", pv)]) = Some pv) by reflexivity.
    rewrite E. rewrite (IH _ _ Hpk) by lia. reflexivity.
Qed.

(** ** Reading the JSON back *)

Definition json_module {M} (k : ukey M) : jmod :=
  match k with
  | UCode _ | UMods _ | UCodeMods _ _ => JKeyboard
  | UConsumer _ => JConsumer
  | UCustom _ => JCustom
  | UMouse _ => JMouse
  | UCallback _ => JCallback
  | UCapsWord => JCapsWord
  | USticky _ => JSticky
  | ULayer _ => JLayerMod
  | UMacro _ => JAutomation
  | UTapHold _ _ => JTapHold
  | UTapDance _ _ => JTapDance
  | ULayered _ _ => JLayered
  | UChorded _ _ => JChorded
  | UAux _ => JAux
  end.

Fixpoint cv_of (k : ukey automation_key) : cv :=
  match k with
  | UTapHold t h => CvTapHold (cv_of t) (cv_of h)
  | UTapDance k ks => CvTapDance (cv_of k :: map cv_of ks)
  | ULayered b ls => CvLayered (cv_of b) (map (option_map cv_of) ls)
  | UChorded cs p => CvChorded (map (fun e => match e with (n, k) => (VNum n, cv_of k) end) cs) (cv_of p)
  | UAux p => CvAux (cv_of p)
  | k => CvLeaf (json_module k) (json k)
  end.

(** How deeply a key is nested. *)
Inductive depth {M} : ukey M -> nat -> Prop :=
| dp_leaf : forall k n, is_leaf k = true -> depth k (S n)
| dp_hold : forall t h n, depth t n -> depth h n -> depth (UTapHold t h) (S n)
| dp_dance : forall k ks n, depth k n -> Forall (fun k => depth k n) ks -> depth (UTapDance k ks) (S n)
| dp_layered : forall b ls n, depth b n -> (forall k, In (Some k) ls -> depth k n) -> depth (ULayered b ls) (S n)
| dp_chorded : forall cs p n, (forall e, In e cs -> depth (snd e) n) -> depth p n -> depth (UChorded cs p) (S n)
| dp_aux : forall p n, depth p n -> depth (UAux p) (S n).

Lemma depth_mono : forall M (k : ukey M) n, depth k n -> forall m, (n <= m)%nat -> depth k m.
Proof.
  intros M. induction k as [k Hk|t h IHt IHh|k ks IHk IHks|b ls IHb IHls|cs p IHcs IHp|p IHp] using ukey_ind';
    intros n H m Hm; (destruct m as [|m]; [inversion H; lia|]); inversion H; subst; try discriminate;
    try (constructor; assumption).
  - constructor; [eapply IHt|eapply IHh]; try eassumption; lia.
  - constructor; [eapply IHk; try eassumption; lia|]. rewrite Forall_forall in *. intros x Hx.
    eapply IHks; [exact Hx|apply H4, Hx|lia].
  - constructor; [eapply IHb; try eassumption; lia|]. intros k Hk. eapply IHls; [exact Hk|apply H4, Hk|lia].
  - constructor; [|eapply IHp; try eassumption; lia]. intros e Hk. eapply IHcs; [exact Hk|apply H2, Hk|lia].
  - apply dp_aux. eapply IHp; try eassumption; lia.
Qed.

Lemma written_depth : forall M (mw : val -> M -> Prop) n v k, written mw n v k -> depth k (4 * n).
Proof.
  intros M mw. induction n as [|n IH]; intros v k H; [inversion H|].
  replace (4 * S n)%nat with (S (S (S (S (4 * n))))) by lia.
  assert (HI : forall v k m, written mw n v k -> (4 * n <= m)%nat -> depth k m).
  { intros v' k' m H' Hm. eapply depth_mono; [eapply IH; exact H'|exact Hm]. }
  inversion H as [|n' fs cf c h t l Hc Hh Ht Hl Hp|n' fs vs cs pv pk Hcs Hpk Hp|n' pv pk Hpk]; subst.
  - now constructor.
  - assert (Hleaf : is_leaf c = true) by now destruct Hc.
    assert (D1 : depth (with_hold h c) (S (S (4 * n)))).
    { destruct h as [[hv hk]|]; [|now constructor]. constructor; [now constructor|].
      eapply HI; [apply Hh; reflexivity|lia]. }
    assert (D2 : depth (with_dances t (with_hold h c)) (S (S (S (4 * n))))).
    { destruct t as [[tv tk]|]; [|eapply depth_mono; [exact D1|lia]]. constructor; [exact D1|].
      specialize (Ht _ _ eq_refl). clear -Ht HI. induction Ht; constructor; [|assumption].
      eapply HI; [eassumption|lia]. }
    destruct l as [[lv lk]|]; [|eapply depth_mono; [exact D2|lia]]. constructor; [exact D2|].
    intros k Hk. specialize (Hl _ _ eq_refl). clear -Hl HI Hk.
    induction Hl as [|v o vs os Hv _ IHl]; [destruct Hk|]. destruct Hk as [->|Hk]; [|now apply IHl].
    inversion Hv; subst. eapply HI; [eassumption|lia].
  - constructor; [|eapply HI; [eassumption|lia]]. intros e He. clear -Hcs HI He.
    induction Hcs as [|v o vs os [kv [-> Hv]] _ IHl]; [destruct He|]. destruct He as [->|He]; [|now apply IHl].
    eapply HI; [eassumption|lia].
  - apply dp_aux. eapply HI; [eassumption|lia].
Qed.

Lemma any_of_jfilter : forall (g : jmod -> vtor) v ms m l,
  filter_jmods (fun m => g m v) ms = Ok (m :: l) -> any_of (map g ms) v = Ok true.
Proof.
  induction ms as [|m0 ms IH]; intros m l H; cbn [filter_jmods] in H; [discriminate H|].
  cbn [map any_of]. destruct (g m0 v) as [b| |]; cbn [bind] in *; try discriminate H.
  destruct b; [reflexivity|].
  destruct (filter_jmods (fun m => g m v) ms) as [l0| |] eqn:E; cbn [bind] in H; try discriminate H.
  inv_ok H. now apply IH with (1 := eq_refl).
Qed.

Definition one_module (f : nat) (k : ukey automation_key) : Prop :=
  filter_jmods (fun m => module_json_valid (json_valid f) m (json k)) codegen_modules = Ok [json_module k].

Lemma one_valid : forall f k, one_module f k -> json_valid (S f) (json k) = Ok true.
Proof. intros f k H. cbn [json_valid]. eapply any_of_jfilter with (1 := H). Qed.

Lemma leaf_one : forall k f, is_leaf k = true -> one_module f k.
Proof.
  intros k f H. unfold one_module. destruct k; try discriminate H; try reflexivity.
  - destruct m; reflexivity.
  - destruct c as [| |[]|]; reflexivity.
  - destruct l; reflexivity.
Qed.

Lemma json_one : forall f k, depth k (S f) -> one_module f k.
Proof.
  induction f as [|f IH]; intros k H;
    inversion H as [k0 n0 Hk|t h n0 Ht Hh|k0 ks n0 Hk Hks|b ls n0 Hb Hls|cs p n0 Hcs Hp|p n0 Hp]; subst;
    try (now apply leaf_one);
    try (match goal with X : depth _ 0 |- _ => now inversion X end).
  all: assert (HV : forall k, depth k (S f) -> json_valid (S f) (json k) = Ok true)
         by (intros k Hk'; apply one_valid, IH, Hk').
  - unfold one_module. cbn -[json_valid]. rewrite (HV _ Ht), (HV _ Hh). reflexivity.
  - unfold one_module. cbn -[json_valid]. rewrite (HV _ Hk).
    rewrite elements_valid; [reflexivity|]. rewrite Forall_forall in *. intros x Hx.
    apply in_map_iff in Hx. destruct Hx as [y [<- Hy]]. apply HV, Hks, Hy.
  - unfold one_module. cbn -[json_valid any_of]. rewrite (HV _ Hb).
    rewrite elements_valid; [reflexivity|]. apply Forall_forall. intros x Hx.
    apply in_map_iff in Hx. destruct Hx as [y [<- Hy]]. destruct y as [y|]; [|reflexivity].
    cbn [any_of]. rewrite (HV y) by (apply Hls; exact Hy). now destruct (json y).
  - unfold one_module. cbn -[json_valid tuple_of]. rewrite elements_valid.
    + rewrite (HV _ Hp). reflexivity.
    + apply Forall_forall. intros x Hx. apply in_map_iff in Hx. destruct Hx as [[m y] [<- Hy]].
      cbn -[json_valid]. rewrite (HV y); [reflexivity|]. apply (Hcs _ Hy).
  - unfold one_module. cbn -[json_valid]. rewrite (HV _ Hp). reflexivity.
Qed.

Lemma map_res_map : forall A B C (f : B -> res C) (h : A -> B) (g : A -> C) l,
  (forall x, In x l -> f (h x) = Ok (g x)) -> map_res f (map h l) = Ok (map g l).
Proof.
  intros A B C f h g l H. induction l as [|x l IH]; [reflexivity|]. cbn [map map_res].
  rewrite H by now left. cbn [bind]. rewrite IH; [reflexivity|]. intros y Hy. apply H. now right.
Qed.

Lemma json_not_null : forall k, json k <> VNull.
Proof. intros k. destruct k; try discriminate. destruct l; discriminate. Qed.

Lemma codegen_json : forall f k, depth k f -> codegen_values f (json k) = Ok (cv_of k).
Proof.
  induction f as [|f IH]; intros k H; [inversion H|].
  cbn [codegen_values]. rewrite (json_one _ _ H). cbn [bind].
  inversion H as [k0 n0 Hk|t h n0 Ht Hh|k0 ks n0 Hk Hks|b ls n0 Hb Hls|cs p n0 Hcs Hp|p n0 Hp]; subst.
  - destruct k; try discriminate; try reflexivity.
  - cbn -[codegen_values]. rewrite (IH h), (IH t) by assumption. reflexivity.
  - cbn -[codegen_values]. rewrite (IH k0) by assumption. cbn [bind].
    rewrite (map_res_map _ _ _ _ json cv_of); [reflexivity|]. intros x Hx. apply IH.
    rewrite Forall_forall in Hks. now apply Hks.
  - cbn -[codegen_values]. rewrite (IH b) by assumption. cbn [bind].
    rewrite (map_res_map _ _ _ _ _ (option_map cv_of)); [reflexivity|]. intros [x|] Hx; [|reflexivity].
    pose proof (json_not_null x). pose proof (IH x (Hls x Hx)) as E. cbn [option_map].
    destruct (json x); try contradiction; rewrite E; reflexivity.
  - cbn -[codegen_values].
    rewrite (map_res_map _ _ _ _ _ (fun e : N * ukey automation_key => match e with (n, k) => (VNum n, cv_of k) end)).
    + cbn [bind]. rewrite (IH p) by assumption. reflexivity.
    + intros [m x] Hx. rewrite (IH x); [reflexivity|]. apply (Hcs _ Hx).
  - cbn -[codegen_values]. rewrite (IH p) by assumption. reflexivity.
Qed.
