(** Proofs about the generated tables (C63): the reference of a key denotes it. *)
From Coq Require Import String Ascii Permutation.
From Verif Require Import BaseFacts Output Types SimpleKeys TapHold TapDance Sticky Layered Automation Chorded
  Composite Ncl NclCodegen SpecNcl NclFacts NclMacroFacts NclJsonFacts.
Import List.
Local Open Scope string_scope.
Local Open Scope N_scope.
Local Open Scope list_scope.

(** ** Numbers in range *)

Definition exec_ranged (e : execution) : Prop := ex_start e <= 65535 /\ ex_length e <= 65535.
Definition auto_ranged (a : automation_key) : Prop :=
  exec_ranged (ak_on_press a) /\ exec_ranged (ak_while_pressed a) /\ exec_ranged (ak_on_release a).
Definition layer_ranged (l : layer_modifier) : Prop :=
  match l with
  | LmDefault n | LmHold n | LmSticky n | LmToggle n | LmSetActiveLayers n => n <= 4294967295
  end.

Definition leaf_ranged (k : ukey automation_key) : Prop :=
  match k with
  | UCode c | UConsumer c | UCustom c => c <= 255
  | UMods m | USticky m => m <= 255
  | UCodeMods c m => c <= 255 /\ m <= 255
  | UMouse m => mouse_in_range m
  | UCallback c => callback_in_range c
  | ULayer l => layer_ranged l
  | UMacro a => auto_ranged a
  | UChorded cs _ => Forall (fun e => fst e <= 255) cs
  | _ => True
  end.
Definition ranged (k : ukey automation_key) : Prop := Forall leaf_ranged (all_parts k).

Lemma lit_ok : forall b n, n <= b -> lit b n = Ok n.
Proof. intros b n H. unfold lit. apply N.leb_le in H. now rewrite H. Qed.
Lemma lit8_ok : forall n, n <= 255 -> lit8 (VNum n) = Ok n.
Proof. intros. now apply lit_ok. Qed.
Lemma lit16_ok : forall n, n <= 65535 -> lit16 (VNum n) = Ok n.
Proof. intros. now apply lit_ok. Qed.
Lemma lit32_ok : forall n, n <= 4294967295 -> lit32 (VNum n) = Ok n.
Proof. intros. now apply lit_ok. Qed.

(** ** Keys without parts *)

Definition leaf_table (d : key_data) (k : ukey automation_key) : res (key_data * ref) :=
  match k with
  | UCode c => Ok (d, RKeyboard (KbKeyCode c))
  | UMods m => Ok (d, RKeyboard (KbModifiers m))
  | UCodeMods c m =>
      let! i := new_index (kd_keyboard d) in
      Ok (add_keyboard d (mkKeyboardKey c m), RKeyboard (KbKeyCodeAndModifier i))
  | UConsumer c => Ok (d, RConsumer (CnUsageCode c))
  | UCustom c => Ok (d, RCustom (CsCode c))
  | UMouse m => Ok (d, RMouse m)
  | UCallback c => let! i := new_index (kd_callback d) in Ok (add_callback d c, RCallback i)
  | UCapsWord => Ok (d, RCapsWord)
  | USticky m => let! i := new_index (kd_sticky d) in Ok (add_sticky d (mkStickyKey m), RSticky i)
  | ULayer l => let! i := new_index (kd_layer_mods d) in Ok (add_layer_mod d l, RLayered (LyModifier i))
  | UMacro a => let! i := new_index (kd_automation d) in Ok (add_automation d a, RAutomation i)
  | _ => Panic
  end.

Lemma automation_back : forall a, auto_ranged a ->
  automation_expr (VRec [("automation_instructions", auto_json a)]) = Ok a.
Proof.
  intros [[ps pl] [ws wl] [rs rl]] [[Ha Hb] [[Hc Hd] [He Hf]]]. cbn [ex_start ex_length ak_on_press ak_while_pressed ak_on_release] in *.
  unfold automation_expr. cbn -[lit]. rewrite !lit_ok by assumption. reflexivity.
Qed.

Lemma callback_back : forall c, callback_in_range c ->
  callback_expr (VRec [("keymap_callback", callback_value c)]) = Ok c.
Proof.
  intros [| |[]|i j] H; try reflexivity; cbn in H; unfold callback_expr; cbn -[lit].
  - now rewrite lit_ok.
  - destruct H. now rewrite !lit_ok.
Qed.

Lemma mouse_back : forall m, mouse_in_range m -> mouse_expr (VRec [("mouse", mouse_value m)]) = Ok m.
Proof.
  intros [] H; try reflexivity. cbn in H. unfold mouse_expr. cbn -[lit]. now rewrite lit_ok.
Qed.

Lemma layer_back : forall l, layer_ranged l -> layer_modifier_expr (layer_json l) = Ok l.
Proof.
  intros [] H; cbn in H; unfold layer_modifier_expr; cbn -[lit]; now rewrite lit_ok.
Qed.

Lemma leaf_eq : forall d k, is_leaf k = true -> leaf_ranged k ->
  leaf_data_and_ref d (json_module k) (json k) = leaf_table d k.
Proof.
  intros d k Hl Hr. destruct k; try discriminate Hl; cbn [leaf_ranged] in Hr; cbn [json_module json leaf_table].
  - cbn -[lit]. now rewrite lit_ok.
  - cbn -[lit]. now rewrite lit_ok.
  - destruct Hr. cbn -[lit]. now rewrite !lit_ok.
  - cbn -[lit]. now rewrite lit_ok.
  - cbn -[lit]. now rewrite lit_ok.
  - cbn [leaf_data_and_ref]. now rewrite mouse_back.
  - cbn [leaf_data_and_ref]. now rewrite callback_back.
  - reflexivity.
  - cbn -[lit]. now rewrite lit_ok.
  - cbn [leaf_data_and_ref]. now rewrite layer_back.
  - cbn [leaf_data_and_ref]. now rewrite automation_back.
Qed.

Lemma lit_inv : forall b n m, lit b n = Ok m -> m = n.
Proof. intros b n m H. unfold lit in H. destruct (n <=? b); [|discriminate H]. now inv_ok H. Qed.

Lemma exec_inv : forall e e', execution_expr (exec_json e) = Ok e' -> e' = e.
Proof.
  intros [s l] e' H. unfold execution_expr in H. cbn -[lit] in H. inv_bind H. inv_bind H.
  apply lit_inv in E, E0. subst. now inv_ok H.
Qed.
Lemma automation_inv : forall a a',
  automation_expr (VRec [("automation_instructions", auto_json a)]) = Ok a' -> a' = a.
Proof.
  intros [p w r] a' H. unfold automation_expr in H. cbn -[execution_expr exec_json] in H.
  inv_bind H. inv_bind H. inv_bind H. apply exec_inv in E, E0, E1. subst. now inv_ok H.
Qed.

(** What is generated is right without a look at the ranges. *)
Lemma leaf_sound : forall d k x, is_leaf k = true ->
  leaf_data_and_ref d (json_module k) (json k) = Ok x -> leaf_table d k = Ok x.
Proof.
  intros d k x Hl H. destruct k; try discriminate Hl; cbn [json_module json leaf_table] in *.
  - cbn -[lit] in H. inv_bind H. apply lit_inv in E. now subst.
  - cbn -[lit] in H. inv_bind H. apply lit_inv in E. now subst.
  - cbn -[lit new_index] in H. inv_bind H. inv_bind H. apply lit_inv in E, E0. now subst.
  - cbn -[lit] in H. inv_bind H. apply lit_inv in E. now subst.
  - cbn -[lit] in H. inv_bind H. apply lit_inv in E. now subst.
  - cbn [leaf_data_and_ref] in H. inv_bind H.
    destruct m; unfold mouse_expr in E; cbn -[lit] in E; try (inv_ok E; exact H).
    inv_bind E. apply lit_inv in E0. inv_ok E. exact H.
  - cbn [leaf_data_and_ref] in H. inv_bind H.
    destruct c as [| |[]|i j]; unfold callback_expr in E; cbn -[lit] in E; try (inv_ok E; exact H).
    + inv_bind E. apply lit_inv in E0. inv_ok E. exact H.
    + inv_bind E. inv_bind E. apply lit_inv in E0, E1. inv_ok E. exact H.
  - exact H.
  - cbn -[lit new_index] in H. inv_bind H. apply lit_inv in E. now subst.
  - cbn [leaf_data_and_ref] in H. inv_bind H.
    destruct l; unfold layer_modifier_expr in E; cbn -[lit] in E;
      inv_bind E; apply lit_inv in E0; inv_ok E; exact H.
  - cbn [leaf_data_and_ref] in H. inv_bind H. apply automation_inv in E. now subst.
Qed.

(** ** Growing tables *)

Definition grows {A} (l m : list A) : Prop := exists x, m = l ++ x.
Definition ext (d d' : key_data) : Prop :=
  grows (kd_automation d) (kd_automation d') /\ grows (kd_callback d) (kd_callback d') /\
  grows (kd_chorded d) (kd_chorded d') /\ grows (kd_chorded_aux d) (kd_chorded_aux d') /\
  grows (kd_keyboard d) (kd_keyboard d') /\ grows (kd_layer_mods d) (kd_layer_mods d') /\
  grows (kd_layered d) (kd_layered d') /\ grows (kd_sticky d) (kd_sticky d') /\
  grows (kd_tap_dance d) (kd_tap_dance d') /\ grows (kd_tap_hold d) (kd_tap_hold d').

Lemma grows_refl : forall A (l : list A), grows l l.
Proof. intros A l. exists []. now rewrite app_nil_r. Qed.
Lemma grows_snoc : forall A (l : list A) x, grows l (l ++ [x]).
Proof. intros A l x. now exists [x]. Qed.
Lemma grows_trans : forall A (l m n : list A), grows l m -> grows m n -> grows l n.
Proof. intros A l m n [x ->] [y ->]. exists (x ++ y). now rewrite app_assoc. Qed.
Lemma grows_entry : forall A (l m : list A) i x, grows l m -> entry l i x -> entry m i x.
Proof.
  intros A l m i x [y ->] H. unfold entry in *. rewrite nth_error_app1; [exact H|].
  apply nth_error_Some. rewrite H. discriminate.
Qed.

Lemma ext_refl : forall d, ext d d.
Proof. intros d. repeat split; apply grows_refl. Qed.
Lemma ext_trans : forall a b c, ext a b -> ext b c -> ext a c.
Proof.
  intros a b c (?&?&?&?&?&?&?&?&?&?) (?&?&?&?&?&?&?&?&?&?). repeat split; eapply grows_trans; eassumption.
Qed.

Lemma denotes_ext : forall M (md : automation_key -> M -> Prop) d d', ext d d' ->
  forall k r, denotes md d k r -> denotes md d' k r.
Proof.
  intros M md d d' (Ha&Hb&Hc&Hd&He&Hf&Hg&Hh&Hi&Hj).
  induction k as [k Hk|t h IHt IHh|k ks IHk IHks|b ls IHb IHls|cs p IHcs IHp|p IHp] using ukey_ind'; intros r H.
  - destruct k; try discriminate Hk; cbn in *; try exact H.
    + destruct H as [i [-> H]]. exists i. split; [reflexivity|]. eapply grows_entry; eassumption.
    + destruct H as [i [-> H]]. exists i. split; [reflexivity|]. eapply grows_entry; eassumption.
    + destruct H as [i [-> H]]. exists i. split; [reflexivity|]. eapply grows_entry; eassumption.
    + destruct H as [i [-> H]]. exists i. split; [reflexivity|]. eapply grows_entry; eassumption.
    + destruct H as [i [a [-> [H Hm]]]]. exists i, a. split; [reflexivity|]. split; [|exact Hm].
      eapply grows_entry; eassumption.
  - destruct H as [i [rt [rh [-> [H [H1 H2]]]]]]. exists i, rt, rh. split; [reflexivity|].
    split; [eapply grows_entry; eassumption|]. auto.
  - destruct H as [i [r0 [rs [n [-> [H [H1 H2]]]]]]]. exists i, r0, rs, n. split; [reflexivity|].
    split; [eapply grows_entry; eassumption|]. split; [auto|].
    revert H2. apply all2_mono. intros x y Hx. rewrite Forall_forall in IHks. apply IHks, Hx.
  - destruct H as [i [rb [rs [n [-> [H [H1 H2]]]]]]]. exists i, rb, rs, n. split; [reflexivity|].
    split; [eapply grows_entry; eassumption|]. split; [auto|].
    revert H2. apply all2_mono. intros [x|] [y|] Hx; auto.
  - destruct H as [i [rs [rp [-> [H [H1 H2]]]]]]. exists i, rs, rp. split; [reflexivity|].
    split; [eapply grows_entry; eassumption|]. split; [|auto].
    revert H1. apply all2_mono. intros [m x] [m' y] Hx [-> Hr]. split; [reflexivity|]. apply (IHcs _ Hx), Hr.
  - destruct H as [i [rp [-> [H H1]]]]. exists i, rp. split; [reflexivity|].
    split; [eapply grows_entry; eassumption|]. auto.
Qed.

(** Sizes of tables. *)
Definition tlen (t : table) (d : key_data) : nat :=
  match t with
  | TKeyboard => length (kd_keyboard d)
  | TCallback => length (kd_callback d)
  | TSticky => length (kd_sticky d)
  | TLayerMods => length (kd_layer_mods d)
  | TAutomation => length (kd_automation d)
  | TTapHold => length (kd_tap_hold d)
  | TTapDance => length (kd_tap_dance d)
  | TLayered => length (kd_layered d)
  | TChorded => length (kd_chorded d)
  | TAux => length (kd_chorded_aux d)
  end.
Definition one (a b : table) : nat := if table_eqb a b then 1 else 0.
Definition own {M} (t : table) (k : ukey M) : nat := if in_table t k then 1 else 0.
Definition count {M} (t : table) (k : ukey M) : nat := length (filter (in_table t) (all_parts k)).
Definition ocount {M} (t : table) (o : option (ukey M)) : nat :=
  match o with Some k => count t k | None => 0 end.

Lemma filter_flat : forall A B (p : B -> bool) (g : A -> list B) l,
  length (filter p (flat_map g l)) = list_sum (map (fun x => length (filter p (g x))) l).
Proof.
  induction l as [|x l IH]; cbn; [reflexivity|]. now rewrite filter_app, app_length, IH.
Qed.

Lemma count_cons : forall M t (k : ukey M) rest,
  length (filter (in_table t) (k :: rest)) = (own t k + length (filter (in_table t) rest))%nat.
Proof. intros. cbn [filter]. unfold own. now destruct (in_table t k). Qed.
Lemma count_leaf : forall M t (k : ukey M), is_leaf k = true -> count t k = own t k.
Proof.
  intros M t k H. unfold count. destruct k; try discriminate H; cbn [all_parts]; rewrite count_cons; cbn; lia.
Qed.
Lemma count_hold : forall M t (a b : ukey M), count t (UTapHold a b) = (one t TTapHold + (count t a + count t b))%nat.
Proof. intros. unfold count at 1. cbn [all_parts]. rewrite count_cons, filter_app, app_length. reflexivity. Qed.
Lemma count_dance : forall M t (k : ukey M) ks,
  count t (UTapDance k ks) = (one t TTapDance + (count t k + list_sum (map (count t) ks)))%nat.
Proof.
  intros. unfold count at 1. cbn [all_parts]. rewrite count_cons, filter_app, app_length, filter_flat. reflexivity.
Qed.
Lemma count_layered : forall M t (b : ukey M) ls,
  count t (ULayered b ls) = (one t TLayered + (count t b + list_sum (map (ocount t) ls)))%nat.
Proof.
  intros. unfold count at 1. cbn [all_parts]. rewrite count_cons, filter_app, app_length, filter_flat.
  do 3 f_equal. apply map_ext. now intros [x|].
Qed.
Lemma count_chorded : forall M t cs (p : ukey M),
  count t (UChorded cs p) = (one t TChorded + (list_sum (map (fun e => count t (snd e)) cs) + count t p))%nat.
Proof.
  intros. unfold count at 1. cbn [all_parts]. rewrite count_cons, filter_app, app_length, filter_flat.
  do 3 f_equal. apply map_ext. now intros [n x].
Qed.
Lemma count_aux : forall M t (p : ukey M), count t (UAux p) = (one t TAux + count t p)%nat.
Proof. intros. unfold count at 1. cbn [all_parts]. now rewrite count_cons. Qed.

Lemma new_index_ok : forall A (l : list A) i, new_index l = Ok i -> i = N.of_nat (length l) /\ (length l <= 255)%nat.
Proof.
  intros A l i H. unfold new_index, lit in H. destruct (N.leb_spec (N.of_nat (length l)) 255); [|discriminate H].
  inv_ok H. split; [reflexivity|lia].
Qed.
Lemma new_index_room : forall A (l : list A), (length l < 256)%nat -> new_index l = Ok (N.of_nat (length l)).
Proof. intros A l H. unfold new_index. apply lit_ok. lia. Qed.
Lemma entry_last : forall A (l : list A) x, entry (l ++ [x]) (N.of_nat (length l)) x.
Proof. intros A l x. unfold entry. rewrite Nat2N.id, nth_error_app2, Nat.sub_diag by lia. reflexivity. Qed.

(** ** References *)

Definition oranged (o : option (ukey automation_key)) : Prop :=
  match o with Some k => ranged k | None => True end.

Section Refs.
  (** Bounds on the keys made of keys. *)
  Variables L D O : nat.
  Definition bounded (d : key_data) : Prop :=
    Forall (fun k => (length (lk_layered k) <= L)%nat) (kd_layered d) /\
    Forall (fun k : tapdance_key ref => (length k <= D)%nat) (kd_tap_dance d) /\
    Forall (fun k => (length (chk_chords k) <= O)%nat) (kd_chorded d).
  Definition sized_one {M} (k : ukey M) : Prop :=
    match k with
    | ULayered _ ls => (length ls <= L)%nat
    | UTapDance _ ks => (S (length ks) <= D)%nat
    | UChorded cs _ => (length cs <= O)%nat
    | _ => True
    end.
  Definition sized {M} (k : ukey M) : Prop := Forall sized_one (all_parts k).

  (** A step that adds a key. *)
  Definition step_ok {B K} (f : key_data -> res (key_data * B)) (k : K)
      (Dn : key_data -> K -> B -> Prop) (cnt : table -> K -> nat) (rg : K -> Prop) : Prop :=
    forall d,
    (forall d' b, f d = Ok (d', b) -> ext d d' /\ Dn d' k b /\
       (forall t, tlen t d' = (tlen t d + cnt t k)%nat) /\ (bounded d -> bounded d')) /\
    (rg k -> (forall t, tlen t d + cnt t k <= 256)%nat -> exists d' b, f d = Ok (d', b)).

  Lemma thread_step : forall A B K (f : key_data -> A -> res (key_data * B)) (g : K -> A)
      (Dn : key_data -> K -> B -> Prop) (cnt : table -> K -> nat) (rg : K -> Prop),
    (forall d d' k b, ext d d' -> Dn d k b -> Dn d' k b) ->
    forall ks, (forall k, In k ks -> step_ok (fun d => f d (g k)) k Dn cnt rg) ->
    step_ok (fun d => thread f d (map g ks)) ks (fun d => Forall2 (Dn d)) (fun t ks => list_sum (map (cnt t) ks))
      (Forall rg).
  Proof.
    intros A B K f g Dn cnt rg Hmono. induction ks as [|k ks IH]; intros Hk d.
    - split; [|intros _ _; exists d, []; reflexivity]. intros d' b H. cbn in H. inv_ok H.
      split; [apply ext_refl|]. split; [constructor|]. split; [|auto]. intros t. cbn -[tlen]. lia.
    - destruct (Hk k (or_introl eq_refl) d) as [H1 H2].
      specialize (IH (fun k Hi => Hk k (or_intror Hi))). cbn [map] in *. rewrite thread_cons. split.
      + intros d' bs H. inv_bind H. destruct a as [d1 b]. inv_bind H. destruct a as [d2 bs']. inv_ok H.
        destruct (H1 _ _ E) as [X1 [D1 [T1 B1]]]. destruct (proj1 (IH d1) _ _ E0) as [X2 [D2 [T2 B2]]].
        split; [eapply ext_trans; eassumption|]. split; [constructor; [eapply Hmono; eassumption|assumption]|].
        split; [|auto]. intros t. rewrite T2, T1. unfold list_sum. cbn -[tlen]. lia.
      + intros Hrg Hr. inversion Hrg as [|? ? Hrk Hrks]; subst. destruct (H2 Hrk) as [d1 [b E]].
        { intros t. specialize (Hr t). unfold list_sum in Hr. cbn -[tlen] in Hr. lia. }
        destruct (H1 _ _ E) as [_ [_ [T1 _]]]. rewrite E. cbn [bind].
        destruct (proj2 (IH d1) Hrks) as [d2 [bs E2]].
        { intros t. rewrite T1. specialize (Hr t). unfold list_sum in *. cbn -[tlen] in Hr. cbn -[tlen]. lia. }
        rewrite E2. eexists _, _. reflexivity.
  Qed.

  Lemma leaf_step : forall k, is_leaf k = true ->
    step_ok (fun d => leaf_table d k) k (fun d k r => denotes eq d k r) count ranged.
  Proof.
    intros k Hk d. split.
    - intros d' r H. 
      assert (Hc : forall t, count t k = own t k) by (intros; now apply count_leaf).
      destruct k; try discriminate Hk; cbn [leaf_table] in H;
        try (inv_ok H; split; [apply ext_refl|]; split; [reflexivity|]; split; [|auto];
             intros t; rewrite Hc; destruct t; cbn; lia);
        (inv_bind H; apply new_index_ok in E; destruct E as [-> _]; inv_ok H;
         split; [repeat split; first [apply grows_refl|apply grows_snoc]|];
         split; [|split; [|auto]]).
      all: try (intros t; rewrite Hc; destruct t; cbn; rewrite ?app_length; cbn; lia).
      all: try (eexists; split; [reflexivity|]; apply entry_last).
      eexists _, _. split; [reflexivity|]. split; [apply entry_last|reflexivity].
    - intros _ Hr.
      assert (Hc : forall t, count t k = own t k) by (intros; now apply count_leaf).
      destruct k; try discriminate Hk; cbn [leaf_table]; try (eexists _, _; reflexivity).
      + specialize (Hr TKeyboard). rewrite Hc in Hr. cbn in Hr. rewrite new_index_room by lia. eexists _, _. reflexivity.
      + specialize (Hr TCallback). rewrite Hc in Hr. cbn in Hr. rewrite new_index_room by lia. eexists _, _. reflexivity.
      + specialize (Hr TSticky). rewrite Hc in Hr. cbn in Hr. rewrite new_index_room by lia. eexists _, _. reflexivity.
      + specialize (Hr TLayerMods). rewrite Hc in Hr. cbn in Hr. rewrite new_index_room by lia. eexists _, _. reflexivity.
      + specialize (Hr TAutomation). rewrite Hc in Hr. cbn in Hr. rewrite new_index_room by lia. eexists _, _. reflexivity.
  Qed.

  Lemma denotes_mono : forall d d' (k : ukey automation_key) r, ext d d' -> denotes eq d k r -> denotes eq d' k r.
  Proof. intros d d' k r H. now apply denotes_ext. Qed.

  Lemma sized_parts : forall M (k p : ukey M), In p (parts k) -> sized k -> sized p.
  Proof.
    intros M k p Hp H. unfold sized in *. rewrite Forall_forall in *. intros x Hx. apply H.
    destruct k; cbn in Hp; try contradiction; cbn [all_parts]; right.
    - destruct Hp as [<-|[<-|[]]]; apply in_or_app; auto.
    - apply in_or_app. destruct Hp as [<-|Hp]; [auto|]. right. apply in_flat_map. eauto.
    - apply in_or_app. destruct Hp as [<-|Hp]; [auto|]. right. apply in_flat_map in Hp.
      destruct Hp as [[y|] [Hy Hp]]; [|destruct Hp]. destruct Hp as [<-|[]]. apply in_flat_map. exists (Some y). auto.
    - apply in_or_app. apply in_app_or in Hp. destruct Hp as [Hp|[<-|[]]]; [|auto].
      left. apply in_map_iff in Hp. destruct Hp as [[n y] [<- Hy]]. apply in_flat_map. exists (n, y). auto.
    - destruct Hp as [<-|[]]. exact Hx.
  Qed.
  Lemma ranged_parts : forall k p, In p (parts k) -> ranged k -> ranged p.
  Proof.
    intros k p Hp H. unfold ranged in *. rewrite Forall_forall in *. intros x Hx. apply H.
    destruct k; cbn in Hp; try contradiction; cbn [all_parts]; right.
    - destruct Hp as [<-|[<-|[]]]; apply in_or_app; auto.
    - apply in_or_app. destruct Hp as [<-|Hp]; [auto|]. right. apply in_flat_map. eauto.
    - apply in_or_app. destruct Hp as [<-|Hp]; [auto|]. right. apply in_flat_map in Hp.
      destruct Hp as [[y|] [Hy Hp]]; [|destruct Hp]. destruct Hp as [<-|[]]. apply in_flat_map. exists (Some y). auto.
    - apply in_or_app. apply in_app_or in Hp. destruct Hp as [Hp|[<-|[]]]; [|auto].
      left. apply in_map_iff in Hp. destruct Hp as [[n y] [<- Hy]]. apply in_flat_map. exists (n, y). auto.
    - destruct Hp as [<-|[]]. exact Hx.
  Qed.
  Lemma sized_self : forall M (k : ukey M), sized k -> sized_one k.
  Proof. intros M k H. unfold sized in H. destruct k; cbn [all_parts] in H; now inversion H. Qed.
  Lemma ranged_self : forall k, ranged k -> leaf_ranged k.
  Proof. intros k H. unfold ranged in H. destruct k; cbn [all_parts] in H; now inversion H. Qed.

  Lemma refs_ok : forall k, sized k ->
    step_ok (fun d => data_and_ref d (cv_of k)) k (fun d k r => denotes eq d k r) count ranged.
  Proof.
    induction k as [k Hk|t h IHt IHh|k ks IHk IHks|b ls IHb IHls|cs p IHcs IHp|p IHp] using ukey_ind'; intros Hs.
    - intros d.
      assert (E : data_and_ref d (cv_of k) = leaf_data_and_ref d (json_module k) (json k))
        by (destruct k; try discriminate Hk; reflexivity).
      rewrite E. split.
      + intros d' r H. apply (proj1 (leaf_step k Hk d)). now apply leaf_sound.
      + intros Hr Hroom. rewrite leaf_eq by (try exact Hk; apply ranged_self, Hr).
        now apply (proj2 (leaf_step k Hk d)).
    - specialize (IHt (sized_parts _ (UTapHold t h) _ (or_introl eq_refl) Hs)).
      specialize (IHh (sized_parts _ (UTapHold t h) _ (or_intror (or_introl eq_refl)) Hs)).
      intros d. cbn [cv_of data_and_ref]. split.
      + intros d' r H. inv_bind H. destruct a as [d1 rt]. inv_bind H. destruct a as [d2 rh]. inv_bind H.
        apply new_index_ok in E1. destruct E1 as [-> _]. inv_ok H.
        destruct (proj1 (IHt d) _ _ E) as [X1 [D1 [T1 B1]]]. destruct (proj1 (IHh d1) _ _ E0) as [X2 [D2 [T2 B2]]].
        assert (X3 : ext d2 (add_tap_hold d2 (mkTapHold rt rh)))
          by (repeat split; first [apply grows_refl|apply grows_snoc]).
        split; [eapply ext_trans; [|exact X3]; eapply ext_trans; eassumption|]. split; [|split].
        * eexists _, _, _. split; [reflexivity|]. split; [apply entry_last|].
          split; eapply denotes_mono; [|exact D1|exact X3|exact D2]. eapply ext_trans; eassumption.
        * intros t0. rewrite count_hold. specialize (T1 t0). specialize (T2 t0).
          unfold list_sum in *; destruct t0; cbn in *; rewrite ?app_length; cbn; lia.
        * intros Hb. apply B1, B2 in Hb. exact Hb.
      + intros Hr Hroom. destruct (proj2 (IHt d) (ranged_parts (UTapHold t h) _ (or_introl eq_refl) Hr)) as [d1 [rt E]].
        { intros t0. specialize (Hroom t0). rewrite count_hold in Hroom. lia. }
        destruct (proj1 (IHt d) _ _ E) as [_ [_ [T1 _]]].
        rewrite E. cbn [bind]. destruct (proj2 (IHh d1) (ranged_parts (UTapHold t h) _ (or_intror (or_introl eq_refl)) Hr)) as [d2 [rh E2]].
        { intros t0. specialize (Hroom t0). rewrite count_hold in Hroom. rewrite T1. lia. }
        destruct (proj1 (IHh d1) _ _ E2) as [_ [_ [T2 _]]].
        rewrite E2. cbn [bind]. specialize (Hroom TTapHold). rewrite count_hold in Hroom.
        specialize (T1 TTapHold). specialize (T2 TTapHold). cbn in *.
        rewrite new_index_room by lia. eexists _, _. reflexivity.
    - assert (Hks : forall x, In x (k :: ks) ->
        step_ok (fun d => data_and_ref d (cv_of x)) x (fun d k r => denotes eq d k r) count ranged).
      { intros x Hx. assert (Hx2 : sized x) by (apply (sized_parts _ (UTapDance k ks)); [exact Hx|exact Hs]).
        destruct Hx as [<-|Hx]; [now apply IHk|]. rewrite Forall_forall in IHks. now apply IHks. }
      pose proof (thread_step _ _ _ data_and_ref cv_of (fun d k r => denotes eq d k r) count ranged denotes_mono _ Hks) as Hth.
      apply sized_self in Hs. cbn in Hs.
      intros d. cbn [cv_of data_and_ref]. change (cv_of k :: map cv_of ks) with (map cv_of (k :: ks)). split.
      + intros d' r H. inv_bind H. destruct a as [d1 rs]. inv_bind H.
        apply new_index_ok in E0. destruct E0 as [-> _]. inv_ok H.
        destruct (proj1 (Hth d) _ _ E) as [X1 [D1 [T1 B1]]].
        assert (X3 : ext d1 (add_tap_dance d1 (map Some rs)))
          by (repeat split; first [apply grows_refl|apply grows_snoc]).
        split; [eapply ext_trans; eassumption|]. split; [|split].
        * inversion D1 as [|? r0 ? rs' Hd0 Hds]; subst.
          eexists _, _, _, 0%nat. split; [reflexivity|]. split; [rewrite app_nil_r; apply entry_last|].
          split; [eapply denotes_mono; eassumption|]. apply all2_iff.
          revert Hds. apply f2_impl. intros x y. now apply denotes_mono.
        * intros t0. rewrite count_dance. specialize (T1 t0).
          unfold list_sum in *; destruct t0; cbn in *; rewrite ?app_length; cbn; lia.
        * intros Hb. apply B1 in Hb. destruct Hb as [Hb1 [Hb2 Hb3]]. split; [exact Hb1|]. split; [|exact Hb3].
          cbn. apply Forall_app. split; [exact Hb2|]. constructor; [|constructor].
          rewrite map_length. rewrite <- (flen _ _ _ _ _ D1). exact Hs.
      + intros Hr Hroom. destruct (proj2 (Hth d)) as [d1 [rs E]].
        { apply Forall_forall. intros x Hx. exact (ranged_parts (UTapDance k ks) _ Hx Hr). }
        { intros t0. specialize (Hroom t0). rewrite count_dance in Hroom. unfold list_sum in *. cbn -[tlen]. lia. }
        destruct (proj1 (Hth d) _ _ E) as [_ [_ [T1 _]]].
        rewrite E. cbn [bind]. specialize (Hroom TTapDance). rewrite count_dance in Hroom.
        specialize (T1 TTapDance). unfold list_sum in *. cbn in *.
        rewrite new_index_room by lia. eexists _, _. reflexivity.
    - specialize (IHb (sized_parts _ (ULayered b ls) _ (or_introl eq_refl) Hs)).
      set (fo := fun (d : key_data) (o : option cv) =>
                   match o with
                   | None => Ok (d, None)
                   | Some c => let! (d, r) := data_and_ref d c in Ok (d, Some r)
                   end).
      assert (Hmono : forall d d' (o : option (ukey automation_key)) (ro : option ref), ext d d' ->
          both (denotes eq d) o ro -> both (denotes eq d') o ro).
      { intros d d' [k|] [r|] Hx; cbn; auto. now apply denotes_mono. }
      assert (Hls : forall o, In o ls ->
        step_ok (fun d => fo d (option_map cv_of o)) o (fun d => both (denotes eq d)) ocount oranged).
      { intros [x|] Hx.
        - assert (Hin : In x (parts (ULayered b ls))).
          { cbn. right. apply in_flat_map. exists (Some x). split; [exact Hx|now left]. }
          specialize (IHls x Hx (sized_parts _ _ _ Hin Hs)).
          intros d. cbn [option_map fo]. split.
          + intros d' ro H. inv_bind H. destruct a as [d1 r]. inv_ok H. exact (proj1 (IHls d) _ _ E).
          + intros Hr Hroom. destruct (proj2 (IHls d) Hr Hroom) as [d1 [r E]]. rewrite E. eexists _, _. reflexivity.
        - intros d. cbn [option_map fo]. split; [|intros _ _; eexists _, _; reflexivity].
          intros d' ro H. inv_ok H. split; [apply ext_refl|]. split; [exact I|]. split; [|auto]. intros t. cbn -[tlen]. lia. }
      pose proof (thread_step _ _ _ fo (option_map cv_of) (fun d => both (denotes eq d)) ocount oranged Hmono _ Hls) as Hth.
      apply sized_self in Hs. cbn in Hs.
      intros d. cbn [cv_of data_and_ref]. fold fo. split.
      + intros d' r H. inv_bind H. destruct a as [d1 rb]. inv_bind H. destruct a as [d2 rs]. inv_bind H.
        apply new_index_ok in E1. destruct E1 as [-> _]. inv_ok H.
        destruct (proj1 (IHb d) _ _ E) as [X1 [D1 [T1 B1]]]. destruct (proj1 (Hth d1) _ _ E0) as [X2 [D2 [T2 B2]]].
        assert (X3 : ext d2 (add_layered d2 (mkLayeredKey rb rs)))
          by (repeat split; first [apply grows_refl|apply grows_snoc]).
        split; [eapply ext_trans; [|exact X3]; eapply ext_trans; eassumption|]. split; [|split].
        * exists (N.of_nat (length (kd_layered d2))), rb, rs, 0%nat. split; [reflexivity|]. split; [rewrite app_nil_r; apply entry_last|].
          split; [eapply denotes_mono; [|exact D1]; eapply ext_trans; eassumption|].
          apply all2_iff. revert D2. apply f2_impl. intros [x|] [y|] Hxy; cbn in *; auto.
          eapply denotes_mono; eassumption.
        * intros t0. rewrite count_layered. specialize (T1 t0). specialize (T2 t0).
          unfold list_sum in *; destruct t0; cbn in *; rewrite ?app_length; cbn; lia.
        * intros Hb. apply B1, B2 in Hb. destruct Hb as [Hb1 [Hb2 Hb3]]. split; [|split; [exact Hb2|exact Hb3]].
          cbn. apply Forall_app. split; [exact Hb1|]. constructor; [|constructor].
          cbn. rewrite <- (flen _ _ _ _ _ D2). exact Hs.
      + intros Hr Hroom.
        destruct (proj2 (IHb d) (ranged_parts (ULayered b ls) _ (or_introl eq_refl) Hr)) as [d1 [rb E]].
        { intros t0. specialize (Hroom t0). rewrite count_layered in Hroom. lia. }
        destruct (proj1 (IHb d) _ _ E) as [_ [_ [T1 _]]].
        rewrite E. cbn [bind]. destruct (proj2 (Hth d1)) as [d2 [rs E2]].
        { apply Forall_forall. intros [x|] Hx; [|exact I]. apply (ranged_parts (ULayered b ls)); [|exact Hr].
          cbn. right. apply in_flat_map. exists (Some x). split; [exact Hx|now left]. }
        { intros t0. specialize (Hroom t0). rewrite count_layered in Hroom. rewrite T1. lia. }
        destruct (proj1 (Hth d1) _ _ E2) as [_ [_ [T2 _]]].
        rewrite E2. cbn [bind]. specialize (Hroom TLayered). rewrite count_layered in Hroom.
        specialize (T1 TLayered). specialize (T2 TLayered). unfold list_sum in *. cbn in *.
        rewrite new_index_room by lia. eexists _, _. reflexivity.
    - assert (Hpin : In p (parts (UChorded cs p))) by (cbn; apply in_or_app; right; now left).
      specialize (IHp (sized_parts _ _ _ Hpin Hs)).
      set (fo := fun (d : key_data) (e : val * cv) =>
                   match e with
                   | (n, c) => let! (d, r) := data_and_ref d c in
                               let! n := lit8 n in
                               Ok (d, (n, r))
                   end).
      assert (Hmono : forall d d' (o : N * ukey automation_key) (ro : N * ref), ext d d' ->
          same_fst (denotes eq d) o ro -> same_fst (denotes eq d') o ro).
      { intros d d' [n k] [n' r] Hx [-> Hk]; cbn; auto. split; [reflexivity|]. eapply denotes_mono; eassumption. }
      assert (Hcs : forall e, In e cs ->
        step_ok (fun d => fo d (match e with (n, k) => (VNum n, cv_of k) end)) e
          (fun d => same_fst (denotes eq d)) (fun t e => count t (snd e))
          (fun e => fst e <= 255 /\ ranged (snd e))).
      { intros [n x] Hx.
        assert (Hin : In x (parts (UChorded cs p))).
        { cbn. apply in_or_app. left. apply in_map_iff. exists (n, x). auto. }
        pose proof (IHcs (n, x) Hx (sized_parts _ _ _ Hin Hs)) as IHx. cbn [snd] in IHx.
        intros d. cbn [fo snd]. split.
        + intros d' ro H. inv_bind H. destruct a as [d1 r]. inv_bind H. unfold lit8 in E0. cbn [as_num bind] in E0. apply lit_inv in E0. inv_ok H.
          destruct (proj1 (IHx d) _ _ E) as [X1 [D1 [T1 B1]]]. split; [exact X1|]. split; [|split; [exact T1|exact B1]].
          split; [reflexivity|exact D1].
        + intros [Hn Hrx] Hroom. cbn [fst snd] in Hn, Hrx. destruct (proj2 (IHx d) Hrx Hroom) as [d1 [r E]].
          rewrite E. cbn [bind]. rewrite (lit8_ok n Hn). eexists _, _. reflexivity. }
      pose proof (thread_step _ _ _ fo (fun e : N * ukey automation_key => match e with (n, k) => (VNum n, cv_of k) end)
                    (fun d => same_fst (denotes eq d)) (fun t e => count t (snd e))
                    (fun e => fst e <= 255 /\ ranged (snd e)) Hmono _ Hcs) as Hth.
      apply sized_self in Hs. cbn in Hs.
      intros d. cbn [cv_of data_and_ref]. fold fo. split.
      + intros d' r H. inv_bind H. destruct a as [d1 rs]. inv_bind H. destruct a as [d2 rp]. inv_bind H.
        apply new_index_ok in E1. destruct E1 as [-> _]. inv_ok H.
        destruct (proj1 (Hth d) _ _ E) as [X1 [D1 [T1 B1]]]. destruct (proj1 (IHp d1) _ _ E0) as [X2 [D2 [T2 B2]]].
        assert (X3 : ext d2 (add_chorded d2 (mkChordedKey rs rp)))
          by (repeat split; first [apply grows_refl|apply grows_snoc]).
        split; [eapply ext_trans; [|exact X3]; eapply ext_trans; eassumption|]. split; [|split].
        * exists (N.of_nat (length (kd_chorded d2))), rs, rp. split; [reflexivity|]. split; [apply entry_last|].
          split; [|eapply denotes_mono; eassumption].
          apply all2_iff. revert D1. apply f2_impl. intros [n x] [n' y] [-> Hxy]. split; [reflexivity|].
          eapply denotes_mono; [|exact Hxy]. eapply ext_trans; eassumption.
        * intros t0. rewrite count_chorded. specialize (T1 t0). specialize (T2 t0).
          unfold list_sum in *; destruct t0; cbn in *; rewrite ?app_length; cbn; lia.
        * intros Hb. apply B1, B2 in Hb. destruct Hb as [Hb1 [Hb2 Hb3]]. split; [exact Hb1|]. split; [exact Hb2|].
          cbn. apply Forall_app. split; [exact Hb3|]. constructor; [|constructor].
          eapply Nat.le_trans; [|exact Hs]. cbn. apply Nat.eq_le_incl. symmetry. exact (flen _ _ _ _ _ D1).
      + intros Hr Hroom. destruct (proj2 (Hth d)) as [d1 [rs E]].
        { pose proof (ranged_self _ Hr) as Hrs. cbn in Hrs. rewrite Forall_forall in *. intros [n x] Hx.
          split; [exact (Hrs _ Hx)|]. apply (ranged_parts (UChorded cs p)); [|exact Hr].
          cbn. apply in_or_app. left. apply in_map_iff. exists (n, x). auto. }
        { intros t0. specialize (Hroom t0). rewrite count_chorded in Hroom. lia. }
        destruct (proj1 (Hth d) _ _ E) as [_ [_ [T1 _]]].
        rewrite E. cbn [bind]. destruct (proj2 (IHp d1) (ranged_parts (UChorded cs p) _ Hpin Hr)) as [d2 [rp E2]].
        { intros t0. specialize (Hroom t0). rewrite count_chorded in Hroom. rewrite T1. lia. }
        destruct (proj1 (IHp d1) _ _ E2) as [_ [_ [T2 _]]].
        rewrite E2. cbn [bind]. specialize (Hroom TChorded). rewrite count_chorded in Hroom.
        specialize (T1 TChorded). specialize (T2 TChorded). unfold list_sum in *. cbn in *.
        rewrite new_index_room by lia. eexists _, _. reflexivity.
    - specialize (IHp (sized_parts _ (UAux p) _ (or_introl eq_refl) Hs)).
      intros d. cbn [cv_of data_and_ref]. split.
      + intros d' r H. inv_bind H. destruct a as [d1 rp]. inv_bind H.
        apply new_index_ok in E0. destruct E0 as [-> _]. inv_ok H.
        destruct (proj1 (IHp d) _ _ E) as [X1 [D1 [T1 B1]]].
        assert (X3 : ext d1 (add_chorded_aux d1 (mkChordedAux rp)))
          by (repeat split; first [apply grows_refl|apply grows_snoc]).
        split; [eapply ext_trans; eassumption|]. split; [|split].
        * eexists _, _. split; [reflexivity|]. split; [apply entry_last|]. eapply denotes_mono; eassumption.
        * intros t0. rewrite count_aux. specialize (T1 t0). unfold list_sum in *; destruct t0; cbn in *; rewrite ?app_length; cbn; lia.
        * intros Hb. apply B1 in Hb. exact Hb.
      + intros Hr Hroom. destruct (proj2 (IHp d) (ranged_parts (UAux p) _ (or_introl eq_refl) Hr)) as [d1 [rt E]].
        { intros t0. specialize (Hroom t0). rewrite count_aux in Hroom. lia. }
        destruct (proj1 (IHp d) _ _ E) as [_ [_ [T1 _]]].
        rewrite E. cbn [bind]. specialize (Hroom TAux). rewrite count_aux in Hroom.
        specialize (T1 TAux). cbn in *.
        rewrite new_index_room by lia. eexists _, _. reflexivity.
  Qed.
End Refs.
