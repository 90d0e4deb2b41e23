(** Proofs about the generated keymap (C63, C64): its sizes suffice, and it means
    what keymap.json says. *)
From Coq Require Import String Ascii Permutation.
From Verif Require Import BaseFacts Output Types SimpleKeys TapHold TapDance Sticky Layered Automation Chorded
  Composite Ncl NclCodegen SpecNcl NclFacts NclMacroFacts NclJsonFacts NclTableFacts.
Import List.
Local Open Scope string_scope.
Local Open Scope N_scope.
Local Open Scope list_scope.

(** ** From the macros of keymap.json to those of keymap.ncl *)

Lemma all2_compose : forall A B C (R : A -> B -> Prop) (S : B -> C -> Prop) (T : A -> C -> Prop) l m n,
  (forall x y z, In x l -> R x y -> S y z -> T x z) -> all2 R l m -> all2 S m n -> all2 T l n.
Proof.
  induction l as [|x l IH]; intros [|y m] [|z n] H H1 H2; cbn in *; try contradiction; [exact I|].
  destruct H1 as [Hr H1], H2 as [Hs H2]. split; [eapply H; [now left|exact Hr|exact Hs]|].
  eapply IH; [|exact H1|exact H2]. intros. eapply H; [now right|eassumption|eassumption].
Qed.

Lemma denotes_umap : forall A (R : A -> automation_key -> Prop) d k k' r,
  umap R k k' -> denotes eq d k' r -> denotes (fun a x => R x a) d k r.
Proof.
  intros A R d.
  induction k as [k Hk|t h IHt IHh|k ks IHk IHks|b ls IHb IHls|cs p IHcs IHp|p IHp] using ukey_ind'; intros k' r Hu H.
  - destruct k; try discriminate Hk; destruct k'; cbn in Hu; try contradiction; subst; try exact H.
    + destruct Hu; subst. exact H.
    + cbn in *. destruct H as [i [a [-> [He <-]]]]. exists i, a. auto.
  - destruct k'; cbn in Hu; try contradiction. destruct Hu as [Ht Hh].
    destruct H as [i [rt [rh [-> [He [H1 H2]]]]]]. exists i, rt, rh. split; [reflexivity|]. split; [exact He|].
    split; [eapply IHt; eassumption|eapply IHh; eassumption].
  - destruct k'; cbn in Hu; try contradiction. destruct Hu as [Ht Hh].
    destruct H as [i [r0 [rs [n [-> [He [H1 H2]]]]]]]. exists i, r0, rs, n. split; [reflexivity|]. split; [exact He|].
    split; [eapply IHk; eassumption|]. eapply all2_compose; [|exact Hh|exact H2].
    intros x y z Hx. rewrite Forall_forall in IHks. now apply IHks.
  - destruct k'; cbn in Hu; try contradiction. destruct Hu as [Ht Hh].
    destruct H as [i [r0 [rs [n [-> [He [H1 H2]]]]]]]. exists i, r0, rs, n. split; [reflexivity|]. split; [exact He|].
    split; [eapply IHb; eassumption|]. eapply all2_compose; [|exact Hh|exact H2].
    intros [x|] [y|] [z|] Hx; cbn; try contradiction; auto. now apply IHls.
  - destruct k'; cbn in Hu; try contradiction. destruct Hu as [Ht Hh].
    destruct H as [i [rs [rp [-> [He [H1 H2]]]]]]. exists i, rs, rp. split; [reflexivity|]. split; [exact He|].
    split; [|eapply IHp; eassumption]. eapply all2_compose; [|exact Ht|exact H1].
    intros [n x] [m y] [o z] Hx [-> H3] [-> H4]. split; [reflexivity|]. exact (IHcs _ Hx _ _ H3 H4).
  - destruct k'; cbn in Hu; try contradiction.
    destruct H as [i [rp [-> [He H1]]]]. exists i, rp. split; [reflexivity|]. split; [exact He|].
    eapply IHp; eassumption.
Qed.

Lemma umap_parts : forall A B (R : A -> B -> Prop) k k', umap R k k' ->
  Forall2 (umap R) (all_parts k) (all_parts k').
Proof.
  intros A B R.
  induction k as [k Hk|t h IHt IHh|k ks IHk IHks|b ls IHb IHls|cs p IHcs IHp|p IHp] using ukey_ind'; intros k' Hu.
  - destruct k; try discriminate Hk; destruct k'; cbn in Hu; try contradiction; cbn [all_parts]; repeat constructor; auto;
      cbn; tauto.
  - destruct k'; cbn in Hu; try contradiction. cbn [all_parts]. constructor; [exact Hu|].
    destruct Hu. apply Forall2_app; auto.
  - destruct k'; cbn in Hu; try contradiction. cbn [all_parts]. constructor; [exact Hu|].
    destruct Hu as [Hu Hus]. apply Forall2_app; [auto|]. clear -IHks Hus. revert more Hus.
    induction ks as [|x ks IH]; intros [|y more] Hus; cbn in *; try contradiction; [constructor|].
    inversion IHks; subst. destruct Hus. apply Forall2_app; auto.
  - destruct k'; cbn in Hu; try contradiction. cbn [all_parts]. constructor; [exact Hu|].
    destruct Hu as [Hu Hus]. apply Forall2_app; [auto|]. clear -IHls Hus. revert layers Hus.
    induction ls as [|x ls IH]; intros [|y more] Hus; cbn in *; try contradiction; [constructor|].
    destruct Hus as [H1 H2]. apply Forall2_app; [|apply IH; auto].
    destruct x as [x|], y as [y|]; cbn in H1; try contradiction; [|constructor]. now apply IHls; [left|].
  - destruct k'; cbn in Hu; try contradiction. cbn [all_parts]. constructor; [exact Hu|].
    destruct Hu as [Hus Hu]. apply Forall2_app; [|auto]. clear -IHcs Hus. revert chords Hus.
    induction cs as [|x cs IH]; intros [|y more] Hus; cbn in *; try contradiction; [constructor|].
    destruct Hus as [H1 H2]. apply Forall2_app; [|apply IH; auto].
    destruct x as [n x], y as [m y]; cbn in H1. destruct H1 as [_ H1]. apply (IHcs (n, x)); [now left|exact H1].
  - destruct k'; cbn in Hu; try contradiction. cbn [all_parts]. constructor; [exact Hu|]. auto.
Qed.

Lemma all2_len : forall A B (R : A -> B -> Prop) l m, all2 R l m -> length l = length m.
Proof. intros A B R l m H. apply all2_iff in H. eapply flen, H. Qed.

Lemma umap_table : forall A B (R : A -> B -> Prop) t k k', umap R k k' -> in_table t k = in_table t k'.
Proof. intros A B R t k k' H. destruct k, k'; cbn in H; try contradiction; reflexivity. Qed.

Lemma umap_count : forall A B (R : A -> B -> Prop) t k k', umap R k k' -> count t k = count t k'.
Proof.
  intros A B R t k k' H. apply umap_parts in H. unfold count.
  induction H as [|x y l m Hx _ IH]; [reflexivity|]. rewrite !count_cons. unfold own.
  now rewrite (umap_table _ _ _ t _ _ Hx), IH.
Qed.

Lemma umap_sized : forall A B (R : A -> B -> Prop) L D O k k', umap R k k' -> sized L D O k -> sized L D O k'.
Proof.
  intros A B R L D O k k' H. apply umap_parts in H. unfold sized.
  induction H as [|x y l m Hx _ IH]; intros Hs; [constructor|]. inversion Hs as [|? ? H1 H2]; subst.
  constructor; [|auto]. destruct x, y; cbn in Hx; try contradiction; cbn in *; try exact I.
  - destruct Hx as [_ Hx]. apply all2_len in Hx. lia.
  - destruct Hx as [_ Hx]. apply all2_len in Hx. lia.
  - destruct Hx as [Hx _]. apply all2_len in Hx. unfold u8 in *. lia.
Qed.

(** ** Ranges *)

(** Everything but macros and chords is in range. *)
Definition plain_ranged {M} (k : ukey M) : Prop :=
  match k with
  | UCode c | UConsumer c | UCustom c => c <= 255
  | UMods m | USticky m => m <= 255
  | UCodeMods c m => c <= 255 /\ m <= 255
  | UMouse m => mouse_in_range m
  | UCallback c => callback_in_range c
  | ULayer l => layer_ranged l
  | _ => True
  end.

Lemma layer_written_ranged : forall f v l, layer_written f v l -> layer_ranged l.
Proof. intros f v l H. destruct H; cbn in *; change (2 ^ 32) with 4294967296 in *; lia. Qed.

Lemma core_ranged : forall M (mw : val -> M -> Prop) cf c, core_written mw cf c -> Forall plain_ranged (all_parts c).
Proof.
  intros M mw cf c H. destruct H; cbn [all_parts]; constructor; try constructor; cbn; auto.
  - destruct H as [_ [_ [H _]]]. lia.
  - destruct H0 as [_ [_ [H0 _]]]. lia.
  - destruct H as [_ [_ [H _]]]. lia.
  - eapply layer_written_ranged; eassumption.
Qed.

Lemma Forall_flat : forall A B (P : B -> Prop) (g : A -> list B) l,
  (forall x, In x l -> Forall P (g x)) -> Forall P (flat_map g l).
Proof.
  intros A B P g l H. induction l as [|x l IH]; cbn; [constructor|]. apply Forall_app. split.
  - apply H. now left.
  - apply IH. intros y Hy. apply H. now right.
Qed.

Lemma f2_in_l : forall A B (R : A -> B -> Prop) l m x, Forall2 R l m -> In x l -> exists y, In y m /\ R x y.
Proof.
  induction 1 as [|x' y l m Hx _ IH]; intros Hi; [destruct Hi|].
  destruct Hi as [->|Hi]; [exists y; split; [now left|assumption]|].
  destruct (IH Hi) as [y' [Hy' Hr]]. exists y'. split; [now right|assumption].
Qed.
Lemma f2_in_r : forall A B (R : A -> B -> Prop) l m y, Forall2 R l m -> In y m -> exists x, In x l /\ R x y.
Proof.
  induction 1 as [|x y' l m Hx _ IH]; intros Hi; [destruct Hi|].
  destruct Hi as [->|Hi]; [exists x; split; [now left|assumption]|].
  destruct (IH Hi) as [x' [Hx' Hr]]. exists x'. split; [now right|assumption].
Qed.

Lemma written_ranged : forall M (mw : val -> M -> Prop) n v k, written mw n v k -> Forall plain_ranged (all_parts k).
Proof.
  intros M mw. induction n as [|n IH]; intros v k H; [inversion H|].
  inversion H as [|n' fs cf c h t l Hc Hh Ht Hl Hp|n' fs vs cs pv pk Hcs Hpk Hp|n' pv pk Hpk]; subst.
  - constructor; [exact I|constructor].
  - assert (R0 : Forall plain_ranged (all_parts (with_hold h c))).
    { destruct h as [[hv hk]|]; [|eapply core_ranged; eassumption]. cbn [with_hold all_parts].
      constructor; [exact I|]. apply Forall_app. split; [eapply core_ranged; eassumption|].
      eapply IH, Hh. reflexivity. }
    assert (R1 : Forall plain_ranged (all_parts (with_dances t (with_hold h c)))).
    { destruct t as [[tv tk]|]; [|exact R0]. cbn [with_dances all_parts].
      constructor; [exact I|]. apply Forall_app. split; [exact R0|]. apply Forall_flat.
      intros k Hk. destruct (f2_in_r _ _ _ _ _ _ (Ht _ _ eq_refl) Hk) as [x [_ Hx]]. eapply IH, Hx. }
    destruct l as [[lv lk]|]; [|exact R1]. cbn [with_layers all_parts].
    constructor; [exact I|]. apply Forall_app. split; [exact R1|]. apply Forall_flat.
    intros [k|] Hk; [|constructor]. destruct (f2_in_r _ _ _ _ _ _ (Hl _ _ eq_refl) Hk) as [x [_ Hx]].
    inversion Hx; subst. eapply IH; eassumption.
  - cbn [all_parts]. constructor; [exact I|]. apply Forall_app. split; [|eapply IH, Hpk]. apply Forall_flat.
    intros [m k] Hk. destruct (f2_in_r _ _ _ _ _ _ Hcs Hk) as [x [_ [kv [_ Hx]]]]. eapply IH, Hx.
  - cbn [all_parts]. constructor; [exact I|]. eapply IH, Hpk.
Qed.

(** Chord numbers are bytes. *)
Definition chords_ranged {M} (k : ukey M) : Prop :=
  Forall (fun p => match p with UChorded cs _ => Forall (fun e => fst e <= 255) cs | _ => True end) (all_parts k).

Lemma names_part_ranged : forall I e l, names_part I e l -> N.of_nat (length I) <= 65535 -> exec_ranged e.
Proof.
  intros I e l [b [a [-> [Hs Hl]]]] H. rewrite !app_length in H. unfold exec_ranged.
  unfold u16 in *. rewrite Hs, Hl. lia.
Qed.

Lemma chord_numbers : forall A B (R : A -> B -> Prop) (cs : list (N * A)) cs',
  all2 (same_fst R) cs cs' -> Forall (fun e => fst e <= 255) cs -> Forall (fun e => fst e <= 255) cs'.
Proof.
  induction cs as [|[n x] cs IH]; intros [|[m y] cs'] Hx H; cbn in *; try contradiction; constructor;
    inversion H; subst; destruct Hx as [[-> _] Hx]; auto.
Qed.

Lemma lowers_ranged : forall I k k', lowers I k k' -> N.of_nat (length I) <= 65535 ->
  Forall plain_ranged (all_parts k') -> chords_ranged k -> ranged k'.
Proof.
  intros I k k' H HI Hp Hc. apply umap_parts in H. unfold ranged, chords_ranged in *.
  induction H as [|x y l m Hx _ IH]; [constructor|]. inversion Hp; inversion Hc; subst. constructor; [|auto].
  destruct x, y; cbn in Hx; try contradiction; cbn in *; auto.
  - destruct Hx as [Hx1 [Hx2 Hx3]]. repeat split; eapply names_part_ranged; eassumption.
  - destruct Hx as [Hx _]. eapply chord_numbers; eassumption.
Qed.

(** ** The Rust arrays *)

Lemma map_res_entry : forall A B (f : A -> res B) l m i x, map_res f l = Ok m -> entry l i x ->
  exists y, entry m i y /\ f x = Ok y.
Proof.
  intros A B f l m i x. unfold entry. generalize (N.to_nat i). clear i. intros i. revert l m.
  induction i as [|i IH]; intros [|a l] m H He; try discriminate He; cbn [map_res] in H; inv_bind H; inv_bind H; inv_ok H.
  - cbn in He. injection He as ->. exists a0. auto.
  - cbn in He. cbn. eapply IH; eassumption.
Qed.

Lemma rust_denotes : forall M (md : automation_key -> M -> Prop) sz d d2,
  rust_data sz d = Ok d2 -> Forall (fun k : tapdance_key ref => (length k <= sz_dances sz)%nat) (kd_tap_dance d) ->
  forall k r, denotes md d k r -> denotes md d2 k r.
Proof.
  intros M md sz d d2 H Hd. unfold rust_data in H. inv_bind H. inv_bind H. injection H as <-.
  induction k as [k Hk|t h IHt IHh|k ks IHk IHks|b ls IHb IHls|cs p IHcs IHp|p IHp] using ukey_ind'; intros r H.
  - destruct k; try discriminate Hk; exact H.
  - destruct H as [i [rt [rh [-> [H [H1 H2]]]]]]. exists i, rt, rh. auto.
  - destruct H as [i [r0 [rs [n [-> [H [H1 H2]]]]]]].
    exists i, r0, rs, (n + (sz_dances sz - length (map Some (r0 :: rs) ++ repeat None n)))%nat.
    split; [reflexivity|]. split; [|split; [auto|]].
    + unfold entry in *. cbn [kd_tap_dance]. rewrite nth_error_map, H. cbn [option_map]. unfold rust_tap_dance.
      assert (Hl : (length (map Some (r0 :: rs) ++ repeat None n) <= sz_dances sz)%nat).
      { rewrite Forall_forall in Hd. apply Hd. eapply nth_error_In, H. }
      rewrite firstn_all2 by exact Hl. rewrite repeat_app, <- app_assoc. reflexivity.
    + revert H2. apply all2_mono. intros x y Hx. rewrite Forall_forall in IHks. apply IHks, Hx.
  - destruct H as [i [rb [rs [n [-> [H [H1 H2]]]]]]].
    destruct (map_res_entry _ _ _ _ _ _ _ E H) as [y [Hy Ey]]. unfold rust_layered in Ey. cbn [lk_layered lk_base] in Ey.
    destruct (length (rs ++ repeat None n) <=? sz_layers sz)%nat; [|discriminate Ey]. inv_ok Ey.
    eexists i, rb, rs, _. split; [reflexivity|]. split; [|split; [auto|]].
    + cbn [kd_layered]. rewrite <- app_assoc, <- repeat_app in Hy. exact Hy.
    + revert H2. apply all2_mono. intros [x|] [y|] Hx; auto.
  - destruct H as [i [rs [rp [-> [H [H1 H2]]]]]].
    destruct (map_res_entry _ _ _ _ _ _ _ E0 H) as [y [Hy Ey]]. unfold rust_chorded in Ey.
    destruct (length (chk_chords (mkChordedKey rs rp)) <=? sz_overlapping sz)%nat; [|discriminate Ey]. inv_ok Ey.
    exists i, rs, rp. split; [reflexivity|]. split; [exact Hy|]. split; [|auto].
    revert H1. apply all2_mono. intros [m x] [m' y] Hx [-> Hr]. split; [reflexivity|]. apply (IHcs _ Hx), Hr.
  - destruct H as [i [rp [-> [H H1]]]]. exists i, rp. auto.
Qed.

Lemma map_res_total : forall A B (f : A -> res B) l, (forall x, In x l -> exists y, f x = Ok y) ->
  exists m, map_res f l = Ok m.
Proof.
  induction l as [|x l IH]; intros H; [exists []; reflexivity|].
  destruct (H x (or_introl eq_refl)) as [y E]. destruct IH as [m Em]; [intros; apply H; now right|].
  cbn [map_res]. rewrite E. cbn [bind]. rewrite Em. eexists. reflexivity.
Qed.

Lemma rust_total : forall sz d, bounded (sz_layers sz) (sz_dances sz) (sz_overlapping sz) d ->
  exists d2, rust_data sz d = Ok d2.
Proof.
  intros sz d [Hl [_ Hc]]. unfold rust_data. rewrite Forall_forall in *.
  destruct (map_res_total _ _ (rust_layered (sz_layers sz)) (kd_layered d)) as [ly El].
  { intros x Hx. unfold rust_layered. rewrite (proj2 (Nat.leb_le _ _) (Hl x Hx)). eauto. }
  destruct (map_res_total _ _ (rust_chorded (sz_overlapping sz)) (kd_chorded d)) as [ch Ec].
  { intros x Hx. unfold rust_chorded. rewrite (proj2 (Nat.leb_le _ _) (Hc x Hx)). eauto. }
  rewrite El. cbn [bind]. rewrite Ec. eexists. reflexivity.
Qed.

(** ** Sizes *)

Section Traverse.
  Variables (f : nat -> cv -> nat) (g : ukey automation_key -> nat).
  Hypothesis Hinfl : forall acc c, (acc <= f acc c)%nat.
  Hypothesis Hg : forall acc k, (g k <= f acc (cv_of k))%nat.

  Lemma fold_infl : forall A (h : nat -> A -> nat) l acc,
    (forall acc x, In x l -> (acc <= h acc x)%nat) -> (acc <= fold_left h l acc)%nat.
  Proof.
    induction l as [|x l IH]; intros acc H; cbn; [lia|].
    etransitivity; [apply (H acc x); now left|]. apply IH. intros. apply H. now right.
  Qed.
  Lemma fold_each : forall A (h : nat -> A -> nat) l acc x n,
    (forall acc x, In x l -> (acc <= h acc x)%nat) -> In x l -> (forall acc, (n <= h acc x)%nat) ->
    (n <= fold_left h l acc)%nat.
  Proof.
    induction l as [|y l IH]; intros acc x n H Hx Hn; [destruct Hx|]. cbn. destruct Hx as [->|Hx].
    - etransitivity; [apply Hn|]. apply fold_infl. intros. apply H. now right.
    - apply IH with (x := x); auto. intros. apply H. now right.
  Qed.
  Lemma fold_map_left : forall A B (h : nat -> B -> nat) (m : A -> B) l acc,
    fold_left h (map m l) acc = fold_left (fun a x => h a (m x)) l acc.
  Proof. induction l as [|x l IH]; intros acc; cbn; [reflexivity|apply IH]. Qed.

  Lemma traverse_max : forall k acc, (acc <= traverse f acc (cv_of k))%nat /\
    forall p, In p (all_parts k) -> (g p <= traverse f acc (cv_of k))%nat.
  Proof.
    induction k as [k Hk|t h IHt IHh|k ks IHk IHks|b ls IHb IHls|cs p IHcs IHp|p IHp] using ukey_ind'; intros acc.
    - assert (E : traverse f acc (cv_of k) = f acc (cv_of k)) by (destruct k; try discriminate Hk; reflexivity).
      rewrite E. split; [apply Hinfl|]. intros p Hp.
      assert (p = k) by (destruct k; try discriminate Hk; cbn in Hp; destruct Hp as [<-|[]]; reflexivity). subst p. apply Hg.
    - cbn [cv_of traverse]. pose proof (Hinfl acc (CvTapHold (cv_of t) (cv_of h))) as H0.
      pose proof (Hg acc (UTapHold t h)) as Hs. cbn [cv_of] in Hs.
      set (a := f acc _) in *. destruct (IHt a) as [H1 H2]. destruct (IHh (traverse f a (cv_of t))) as [H3 H4].
      split; [lia|]. cbn [all_parts]. intros p [<-|Hp]; [lia|]. apply in_app_or in Hp.
      destruct Hp as [Hp|Hp]; [specialize (H2 _ Hp); lia|apply H4, Hp].
    - cbn [cv_of traverse]. pose proof (Hinfl acc (CvTapDance (cv_of k :: map cv_of ks))) as H0.
      pose proof (Hg acc (UTapDance k ks)) as Hs. cbn [cv_of] in Hs.
      set (a := f acc _) in *. cbn [fold_left]. rewrite fold_map_left.
      destruct (IHk a) as [H1 H2]. rewrite Forall_forall in IHks.
      assert (H3 : forall acc x, In x ks -> (acc <= traverse f acc (cv_of x))%nat) by (intros a' x Hx; apply (IHks x Hx a')).
      pose proof (fold_infl _ _ ks (traverse f a (cv_of k)) H3) as H4.
      split; [lia|]. cbn [all_parts]. intros p [<-|Hp]; [lia|]. apply in_app_or in Hp.
      destruct Hp as [Hp|Hp]; [specialize (H2 _ Hp); lia|]. apply in_flat_map in Hp. destruct Hp as [x [Hx Hp]].
      eapply fold_each; [exact H3|exact Hx|]. intros a'. apply (IHks x Hx a'), Hp.
    - cbn [cv_of traverse]. pose proof (Hinfl acc (CvLayered (cv_of b) (map (option_map cv_of) ls))) as H0.
      pose proof (Hg acc (ULayered b ls)) as Hs. cbn [cv_of] in Hs.
      set (a := f acc _) in *. rewrite fold_map_left. destruct (IHb a) as [H1 H2].
      set (h := fun (a : nat) (x : option (ukey automation_key)) =>
                  match option_map cv_of x with Some k => traverse f a k | None => a end).
      assert (H3 : forall acc x, In x ls -> (acc <= h acc x)%nat).
      { intros a' [x|] Hx; unfold h; cbn; [apply (IHls x Hx a')|lia]. }
      pose proof (fold_infl _ h ls (traverse f a (cv_of b)) H3) as H4.
      split; [lia|]. cbn [all_parts]. intros p [<-|Hp]; [lia|]. apply in_app_or in Hp.
      destruct Hp as [Hp|Hp]; [specialize (H2 _ Hp); lia|]. apply in_flat_map in Hp. destruct Hp as [[x|] [Hx Hp]]; [|destruct Hp].
      eapply fold_each; [exact H3|exact Hx|]. intros a'. apply (IHls x Hx a'), Hp.
    - cbn [cv_of traverse].
      pose proof (Hinfl acc (CvChorded (map (fun e : N * ukey automation_key => let (n, k) := e in (VNum n, cv_of k)) cs) (cv_of p))) as H0.
      pose proof (Hg acc (UChorded cs p)) as Hs. cbn [cv_of] in Hs.
      set (a := f acc _) in *. rewrite fold_map_left.
      set (h := fun (a : nat) (x : N * ukey automation_key) =>
                  let (_, k) := let (n, k) := x in (VNum n, cv_of k) in traverse f a k).
      assert (H3 : forall acc x, In x cs -> (acc <= h acc x)%nat).
      { intros a' [n x] Hx; unfold h; cbn. apply (IHcs (n, x) Hx a'). }
      pose proof (fold_infl _ h cs a H3) as H4.
      destruct (IHp (fold_left h cs a)) as [H1 H2].
      split; [lia|]. cbn [all_parts]. intros q [<-|Hq]; [lia|]. apply in_app_or in Hq.
      destruct Hq as [Hq|Hq]; [|apply H2, Hq]. apply in_flat_map in Hq. destruct Hq as [[n x] [Hx Hq]].
      etransitivity; [|exact H1]. eapply fold_each; [exact H3|exact Hx|]. intros a'. apply (IHcs (n, x) Hx a'), Hq.
    - cbn [cv_of traverse]. pose proof (Hinfl acc (CvAux (cv_of p))) as H0.
      pose proof (Hg acc (UAux p)) as Hs. cbn [cv_of] in Hs.
      set (a := f acc _) in *. destruct (IHp a) as [H1 H2].
      split; [lia|]. cbn [all_parts]. intros q [<-|Hq]; [lia|]. apply H2, Hq.
  Qed.

  Lemma over_keys_max : forall ks n, over_keys f (map cv_of ks) = Ok n ->
    forall k p, In k ks -> In p (all_parts k) -> (g p <= n)%nat.
  Proof.
    intros ks n H k p Hk Hp. unfold over_keys in H. rewrite map_map in H. destruct ks as [|k0 ks]; [destruct Hk|].
    cbn [map] in H. inv_ok H. rewrite fold_map_left.
    set (h := fun (a : nat) (x : ukey automation_key) => _).
    assert (H3 : forall acc x, In x ks -> (acc <= h acc x)%nat).
    { intros a x _. unfold h. destruct (Nat.ltb_spec (traverse f 0 (cv_of x)) a); lia. }
    destruct Hk as [->|Hk].
    - etransitivity; [apply (traverse_max k 0%nat), Hp|]. now apply fold_infl.
    - eapply fold_each; [exact H3|exact Hk|]. intros a. unfold h.
      pose proof (proj2 (traverse_max k 0%nat) p Hp).
      destruct (Nat.ltb_spec (traverse f 0 (cv_of k)) a); lia.
  Qed.
End Traverse.

(** Whatever every step of the traversal keeps holds of its result. *)
Section Kept.
  Variables (f : nat -> cv -> nat) (P : nat -> Prop).

  Lemma fold_kept : forall A (h : nat -> A -> nat) l acc,
    (forall acc x, In x l -> P acc -> P (h acc x)) -> P acc -> P (fold_left h l acc).
  Proof.
    induction l as [|x l IH]; intros acc H Ha; cbn; [exact Ha|]. apply IH; [intros; apply H; [now right|assumption]|].
    apply H; [now left|assumption].
  Qed.

  Lemma traverse_kept : forall k, (forall acc p, In p (all_parts k) -> P acc -> P (f acc (cv_of p))) ->
    forall acc, P acc -> P (traverse f acc (cv_of k)).
  Proof.
    induction k as [k Hk|t h IHt IHh|k ks IHk IHks|b ls IHb IHls|cs p IHcs IHp|p IHp] using ukey_ind'; intros H acc Ha.
    - assert (E : traverse f acc (cv_of k) = f acc (cv_of k)) by (destruct k; try discriminate Hk; reflexivity).
      rewrite E. apply H; [|assumption]. destruct k; now left.
    - cbn [cv_of traverse]. cbn [all_parts] in H. apply IHh; [intros; apply H; [right; apply in_or_app; auto|assumption]|].
      apply IHt; [intros; apply H; [right; apply in_or_app; auto|assumption]|].
      apply (H acc (UTapHold t h)); [now left|assumption].
    - cbn [cv_of traverse fold_left]. cbn [all_parts] in H. rewrite fold_map_left. rewrite Forall_forall in IHks.
      apply fold_kept.
      { intros a x Hx. apply IHks; [exact Hx|]. intros a' q Hq. apply H. right. apply in_or_app. right. apply in_flat_map. eauto. }
      apply IHk; [intros; apply H; [right; apply in_or_app; auto|assumption]|].
      apply (H acc (UTapDance k ks)); [now left|assumption].
    - cbn [cv_of traverse]. cbn [all_parts] in H. rewrite fold_map_left. apply fold_kept.
      { intros a [x|] Hx Hp; cbn; [|exact Hp]. apply IHls; [exact Hx| |exact Hp]. intros a' q Hq. apply H. right.
        apply in_or_app. right. apply in_flat_map. exists (Some x). auto. }
      apply IHb; [intros; apply H; [right; apply in_or_app; auto|assumption]|].
      apply (H acc (ULayered b ls)); [now left|assumption].
    - cbn [cv_of traverse]. cbn [all_parts] in H. rewrite fold_map_left.
      apply IHp; [intros; apply H; [right; apply in_or_app; auto|assumption]|].
      apply fold_kept.
      { intros a [n x] Hx Hp; cbn. apply (IHcs (n, x) Hx); [|exact Hp]. intros a' q Hq. apply H. right.
        apply in_or_app. left. apply in_flat_map. exists (n, x). auto. }
      apply (H acc (UChorded cs p)); [now left|assumption].
    - cbn [cv_of traverse]. cbn [all_parts] in H. apply IHp; [intros; apply H; [now right|assumption]|].
      apply (H acc (UAux p)); [now left|assumption].
  Qed.

  Lemma over_keys_kept : forall ks n, over_keys f (map cv_of ks) = Ok n -> P 0 ->
    (forall k acc p, In k ks -> In p (all_parts k) -> P acc -> P (f acc (cv_of p))) -> P n.
  Proof.
    intros ks n H P0 Hk. unfold over_keys in H. rewrite map_map in H. destruct ks as [|k ks]; [discriminate H|].
    cbn [map] in H. injection H as <-. rewrite fold_map_left. apply fold_kept.
    - intros a x Hx Ha. destruct (traverse f 0 (cv_of x) <? a)%nat; [exact Ha|].
      apply traverse_kept; [|exact P0]. intros. eapply Hk; eauto. now right.
    - apply traverse_kept; [|exact P0]. intros. eapply Hk; eauto. now left.
  Qed.
End Kept.

Definition layers_of (k : ukey automation_key) : nat := match k with ULayered _ ls => length ls | _ => 0 end.
Definition dances_of (k : ukey automation_key) : nat := match k with UTapDance _ ks => S (length ks) | _ => 0 end.

Lemma ltb_max : forall a b, (if (a <? b)%nat then b else a) = Nat.max a b.
Proof. intros a b. destruct (Nat.ltb_spec a b); lia. Qed.
Lemma layers_max : forall ks n, over_keys max_layers (map cv_of ks) = Ok n ->
  forall k p, In k ks -> In p (all_parts k) -> (layers_of p <= n)%nat.
Proof.
  apply over_keys_max.
  - intros acc c. destruct c; unfold max_layers; rewrite ?ltb_max; lia.
  - intros acc k. destruct k; cbn [layers_of cv_of]; unfold max_layers; rewrite ?ltb_max, ?map_length; lia.
Qed.
Lemma layers_attained : forall ks n, over_keys max_layers (map cv_of ks) = Ok n ->
  n = 0%nat \/ exists k p, In k ks /\ In p (all_parts k) /\ layers_of p = n.
Proof.
  intros ks n H.
  apply (over_keys_kept _ (fun n => n = 0%nat \/ exists k p, In k ks /\ In p (all_parts k) /\ layers_of p = n) _ _ H).
  - now left.
  - intros k acc p Hk Hp Ha.
    assert (E : max_layers acc (cv_of p) = acc \/ max_layers acc (cv_of p) = layers_of p).
    { destruct p; cbn [cv_of layers_of]; unfold max_layers; rewrite ?ltb_max, ?map_length; lia. }
    destruct E as [->| ->]; [exact Ha|]. right. eauto.
Qed.
Lemma dances_max : forall ks n, over_keys max_dances (map cv_of ks) = Ok n ->
  forall k p, In k ks -> In p (all_parts k) -> (dances_of p <= n)%nat.
Proof.
  apply over_keys_max.
  - intros acc c. destruct c; unfold max_dances; rewrite ?ltb_max; lia.
  - intros acc k. destruct k; cbn [dances_of cv_of]; unfold max_dances; rewrite ?ltb_max; cbn [length]; rewrite ?map_length; lia.
Qed.

(** ** Instructions *)

Lemma get_field : forall fs l f v, Permutation fs l -> NoDup (names l) -> In (f, v) l -> field f (VRec fs) = Ok v.
Proof.
  intros fs l f v Hp Hd Hi. unfold field. rewrite (get_perm _ _ _ Hd Hp). now rewrite (get_in _ _ _ Hd Hi).
Qed.

Lemma usage_back : forall v u, usage_written v u -> key_usage_expr v = Ok u.
Proof.
  intros v u H. destruct H as [c Hc|c Hc|c Hc|fs b x y vs hs Hb Hx Hy Hv Hh Hp].
  - unfold key_usage_expr. cbn -[lit]. now rewrite lit_ok.
  - unfold key_usage_expr. cbn -[lit]. now rewrite lit_ok.
  - unfold key_usage_expr. cbn -[lit]. now rewrite lit_ok.
  - unfold key_usage_expr. cbn -[lit mouse_output_expr].
    assert (E : mouse_output_expr (VRec fs) = Ok (mkMouse b (Z.of_N x) (Z.of_N y) (Z.of_N vs) (Z.of_N hs))).
    { assert (Hd : NoDup (names [("pressed_buttons", VNum b); ("x", VNum x); ("y", VNum y);
                    ("vertical_scroll", VNum vs); ("horizontal_scroll", VNum hs)])).
      { cbn. repeat (constructor; [cbn; intuition discriminate|]). constructor. }
      unfold mouse_output_expr.
      rewrite (get_field _ _ "pressed_buttons" (VNum b) Hp Hd) by (cbn; auto 10).
      rewrite (get_field _ _ "x" (VNum x) Hp Hd) by (cbn; auto 10).
      rewrite (get_field _ _ "y" (VNum y) Hp Hd) by (cbn; auto 10).
      rewrite (get_field _ _ "vertical_scroll" (VNum vs) Hp Hd) by (cbn; auto 10).
      rewrite (get_field _ _ "horizontal_scroll" (VNum hs) Hp Hd) by (cbn; auto 10).
      unfold lit8, lit_i8. cbn [bind as_num]. now rewrite !lit_ok by assumption. }
    rewrite E. reflexivity.
Qed.

Lemma output_back : forall v k, output_written v k -> key_output_expr v = Ok k.
Proof.
  intros v k H. destruct H as [v u Hu|m Hm|fs v u m Hu Hm Hp].
  - unfold key_output_expr. cbn -[key_usage_expr]. now rewrite (usage_back _ _ Hu).
  - unfold key_output_expr. cbn -[lit]. now rewrite lit_ok.
  - apply Permutation_sym, Permutation_length_2_inv in Hp. unfold key_output_expr.
    destruct Hp; subst fs; cbn -[key_usage_expr lit]; rewrite (usage_back _ _ Hu); cbn [bind];
      now rewrite lit_ok.
Qed.

Lemma instruction_back : forall v i, instruction_written v i -> instruction_expr v = Ok i.
Proof.
  intros v i H. destruct H as [|v k H|v k H|v k H|t H].
  - reflexivity.
  - unfold instruction_expr. cbn -[key_output_expr]. now rewrite (output_back _ _ H).
  - unfold instruction_expr. cbn -[key_output_expr]. now rewrite (output_back _ _ H).
  - unfold instruction_expr. cbn -[key_output_expr]. now rewrite (output_back _ _ H).
  - unfold instruction_expr. cbn -[lit]. now rewrite lit_ok.
Qed.

(** ** The generated module *)

Lemma f2_map_res : forall A B (f : A -> res B) (R : A -> B -> Prop) l m,
  (forall x y, R x y -> f x = Ok y) -> Forall2 R l m -> map_res f l = Ok m.
Proof.
  intros A B f R l m Hf H. induction H as [|x y l m Hx _ IH]; [reflexivity|]. cbn [map_res].
  rewrite (Hf _ _ Hx). cbn [bind]. now rewrite IH.
Qed.
Lemma map_res_same : forall A (f : A -> res A) l, (forall x, In x l -> f x = Ok x) -> map_res f l = Ok l.
Proof.
  induction l as [|x l IH]; intros H; [reflexivity|]. cbn [map_res]. rewrite H by now left. cbn [bind].
  rewrite IH; [reflexivity|]. intros y Hy. apply H. now right.
Qed.
Lemma map_res_same_inv : forall A (f : A -> res A) l m, (forall x y, f x = Ok y -> y = x) -> map_res f l = Ok m -> m = l.
Proof.
  intros A f. induction l as [|x l IH]; intros m Hf H; cbn [map_res] in H; [now inv_ok H|]. inv_bind H. inv_bind H.
  injection H as <-. f_equal; [now apply Hf|]. now apply IH.
Qed.

Lemma chord_size_max : forall cs c, In c cs -> (length c <= max_chord_size cs)%nat.
Proof.
  intros cs c H. unfold max_chord_size. generalize 0%nat. revert H.
  induction cs as [|x cs IH]; intros H a; [destruct H|]. cbn. destruct H as [->|H]; [|now apply IH].
  clear IH. assert (Hm : forall l b, (b <= fold_left Nat.max l b)%nat).
  { induction l as [|y l IH]; intros b; cbn; [lia|]. etransitivity; [|apply IH]. lia. }
  etransitivity; [|apply Hm]. lia.
Qed.

Lemma option16_given : forall o d x, option16 o d = Ok x -> given o d x.
Proof. intros [n|] d x H; cbn in H; [now apply lit_inv in H|now inv_ok H]. Qed.
Lemma option16'_eq : forall o x, option16' o = Ok x -> x = o.
Proof.
  intros [n|] x H; unfold option16' in H; [|now inv_ok H]. inv_bind H. apply lit_inv in E. subst. now inv_ok H.
Qed.
Lemma option16_total : forall o d, (forall n, o = Some n -> n <= 65535) -> exists x, option16 o d = Ok x.
Proof. intros [n|] d H; cbn -[lit]; [rewrite lit_ok by auto|]; eauto. Qed.
Lemma option16'_total : forall o, (forall n, o = Some n -> n <= 65535) -> exists x, option16' o = Ok x.
Proof. intros [n|] H; unfold option16'; [rewrite lit_ok by auto; cbn|]; eauto. Qed.

Lemma or_default_given : forall A (o : option A) d, given o d (or_default o d).
Proof. intros A [x|] d; reflexivity. Qed.

Lemma config_sound : forall j is I L O D c,
  kj_instructions j = is -> map_res instruction_expr is = Ok I ->
  rust_config (mkSizes (length is) L (max_chord_size (kj_chords j)) (length (kj_chords j)) O D) j = Ok c ->
  configured (kj_options j) (kj_chords j) c /\ chords_fit (kj_chords j) c /\
  auc_instructions (cf_automation c) = I /\ cf_layer_count c = L.
Proof.
  intros j is I L O D c <- HI H. unfold rust_config in H. cbn [sz_instructions sz_layers sz_chord_size sz_chords] in H.
  rewrite HI in H. cbn [bind] in H.
  assert (HL : length I = length (kj_instructions j)).
  { revert HI. generalize (kj_instructions j). clear. intros l. revert I.
    induction l as [|x l IH]; intros I H; cbn [map_res] in H; [now inv_ok H|]. inv_bind H. inv_bind H. injection H as <-.
    cbn. now rewrite (IH _ E0). }
  rewrite HL, Nat.leb_refl, Nat.sub_diag in H. cbn [repeat bind] in H. rewrite app_nil_r in H.
  inv_bind H. inv_bind H. inv_bind H. inv_bind H. inv_bind H. inv_bind H. inv_bind H. inv_bind H.
  injection H as <-.
  apply option16_given in E, E3, E4, E5. apply option16'_eq in E2, E6. subst.
  assert (a0 = kj_chords j).
  { apply map_res_same_inv in E0; [exact E0|]. intros x y Hx. inv_bind Hx.
    destruct (length a2 <=? max_chord_size (kj_chords j))%nat; [|discriminate Hx]. injection Hx as <-.
    apply map_res_same_inv in E2; [exact E2|]. intros x' y' Hx'. now apply lit_inv in Hx'. }
  subst a0. rewrite Nat.leb_refl in E1. injection E1 as <-.
  split; [|split; [|split]].
  - unfold configured. cbn. auto 20 using or_default_given.
  - unfold chords_fit. cbn. split; [lia|]. split; [apply chord_size_max|].
    split; [|now intros ->]. intros x y Hx Hy. apply chord_size_max in Hx, Hy. lia.
  - reflexivity.
  - reflexivity.
Qed.

Lemma config_total : forall j is I L O D,
  kj_instructions j = is -> map_res instruction_expr is = Ok I -> length I = length is ->
  options_in_range (kj_options j) -> Forall (Forall (fun i => i <= 65535)) (kj_chords j) ->
  exists c, rust_config (mkSizes (length is) L (max_chord_size (kj_chords j)) (length (kj_chords j)) O D) j = Ok c.
Proof.
  intros j is I L O D <- HI HL Ho Hc. unfold rust_config. cbn [sz_instructions sz_layers sz_chord_size sz_chords].
  rewrite HI. cbn [bind]. rewrite HL, Nat.leb_refl. cbn [bind].
  assert (Ho' : forall x n, In x [op_instruction_duration (kj_options j); op_chord_idle (kj_options j); op_chord_timeout (kj_options j);
                         op_dance_timeout (kj_options j); op_hold_timeout (kj_options j); op_hold_idle (kj_options j)] ->
                       x = Some n -> n <= 65535).
  { intros x n Hx ->. now apply Ho. }
  destruct (option16_total (op_instruction_duration (kj_options j)) (auc_duration (automation_config_new 0))) as [x1 ->]; [intros; eapply Ho'; [|eassumption]; cbn; auto 10|].
  cbn [bind]. rewrite map_res_same.
  2:{ intros x Hx. rewrite map_res_same.
      - cbn [bind]. now rewrite (proj2 (Nat.leb_le _ _) (chord_size_max _ _ Hx)).
      - intros y Hy. apply lit_ok. rewrite Forall_forall in Hc. specialize (Hc _ Hx). rewrite Forall_forall in Hc. auto. }
  cbn [bind]. rewrite Nat.leb_refl. cbn [bind].
  destruct (option16'_total (op_chord_idle (kj_options j))) as [x2 ->]; [intros; eapply Ho'; [|eassumption]; cbn; auto 10|].
  cbn [bind].
  destruct (option16_total (op_chord_timeout (kj_options j)) chorded_default_timeout) as [x3 ->]; [intros; eapply Ho'; [|eassumption]; cbn; auto 10|].
  cbn [bind].
  destruct (option16_total (op_dance_timeout (kj_options j)) (tdc_timeout tapdance_config_default)) as [x4 ->]; [intros; eapply Ho'; [|eassumption]; cbn; auto 10|].
  cbn [bind].
  destruct (option16_total (op_hold_timeout (kj_options j)) (thc_timeout taphold_config_default)) as [x5 ->]; [intros; eapply Ho'; [|eassumption]; cbn; auto 10|].
  cbn [bind].
  destruct (option16'_total (op_hold_idle (kj_options j))) as [x6 ->]; [intros; eapply Ho'; [|eassumption]; cbn; auto 10|].
  cbn [bind]. eauto.
Qed.

Section Codegen.
  Variables (f : nat) (ks : list (ukey automation_key)) (is : list val) (I : list instruction)
            (chords : list (list N)) (o : options).
  Hypothesis Hf : Forall (fun k => depth k f) ks.
  Hypothesis Hi : Forall2 instruction_written is I.
  Let j := mkKeymapJson (map json ks) is chords o.

  Definition after_checks : res generated :=
    let cvs := map cv_of ks in
    let! (d, refs) := thread data_and_ref no_data cvs in
    let! dances := over_keys max_dances cvs in
    let! layers := over_keys max_layers cvs in
    let! overlapping := max_overlapping chords in
    let sz := mkSizes (length is) layers (max_chord_size chords) (length chords) overlapping dances in
    let! d := rust_data sz d in
    let! c := rust_config sz j in
    Ok (mkGenerated refs d c).

  Lemma codegen_checked : codegen f j = after_checks.
  Proof.
    unfold codegen. unfold j at 1 2. cbn [kj_keys kj_instructions].
    assert (Hd : forall k, In k ks -> depth k f) by (now apply Forall_forall).
    rewrite map_res_same.
    2:{ intros v Hv. apply in_map_iff in Hv. destruct Hv as [k [<- Hk]]. unfold contract_json.
        specialize (Hd _ Hk). destruct f as [|f']; [inversion Hd|]. rewrite one_valid; [reflexivity|]. now apply json_one. }
    cbn [bind]. rewrite map_res_same.
    2:{ intros v Hv. unfold contract_instruction. destruct (f2_in_l _ _ _ _ _ _ Hi Hv) as [i [_ Hvi]].
        now rewrite (instruction_is_valid _ _ Hvi). }
    cbn [bind]. rewrite (map_res_map _ _ _ _ _ cv_of) by (intros; now apply codegen_json, Hd).
    reflexivity.
  Qed.

  Lemma instructions_back : map_res instruction_expr is = Ok I.
  Proof. eapply f2_map_res; [|exact Hi]. exact instruction_back. Qed.

  Hypothesis Ho : forall n, max_overlapping chords = Ok n -> forall k p, In k ks -> In p (all_parts k) ->
    match p with UChorded cs _ => (length cs <= n)%nat | _ => True end.

  Lemma all_sized : forall d l m, over_keys max_dances (map cv_of ks) = Ok d -> over_keys max_layers (map cv_of ks) = Ok l ->
    max_overlapping chords = Ok m -> forall k, In k ks -> sized l d m k.
  Proof.
    intros d l m Hd Hl Hm k Hk. apply Forall_forall. intros p Hp.
    pose proof (dances_max _ _ Hd _ _ Hk Hp). pose proof (layers_max _ _ Hl _ _ Hk Hp).
    pose proof (Ho _ Hm _ _ Hk Hp). destruct p; cbn in *; auto.
  Qed.

  Lemma table_step : forall d l m, (forall k, In k ks -> sized l d m k) ->
    step_ok l d m (fun d => thread data_and_ref d (map cv_of ks)) ks (fun d => Forall2 (denotes eq d))
      (fun t ks => list_sum (map (count t) ks)) (Forall ranged).
  Proof.
    intros d l m H. apply thread_step with (Dn := fun d k r => denotes eq d k r).
    - intros. eapply denotes_ext; eassumption.
    - intros k Hk. apply refs_ok. auto.
  Qed.

  Lemma codegen_sound : forall g, codegen f j = Ok g ->
    Forall2 (denotes eq (gn_data g)) ks (gn_refs g) /\
    configured o chords (gn_config g) /\ chords_fit chords (gn_config g) /\
    layers_fit (gn_data g) (gn_config g) /\
    auc_instructions (cf_automation (gn_config g)) = I /\
    over_keys max_layers (map cv_of ks) = Ok (cf_layer_count (gn_config g)).
  Proof.
    intros g H. rewrite codegen_checked in H. unfold after_checks in H.
    inv_bind H. destruct a as [d0 refs]. inv_bind H. inv_bind H. inv_bind H. inv_bind H. inv_bind H. injection H as <-.
    cbn [gn_refs gn_data gn_config].
    destruct (config_sound j is I _ _ _ _ eq_refl instructions_back E4) as [C1 [C2 [C3 C4]]].
    pose proof (table_step _ _ _ (all_sized _ _ _ E0 E1 E2) no_data) as [T _].
    destruct (T _ _ E) as [_ [T1 [_ T2]]].
    assert (B : bounded a0 a a1 d0) by (apply T2; repeat split; constructor).
    split; [|split; [exact C1|]; split; [exact C2|]; split; [|split; [exact C3|now rewrite C4]]].
    - eapply f2_impl; [|exact T1]. intros k r Hk. eapply rust_denotes; [exact E3|apply B|exact Hk].
    - intros k Hk. rewrite C4. clear -E3 Hk. unfold rust_data in E3. inv_bind E3. inv_bind E3. injection E3 as <-.
      cbn [kd_layered sz_layers] in *. clear E0. revert a3 E Hk.
      induction (kd_layered d0) as [|x l IH]; intros m H Hk; cbn [map_res] in H; [inv_ok H; destruct Hk|].
      inv_bind H. inv_bind H. injection H as <-. destruct Hk as [<-|Hk]; [|eapply IH; eassumption || reflexivity].
      unfold rust_layered in E. destruct (length (lk_layered x) <=? a0)%nat eqn:El; [|discriminate E].
      apply Nat.leb_le in El. injection E as <-. cbn. rewrite app_length, repeat_length. lia.
  Qed.

  Lemma codegen_total :
    ks <> [] -> Forall ranged ks -> (forall t, list_sum (map (count t) ks) <= 256)%nat ->
    Forall (fun c => c <> []) chords -> Forall (Forall (fun i => i <= 65535)) chords -> options_in_range o ->
    exists g, codegen f j = Ok g.
  Proof.
    intros Hne Hr Hc Hch Hch' Hop. rewrite codegen_checked. unfold after_checks.
    assert (Hov : forall h, exists n, over_keys h (map cv_of ks) = Ok n).
    { intros h. unfold over_keys. destruct ks as [|k l]; [contradiction|]. cbn. eauto. }
    destruct (Hov max_dances) as [dn Ed]. destruct (Hov max_layers) as [ln El].
    assert (Em : exists m, max_overlapping chords = Ok m).
    { unfold max_overlapping. destruct (map_res_total _ _ (fun c : list N => match c with [] => Panic | i :: _ => Ok i end) chords) as [ps ->].
      - intros c Hi'. rewrite Forall_forall in Hch. specialize (Hch _ Hi'). destruct c; [contradiction|eauto].
      - cbn [bind]. eauto. }
    destruct Em as [m Em].
    destruct (table_step _ _ _ (all_sized _ _ _ Ed El Em) no_data) as [T1 T2].
    destruct T2 as [d [refs E]].
    { exact Hr. }
    { intros t. specialize (Hc t). assert (tlen t no_data = 0%nat) by (destruct t; reflexivity). lia. }
    cbv zeta. rewrite E. cbn [bind]. rewrite Ed, El, Em. cbn [bind].
    destruct (T1 _ _ E) as [_ [_ [_ B]]].
    destruct (rust_total (mkSizes (length is) ln (max_chord_size chords) (length chords) m dn) d) as [d2 ->].
    { apply B. repeat split; constructor. }
    cbn [bind].
    destruct (config_total j is I ln m dn) as [c Ec]; try assumption; try reflexivity.
    { apply instructions_back. }
    { symmetry. exact (flen _ _ _ _ _ Hi). }
    cbn [kj_chords j] in Ec. rewrite Ec. cbn [bind]. eauto.
  Qed.
End Codegen.
