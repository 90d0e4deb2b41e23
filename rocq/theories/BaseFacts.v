(** Lemmas and tactics about the result monad and lists. *)
From Coq Require Export Permutation.
From Coq Require Export ZifyBool ZifyNat ZifyN.
From Verif Require Export Base.

Ltac Zify.zify_post_hook ::= Z.div_mod_to_equations.

Lemma bind_ok {A B} (m : res A) (f : A -> res B) b :
  bind m f = Ok b -> exists a, m = Ok a /\ f a = Ok b.
Proof. destruct m; cbn; intros H; try discriminate; eauto. Qed.

(** Invert the [bind]s of a hypothesis [_ = Ok _]. *)
Ltac inv_bind H :=
  let a := fresh "a" in let E := fresh "E" in
  apply bind_ok in H; destruct H as [a [E H]].
Ltac inv_ok H := injection H; clear H; intros; subst.

Lemma push_cap_ok {A} cap (l : list A) x l' :
  push_cap cap l x = Ok l' -> l' = l ++ [x] /\ (length l < cap)%nat.
Proof.
  unfold push_cap. destruct (Nat.ltb_spec (length l) cap); intros E; try discriminate.
  inversion E; auto.
Qed.

Lemma push_cap_ok_iff {A} cap (l : list A) x :
  (length l < cap)%nat -> push_cap cap l x = Ok (l ++ [x]).
Proof. intros H. unfold push_cap. apply Nat.ltb_lt in H. now rewrite H. Qed.

Lemma push_all_cap_ok {A} cap (xs l : list A) l' :
  push_all_cap cap l xs = Ok l' ->
  l' = l ++ xs /\ (xs <> [] -> (length l' <= cap)%nat).
Proof.
  revert l l'. induction xs as [|x xs IH]; cbn; intros l l' H.
  - inversion H; subst. rewrite app_nil_r. split; [reflexivity|congruence].
  - inv_bind H. apply push_cap_ok in E as [-> Hl]. destruct (IH _ _ H) as [-> Hc].
    rewrite <- app_assoc. split; [reflexivity|]. intros _.
    destruct xs; [rewrite app_nil_r, app_length; cbn; lia|].
    cbn [app] in *. rewrite <- app_assoc in Hc. apply Hc. congruence.
Qed.

Lemma push_all_cap_total {A} cap (xs l : list A) :
  (length l + length xs <= cap)%nat -> push_all_cap cap l xs = Ok (l ++ xs).
Proof.
  revert l. induction xs as [|x xs IH]; cbn; intros l H.
  - now rewrite app_nil_r.
  - rewrite push_cap_ok_iff by lia. cbn.
    rewrite IH by (rewrite app_length; cbn; lia). now rewrite <- app_assoc.
Qed.

Lemma push_all_cap_panic {A} cap (xs l : list A) :
  (length l <= cap < length l + length xs)%nat -> push_all_cap cap l xs = Panic.
Proof.
  revert l. induction xs as [|x xs IH]; cbn; intros l H; [lia|].
  unfold push_cap. destruct (Nat.ltb_spec (length l) cap); cbn; [|reflexivity].
  apply IH. rewrite app_length. cbn. lia.
Qed.

Lemma index_ok {A} (l : list A) i x : index l i = Ok x <-> nth_error l i = Some x.
Proof. unfold index. destruct (nth_error l i); split; congruence. Qed.

Lemma fold_res_app {A S} (f : S -> A -> res S) l1 l2 s :
  fold_res f (l1 ++ l2) s = bind (fold_res f l1 s) (fold_res f l2).
Proof.
  revert s. induction l1 as [|x l1 IH]; intros s; cbn; [reflexivity|].
  destruct (f s x); cbn; auto.
Qed.

Lemma fold_res_inv {A S} (f : S -> A -> res S) (I : S -> Prop) l s s' :
  (forall s x s', I s -> In x l -> f s x = Ok s' -> I s') ->
  I s -> fold_res f l s = Ok s' -> I s'.
Proof.
  revert s. induction l as [|x l IH]; cbn; intros s Hf Hs H.
  - inv_ok H; auto.
  - inv_bind H. eapply IH; [| |exact H]; [intros; eapply Hf; eauto|eapply Hf; eauto].
Qed.

Lemma remove_first_In {A} (f : A -> bool) l x : In x (remove_first f l) -> In x l.
Proof.
  induction l as [|y l IH]; cbn; [auto|]. destruct (f y); cbn; intuition.
Qed.

Lemma filter_map_app {A B} (f : A -> option B) l1 l2 :
  filter_map f (l1 ++ l2) = filter_map f l1 ++ filter_map f l2.
Proof.
  induction l1 as [|x l1 IH]; cbn; [reflexivity|]. destruct (f x); cbn; now rewrite IH.
Qed.

Lemma filter_map_length {A B} (f : A -> option B) l : (length (filter_map f l) <= length l)%nat.
Proof. induction l as [|x l IH]; cbn; [lia|]. destruct (f x); cbn; lia. Qed.

Lemma filter_map_In {A B} (f : A -> option B) l y :
  In y (filter_map f l) <-> exists x, In x l /\ f x = Some y.
Proof.
  induction l as [|x l IH]; cbn.
  - split; [tauto|]. intros [x [[] _]].
  - destruct (f x) eqn:E; cbn; rewrite IH; split.
    + intros [->|[z [Hz E']]]; eauto.
    + intros [z [[->|Hz] E']]; [left; congruence|eauto].
    + intros [z [Hz E']]; eauto.
    + intros [z [[->|Hz] E']]; [congruence|eauto].
Qed.

(** A property of all [n < 256] may be checked by running a boolean test. *)
Fixpoint below (n : nat) : list N :=
  match n with O => [] | S n' => below n' ++ [N.of_nat n'] end.
Lemma below_In n x : (x < N.of_nat n)%N -> In x (below n).
Proof.
  induction n as [|n IH]; intros H; [lia|]. cbn [below]. apply in_or_app.
  destruct (N.eq_dec x (N.of_nat n)) as [->|Hn]; [right; left; reflexivity|left; apply IH; lia].
Qed.
Lemma forall_byte (f : N -> bool) :
  forallb f (below 256) = true -> forall x, (x < 256)%N -> f x = true.
Proof.
  intros H x Hx. rewrite forallb_forall in H. apply H, below_In.
  change (N.of_nat 256) with 256%N. exact Hx.
Qed.
Lemma forall_below n (f : N -> bool) :
  forallb f (below n) = true -> forall x, (x < N.of_nat n)%N -> f x = true.
Proof. intros H x Hx. rewrite forallb_forall in H. apply H, below_In, Hx. Qed.
