(** Facts about split-keyboard messages, slices and the C interface (C34-C36). *)
From Verif Require Import BaseFacts Output Types Split Slice CApi SpecOutput OutputFacts.
Local Open Scope N_scope.

(** ** Decoding needs enough bytes *)
Lemma take_varint_shorter n last : forall shift acc l x l',
  take_varint n last shift acc l = Some (x, l') -> (length l' < length l)%nat.
Proof.
  induction n as [|n IH]; intros shift acc [|b l] x l' H; cbn [take_varint] in H; try discriminate.
  destruct (b <? 128).
  - destruct n; [destruct (last <? b); [discriminate|]|]; injection H as _ <-; cbn; lia.
  - apply IH in H. cbn. lia.
Qed.
Lemma take_u8_shorter l x l' : take_u8 l = Some (x, l') -> (length l = S (length l'))%nat.
Proof. destruct l; cbn; [discriminate|]. intros H. now injection H as _ <-. Qed.
Lemma obind_some {A B} (o : option A) (f : A -> option B) b : obind o f = Some b -> exists a, o = Some a /\ f a = Some b.
Proof. destruct o; cbn; [eauto|discriminate]. Qed.
Ltac inv_obind H := let a := fresh "a" in let E := fresh "E" in apply obind_some in H; destruct H as [a [E H]].

Lemma take_usage_shorter l u l' : take_usage l = Some (u, l') -> (length l' + 2 <= length l)%nat.
Proof.
  unfold take_usage. intros H. inv_obind H. destruct a as [d l1]. apply take_varint_shorter in E.
  destruct (d =? 0); [|destruct (d =? 1); [|destruct (d =? 2); [|destruct (d =? 3); [|discriminate]]]].
  1-3: inv_obind H; destruct a as [c l2]; injection H as _ <-; apply take_u8_shorter in E0; lia.
  inv_obind H. destruct a as [m l2]. injection H as _ <-. unfold take_mouse in E0.
  inv_obind E0. destruct a. inv_obind E0. destruct a. inv_obind E0. destruct a. inv_obind E0. destruct a. inv_obind E0. destruct a.
  injection E0 as _ <-. apply take_u8_shorter in E1, E2, E3, E4, E5. lia.
Qed.
Lemma take_output_shorter l ko l' : take_output l = Some (ko, l') -> (length l' + 3 <= length l)%nat.
Proof.
  unfold take_output. intros H. inv_obind H. destruct a as [u l1]. inv_obind H. destruct a as [m l2]. injection H as _ <-.
  apply take_usage_shorter in E. apply take_u8_shorter in E0. lia.
Qed.
(** A physical event needs two bytes, a virtual one four. *)
Lemma parse_event_needs l ev : parse_event l = Some ev ->
  (2 <= length l)%nat /\ (match ev with VirtualKeyPress _ | VirtualKeyRelease _ => 4 <= length l | _ => True end)%nat.
Proof.
  unfold parse_event. intros H. inv_obind H. destruct a as [d l1]. apply take_varint_shorter in E.
  destruct (d =? 0); [|destruct (d =? 1); [|destruct (d =? 2); [|destruct (d =? 3); [|discriminate]]]];
    inv_obind H; destruct a as [x l2]; injection H as <-.
  1-2: apply take_varint_shorter in E0; lia.
  1-2: apply take_output_shorter in E0; lia.
Qed.

(** The COBS decoding is shorter than its input. *)
Lemma cobs_groups_length fuel : forall l d, cobs_groups fuel l = Some d -> (length d <= length l - 1)%nat.
Proof.
  induction fuel as [|f IH]; intros [|code t] d H; cbn [cobs_groups] in H; try discriminate;
    try (injection H as <-; cbn; lia).
  destruct (Nat.ltb_spec (length t) (N.to_nat code - 1)); [discriminate|].
  destruct (cobs_groups f _) as [d1|] eqn:E; [|discriminate]. apply IH in E. rewrite skipn_length in E.
  injection H as <-. rewrite app_length, firstn_length. cbn [length].
  destruct (negb (code =? 255) && negb _) eqn:Eb; cbn [length]; [|lia].
  apply andb_prop in Eb as [_ Eb]. rewrite skipn_length in Eb. lia.
Qed.
Lemma until_zero_length l : (length (until_zero l) <= length l)%nat.
Proof. induction l as [|b l IH]; cbn; [lia|]. destruct (b =? 0); cbn; lia. Qed.
Lemma cobs_decode_length l d : cobs_decode l = Some d -> (length d <= length (until_zero l) - 1)%nat.
Proof. unfold cobs_decode. apply cobs_groups_length. Qed.

(** A window with a zero among its first three bytes decodes to nothing. *)
Lemma window_zero w : length w = 4%nat -> (length (until_zero w) <= 2)%nat -> deserialize w = Ok None.
Proof.
  intros Hw Hz. unfold deserialize, BUFFER_SIZE. rewrite Hw. cbn [Nat.ltb Nat.leb].
  rewrite firstn_all2 by lia. destruct (cobs_decode w) as [d|] eqn:E; [|reflexivity]. cbn [obind].
  apply cobs_decode_length in E. destruct (parse_event d) as [ev|] eqn:Ep; [|reflexivity].
  apply parse_event_needs in Ep as [Ep _]. lia.
Qed.
Lemma deserialize_total w : length w = 4%nat -> exists o, deserialize w = Ok o.
Proof. intros H. unfold deserialize, BUFFER_SIZE. rewrite H. cbn. eauto. Qed.
Lemma deserialize_physical w ev : deserialize w = Ok (Some ev) -> exists i, ev = Press i \/ ev = Release i.
Proof.
  unfold deserialize. destruct (Nat.ltb_spec (length w) BUFFER_SIZE); [discriminate|].
  set (v := firstn BUFFER_SIZE w). assert (Hv : (length v <= 4)%nat) by (unfold v, BUFFER_SIZE; rewrite firstn_length; lia).
  clearbody v. intros E. injection E as E. inv_obind E. apply cobs_decode_length in E0. pose proof (until_zero_length v) as Hu. apply parse_event_needs in E as [_ E]. destruct ev as [i|i|ko|ko]; [exists i; auto|exists i; auto| |]; exfalso; lia.
Qed.

(** ** Serialising *)
Definition frame_of (ev : input_event) (f : list u8) : Prop :=
  exists i, i < 128 /\
  ((ev = Press i /\ f = if i =? 0 then [1; 1; 1; 0] else [1; 2; i; 0])
   \/ (ev = Release i /\ f = if i =? 0 then [2; 1; 1; 0] else [3; 1; i; 0])).

Lemma frame_ok ev f : frame_of ev f -> serialize ev = Ok f.
Proof.
  intros (i & Hi & [[-> ->]|[-> ->]]); unfold serialize, event_payload, varint_u16;
    (destruct (N.ltb_spec i 128); [|lia]); unfold cobs_encode; cbn [cobs_go N.eqb length app N.of_nat];
    destruct (N.eqb_spec i 0) as [->|Hz]; reflexivity.
Qed.
Lemma cobs_go_length l : forall run, length (cobs_go run l) = S (length run + length l).
Proof.
  induction l as [|b l IH]; intros run; cbn [cobs_go length]; [lia|]. destruct (b =? 0).
  - cbn [length]. rewrite app_length, IH. cbn. lia.
  - rewrite IH, app_length. cbn. lia.
Qed.
Lemma serialize_frame ev f : serialize ev = Ok f -> frame_of ev f.
Proof.
  intros H. assert (Hl : (length (event_payload ev) <= 2)%nat).
  { unfold serialize, BUFFER_SIZE in H. rewrite app_length in H. unfold cobs_encode in H. rewrite cobs_go_length in H. cbn [length] in H.
    destruct (Nat.leb_spec (S (0 + length (event_payload ev)) + 1) 4); [lia|discriminate]. }
  assert (Hp : exists i, i < 128 /\ (ev = Press i \/ ev = Release i)).
  { destruct ev as [i|i|ko|ko]; cbn in Hl.
    1-2: exists i; unfold varint_u16 in Hl; destruct (N.ltb_spec i 128); [auto|]; destruct (N.ltb_spec i 16384); cbn in Hl; lia.
    1-2: unfold output_payload in Hl; rewrite app_length in Hl; destruct (ko_usage ko); cbn in Hl; lia. }
  destruct Hp as (i & Hi & [->| ->]).
  - set (g := if i =? 0 then [1; 1; 1; 0] else [1; 2; i; 0]).
    assert (Hg : frame_of (Press i) g) by (exists i; split; [assumption|left; auto]).
    pose proof (frame_ok _ _ Hg) as E. rewrite H in E. injection E as ->. exact Hg.
  - set (g := if i =? 0 then [2; 1; 1; 0] else [3; 1; i; 0]).
    assert (Hg : frame_of (Release i) g) by (exists i; split; [assumption|right; auto]).
    pose proof (frame_ok _ _ Hg) as E. rewrite H in E. injection E as ->. exact Hg.
Qed.
Lemma serialize_iff ev : (exists f, serialize ev = Ok f) <-> exists i, i < 128 /\ (ev = Press i \/ ev = Release i).
Proof.
  split.
  - intros [f H]. apply serialize_frame in H as (i & Hi & [[-> _]|[-> _]]); eauto.
  - intros (i & Hi & [->| ->]); eexists; apply frame_ok; exists i; (split; [exact Hi|]); [left|right]; split; reflexivity.
Qed.
Lemma serialize_no_fuel ev : serialize ev <> NoFuel.
Proof. unfold serialize. destruct (Nat.leb _ _); discriminate. Qed.

Lemma take_u16_small i : i < 128 -> take_u16 [i] = Some (i, []).
Proof.
  intros H. unfold take_u16. cbn [take_varint]. destruct (N.ltb_spec i 128); [|lia].
  rewrite N.shiftl_0_r, N.mod_small by exact H. reflexivity.
Qed.
Lemma parse_small i : i < 128 -> parse_event [0; i] = Some (Press i) /\ parse_event [1; i] = Some (Release i).
Proof.
  intros H. apply take_u16_small in H. unfold parse_event.
  change (take_u32 [0; i]) with (Some (0, [i])). change (take_u32 [1; i]) with (Some (1, [i])).
  cbn [obind N.eqb Pos.eqb]. rewrite H. split; reflexivity.
Qed.
Lemma frame_decodes ev f : frame_of ev f -> deserialize f = Ok (Some ev).
Proof.
  intros (i & Hi & [[-> ->]|[-> ->]]); destruct (N.eqb_spec i 0) as [->|Hz]; try reflexivity;
    apply parse_small in Hi as [H1 H2]; apply N.eqb_neq in Hz; unfold deserialize, BUFFER_SIZE;
    cbn [length Nat.ltb Nat.leb firstn]; unfold cobs_decode; cbn [until_zero N.eqb]; rewrite Hz.
  - change (Ok (parse_event [0; i]) = Ok (Some (Press i))). now rewrite H1.
  - change (Ok (parse_event [1; i]) = Ok (Some (Release i))). now rewrite H2.
Qed.
Lemma frame_shape ev f : frame_of ev f -> exists a b c : u8, f = [a; b; c; 0] /\ a <> 0 /\ b <> 0 /\ c <> 0.
Proof.
  intros (i & Hi & [[-> ->]|[-> ->]]); destruct (N.eqb_spec i 0) as [->|Hz]; do 3 eexists; (split; [reflexivity|]); repeat split; (exact Hz || discriminate).
Qed.

(** ** Receiving *)
Lemma receive_all_cons buf b t : receive_all buf (b :: t)
  = let! o := deserialize (tl buf ++ [b]) in
    let! (buf2, evs) := receive_all (tl buf ++ [b]) t in
    Ok (buf2, match o with Some ev => ev :: evs | None => evs end).
Proof. reflexivity. Qed.
Lemma receive_frame (w x y z : u8) ev f : frame_of ev f ->
  receive_all [w; x; y; z] f = (if z =? 0 then Ok (f, [ev])
    else let! p := receive_all [w; x; y; z] (firstn 3 f) in Ok (f, snd p ++ [ev])).
Proof.
  intros Hf. pose proof (frame_decodes _ _ Hf) as Hd. destruct (frame_shape _ _ Hf) as (a & b & c & -> & Ha & Hb & Hc).
  apply N.eqb_neq in Ha, Hb, Hc.
  assert (Hd' : forall l, l = [a; b; c; 0] -> deserialize l = Ok (Some ev)) by (intros ? ->; exact Hd).
  destruct (N.eqb_spec z 0) as [->|Hz].
  - rewrite !receive_all_cons. cbn [tl app].
    do 3 (match goal with |- context [deserialize ?l] =>
      rewrite (window_zero l); [cbn [bind]|reflexivity|
        cbn; destruct (x =? 0), (y =? 0); cbn; lia] end).
    match goal with |- context [deserialize ?l] => rewrite (Hd' l eq_refl) end. reflexivity.
  - rewrite !receive_all_cons. cbn [firstn]. rewrite !receive_all_cons. cbn [tl app].
    match goal with |- context [deserialize ?l] => rewrite (Hd' l eq_refl) end.
    repeat (match goal with |- context [deserialize ?l] =>
      let o := fresh "o" in let E := fresh "E" in
      destruct (deserialize_total l) as [o E]; [reflexivity|]; rewrite E; clear E end).
    cbn [bind snd receive_all]. repeat match goal with o : option input_event |- _ => destruct o end; reflexivity.
Qed.
Lemma receive_all_length bs : forall buf buf' evs, receive_all buf bs = Ok (buf', evs) -> (length evs <= length bs)%nat.
Proof.
  induction bs as [|b bs IH]; intros buf buf' evs H; cbn [receive_all] in H; [inv_ok H; cbn; lia|].
  cbn [receive_byte] in H. destruct (deserialize _) as [o| |]; try discriminate. cbn [bind] in H. inv_bind H. destruct a as [b1 e1].
  apply IH in E. destruct o; inv_ok H; cbn; lia.
Qed.
Lemma receive_all_app b1 : forall buf b2, receive_all buf (b1 ++ b2)
  = let! (x, e1) := receive_all buf b1 in let! (y, e2) := receive_all x b2 in Ok (y, e1 ++ e2).
Proof.
  induction b1 as [|b b1 IH]; intros buf b2; cbn [app receive_all].
  - cbn [bind]. destruct (receive_all buf b2) as [[y e]| |]; reflexivity.
  - destruct (receive_byte buf b) as [buf1 o]. destruct o as [o| |]; try reflexivity. cbn [bind]. rewrite IH.
    destruct (receive_all buf1 b1) as [[x e1]| |]; try reflexivity. cbn [bind].
    destruct (receive_all x b2) as [[y e2]| |]; try reflexivity. cbn [bind]. destruct o; reflexivity.
Qed.
Lemma receive_frames evs : forall frames, Forall2 (fun ev f => serialize ev = Ok f) evs frames ->
  forall w x y : u8, receive_all [w; x; y; 0] (concat frames) = Ok (last frames [w; x; y; 0], evs).
Proof.
  induction 1 as [|ev f evs frames He Hf IH]; intros w x y; [reflexivity|]. cbn [concat]. rewrite receive_all_app.
  apply serialize_frame in He. rewrite (receive_frame _ _ _ _ _ _ He). cbn [N.eqb bind].
  destruct (frame_shape _ _ He) as (a & b & c & -> & _). rewrite IH. cbn [bind app].
  destruct frames as [|g frames]; [reflexivity|]. do 2 f_equal. cbn [last].
  destruct frames; [reflexivity|]. clear. revert l. induction frames; cbn in *; auto.
Qed.

(** ** Slices *)
Lemma slice_copy_ok {T} (src : list T) : forall done rest, (length src <= length rest)%nat ->
  slice_copy src (length done) (map Some done ++ rest) = Ok (map Some (done ++ src) ++ skipn (length src) rest).
Proof.
  induction src as [|x src IH]; intros done rest Hl; cbn [slice_copy].
  - now rewrite app_nil_r.
  - destruct rest as [|y rest]; [cbn in Hl; lia|]. unfold update_index. rewrite app_length, map_length. cbn [length].
    destruct (Nat.ltb_spec (length done) (length done + S (length rest))); [|lia]. cbn [bind].
    replace (set_nth (map Some done ++ y :: rest) (length done) (Some x)) with (map Some (done ++ [x]) ++ rest).
    + replace (S (length done)) with (length (done ++ [x])) by (rewrite app_length; cbn; lia).
      rewrite IH by (cbn in Hl; lia). now rewrite <- app_assoc.
    + clear. rewrite map_app, <- app_assoc. cbn. induction done; cbn; [reflexivity|]. now f_equal.
Qed.
Lemma read_init_some {T} (l : list T) rest : read_init (length l) (map Some l ++ rest) = Ok l.
Proof. induction l as [|x l IH]; cbn; [now destruct rest|]. now rewrite IH. Qed.
Lemma slice_from_ok {T} n (src : list T) : (length src <= n)%nat ->
  exists s, slice_from n src = Ok s /\ slice_as_slice s = Ok src.
Proof.
  intros H. unfold slice_from. destruct (Nat.ltb_spec n (length src)); [lia|].
  pose proof (slice_copy_ok src [] (repeat None n)) as E. cbn [length map app] in E.
  rewrite E by (rewrite repeat_length; lia). cbn [bind].
  eexists. split; [reflexivity|]. unfold slice_as_slice. cbn [sl_len sl_data]. apply read_init_some.
Qed.
Lemma slice_from_panic {T} n (src : list T) : (n < length src)%nat -> slice_from n src = Panic.
Proof. intros H. unfold slice_from. destruct (Nat.ltb_spec n (length src)); [reflexivity|lia]. Qed.
Lemma list_eqb_spec {T} (eqb : T -> T -> bool) : (forall x y, eqb x y = true <-> x = y) ->
  forall a b, list_eqb eqb a b = true <-> a = b.
Proof.
  intros He. induction a as [|x a IH]; intros [|y b]; cbn; try (split; congruence).
  rewrite andb_true_iff, He, IH. split; [intros [-> ->]; reflexivity|intros H; injection H; auto].
Qed.

(** ** C reports *)
Lemma fill_prefix_nth n codes j : (j < n)%nat -> nth_error (fill_prefix n codes) j = Some (nth j codes 0).
Proof.
  intros Hj. unfold fill_prefix. rewrite firstn_length.
  destruct (Nat.ltb_spec j (length codes)) as [Hl|Hl].
  - rewrite nth_error_app1 by (rewrite firstn_length; lia).
    rewrite <- (firstn_skipn n codes) at 2. rewrite app_nth1 by (rewrite firstn_length; lia).
    apply nth_error_nth'. rewrite firstn_length. lia.
  - rewrite nth_error_app2 by (rewrite firstn_length; lia). rewrite nth_overflow by lia. rewrite firstn_length.
    apply nth_error_repeat. lia.
Qed.
Lemma fill_prefix_length n codes : length (fill_prefix n codes) = n.
Proof. unfold fill_prefix. rewrite app_length, repeat_length, firstn_length. lia. Qed.
