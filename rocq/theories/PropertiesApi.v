(** C34-C36: split-keyboard messages, slices and the C interface. *)
From Verif Require Import BaseFacts Output Types Scheduler Reporter Keymap Split Slice CApi SpecOutput OutputFacts
  SplitFacts Composite Samples.
Local Open Scope N_scope.

(** ** C34 *)

(** A serialised message is four bytes and gives back the same event. *)
Theorem C34_round_trip : forall ev bytes,
  serialize ev = Ok bytes -> length bytes = BUFFER_SIZE /\ deserialize bytes = Ok (Some ev).
Proof.
  intros ev bytes H. apply serialize_frame in H. split; [|now apply frame_decodes].
  destruct (frame_shape _ _ H) as (a & b & c & -> & _). reflexivity.
Qed.
(** Exactly the presses and releases of the first 128 keys can be serialised;
    anything else panics. *)
Theorem C34_serialize_iff : forall ev,
  (exists bytes, serialize ev = Ok bytes) <-> exists i, i < 128 /\ (ev = Press i \/ ev = Release i).
Proof. exact serialize_iff. Qed.
Theorem C34_serialize_all_refuted :
  serialize (Press 128) = Panic /\ serialize (VirtualKeyPress (ko_from_key_code 4)) = Panic
  /\ ~ (forall ev, exists bytes, serialize ev = Ok bytes).
Proof.
  repeat split; try reflexivity. intros H. destruct (H (Press 128)) as [b E]. discriminate.
Qed.
(** Receiving the bytes of any messages, one byte at a time, gives exactly these
    events, whatever was received before the last zero byte. *)
Theorem C34_receive_stream : forall evs frames w x y,
  Forall2 (fun ev f => serialize ev = Ok f) evs frames ->
  receive_all [w; x; y; 0] (concat frames) = Ok (last frames [w; x; y; 0], evs).
Proof. intros evs frames w x y H. now apply receive_frames. Qed.
(** After bytes were lost or garbled, the first message may come with up to three
    wrong events before it; it and everything after it is received. *)
Theorem C34_resynchronises : forall ev evs f frames w x y z,
  serialize ev = Ok f -> Forall2 (fun ev f => serialize ev = Ok f) evs frames ->
  exists noise, (length noise <= 3)%nat
    /\ receive_all [w; x; y; z] (f ++ concat frames) = Ok (last frames f, noise ++ ev :: evs).
Proof.
  intros ev evs f frames w x y z Hf Hs. apply serialize_frame in Hf. rewrite receive_all_app, (receive_frame _ _ _ _ _ _ Hf).
  destruct (frame_shape _ _ Hf) as (a & b & c & -> & _).
  destruct (z =? 0); [exists []; cbn [bind]; rewrite (receive_frames _ _ Hs); split; [cbn; lia|reflexivity]|].
  destruct (receive_all [w; x; y; z] (firstn 3 [a; b; c; 0])) as [[b1 e1]| |] eqn:E.
  - exists e1. cbn [bind snd]. rewrite (receive_frames _ _ Hs). cbn [bind]. rewrite <- app_assoc. split; [|reflexivity].
    apply receive_all_length in E. rewrite firstn_length in E. lia.
  - exfalso. revert E. cbn [firstn]. rewrite !receive_all_cons. cbn [tl app].
    repeat (match goal with |- context [deserialize ?l] =>
      let o := fresh "o" in let E := fresh "E" in
      destruct (deserialize_total l) as [o E]; [reflexivity|]; rewrite E; clear E end). discriminate.
  - exfalso. revert E. cbn [firstn]. rewrite !receive_all_cons. cbn [tl app].
    repeat (match goal with |- context [deserialize ?l] =>
      let o := fresh "o" in let E := fresh "E" in
      destruct (deserialize_total l) as [o E]; [reflexivity|]; rewrite E; clear E end). discriminate.
Qed.
(** So the claim that every buffer content is harmless is false: here a stale
    buffer makes up the press of key 4 and the release of key 2. *)
Theorem C34_receive_any_buffer_refuted :
  serialize (Press 7) = Ok [1; 2; 7; 0]
  /\ receive_all [9; 1; 2; 4] [1; 2; 7; 0] = Ok ([1; 2; 7; 0], [Press 4; Release 2; Press 7]).
Proof. split; reflexivity. Qed.
(** Whatever bytes arrive, receiving never panics and only gives physical events. *)
Theorem C34_receive_physical : forall w x y z byte buf o,
  receive_byte [w; x; y; z] byte = (buf, o) ->
  length buf = BUFFER_SIZE /\ exists e, o = Ok e
  /\ (e = None \/ exists i, e = Some (Press i) \/ e = Some (Release i)).
Proof.
  intros w x y z byte buf o H. unfold receive_byte in H. cbn [tl app] in H. injection H as <- <-. split; [reflexivity|].
  destruct (deserialize_total [x; y; z; byte]) as [e E]; [reflexivity|]. exists e. split; [exact E|].
  destruct e as [ev|]; [right|now left]. destruct (deserialize_physical _ _ E) as (i & [->| ->]); eauto.
Qed.
Example C34_example :
  serialize (Press 4) = Ok [1; 2; 4; 0] /\ serialize (Release 0) = Ok [2; 1; 1; 0]
  /\ receive_all [0; 0; 0; 0] [1; 2; 4; 0; 3; 1; 4; 0; 1; 1; 1; 0]
     = Ok ([1; 1; 1; 0], [Press 4; Release 4; Press 0]).
Proof. repeat split; reflexivity. Qed.

(** ** C35 *)

(** A slice built from a list within its capacity gives back exactly that list
    (and reads nothing uninitialised). *)
Theorem C35_contents : forall T n (xs : list T),
  (length xs <= n)%nat -> exists s, slice_from n xs = Ok s /\ slice_as_slice s = Ok xs.
Proof. intros T n xs. apply slice_from_ok. Qed.
Theorem C35_over_capacity : forall T n (xs : list T), (n < length xs)%nat -> slice_from n xs = Panic.
Proof. intros T n xs. apply slice_from_panic. Qed.
(** Two slices are equal iff their contents are. *)
Theorem C35_equality : forall T (eqb : T -> T -> bool) n (xs ys : list T) s t,
  (forall x y, eqb x y = true <-> x = y) ->
  slice_from n xs = Ok s -> slice_from n ys = Ok t ->
  exists b, slice_eq eqb s t = Ok b /\ (b = true <-> xs = ys).
Proof.
  intros T eqb n xs ys s t He Hs Ht.
  assert (Hc : forall (zs : list T) u, slice_from n zs = Ok u -> slice_as_slice u = Ok zs).
  { intros zs u Hu. destruct (Nat.leb_spec (length zs) n) as [Hl|Hl].
    - destruct (slice_from_ok n zs Hl) as (u' & E & E'). congruence.
    - apply (slice_from_panic n zs) in Hl. congruence. }
  unfold slice_eq. rewrite (Hc _ _ Hs), (Hc _ _ Ht). cbn [bind]. eexists. split; [reflexivity|]. now apply list_eqb_spec.
Qed.
Example C35_example : returns (slice_from 5 [1; 2]) (fun s => slice_as_slice s = Ok [1; 2]) /\ slice_from 1 [1; 2] = Panic.
Proof. vm_compute. repeat split; reflexivity. Qed.

(** ** C36 *)

(** Physical events survive the trip to C and back; virtual ones cannot be
    converted to C. *)
Theorem C36_events : forall ev,
  match ev with
  | Press _ | Release _ => exists e, c_of_event ev = Ok e /\ event_of_c e = ev
  | _ => c_of_event ev = Panic
  end.
Proof. intros [i|i|ko|ko]; cbn; eauto. Qed.
Theorem C36_events_from_c : forall t v, t = CPress \/ t = CRelease ->
  c_of_event (event_of_c (mkCEvent t v)) = Ok (mkCEvent t v).
Proof. intros t v [-> | ->]; reflexivity. Qed.
(** A virtual event carries a plain key code, of which C keeps the low byte. *)
Theorem C36_virtual_from_c : forall v, v < 256 ->
  event_of_c (mkCEvent CVirtualPress v) = VirtualKeyPress (ko_from_key_code v)
  /\ event_of_c (mkCEvent CVirtualRelease v) = VirtualKeyRelease (ko_from_key_code v).
Proof. intros v H. unfold event_of_c. cbn. now rewrite N.mod_small. Qed.

(** The C report: the boot keyboard report, then the first six custom codes and
    the first four consumer codes, filled up with zeros, and the mouse output. *)
Theorem C36_report : forall kos,
  (length kos <= MAX_PRESSED_KEYS)%nat ->
  exists r, c_update kos = Ok r
  /\ cr_keyboard r = as_hid_boot_keyboard_report kos
  /\ cr_mouse r = pressed_mouse_output kos
  /\ length (cr_custom r) = 6%nat /\ length (cr_consumer r) = 4%nat
  /\ (forall j, (j < 6)%nat -> nth_error (cr_custom r) j = Some (nth j (custom_codes kos) 0))
  /\ (forall j, (j < 4)%nat -> nth_error (cr_consumer r) j = Some (nth j (consumer_codes kos) 0)).
Proof.
  intros kos H. unfold c_update. rewrite (pressed_custom_codes_complete _ H), (pressed_consumer_codes_complete _ H). cbn [bind].
  eexists. split; [reflexivity|]. cbn [cr_keyboard cr_mouse cr_custom cr_consumer].
  repeat split; try apply fill_prefix_length; intros; now apply fill_prefix_nth.
Qed.
(** Receiving bytes through the C interface never panics. *)
Theorem C36_receive_total : forall w x y z byte,
  exists buf o, keymap_message_buffer_receive_byte [w; x; y; z] byte = (buf, Ok o) /\ length buf = BUFFER_SIZE.
Proof.
  intros w x y z byte. unfold keymap_message_buffer_receive_byte.
  destruct (receive_byte [w; x; y; z] byte) as [buf r] eqn:E. apply C34_receive_physical in E as (Hl & e & -> & He).
  exists buf. destruct He as [->|(i & [->| ->])]; cbn; eauto.
Qed.
(** A physical event with index below 128 sent by one half through the C
    interface arrives unchanged at the other half, after its fourth byte. *)
Theorem C36_split_transport : forall t i w x y,
  (t = CPress \/ t = CRelease) -> i < 128 ->
  exists a b c d, keymap_serialize_event (mkCEvent t i) = Ok [a; b; c; d]
  /\ keymap_message_buffer_receive_byte [w; x; y; 0] a = ([x; y; 0; a], Ok None)
  /\ keymap_message_buffer_receive_byte [x; y; 0; a] b = ([y; 0; a; b], Ok None)
  /\ keymap_message_buffer_receive_byte [y; 0; a; b] c = ([0; a; b; c], Ok None)
  /\ keymap_message_buffer_receive_byte [0; a; b; c] d = ([a; b; c; d], Ok (Some (mkCEvent t i))).
Proof.
  intros t i w x y Ht Hi. assert (Hs : exists f, keymap_serialize_event (mkCEvent t i) = Ok f).
  { apply serialize_iff. exists i. split; [exact Hi|]. destruct Ht as [-> | ->]; cbn; auto. }
  destruct Hs as [f Hs]. unfold keymap_serialize_event in *. pose proof (serialize_frame _ _ Hs) as Hf.
  pose proof (frame_decodes _ _ Hf) as Hd. destruct (frame_shape _ _ Hf) as (a & b & c & -> & Ha & Hb & Hc).
  exists a, b, c, 0. split; [exact Hs|]. apply N.eqb_neq in Ha, Hb, Hc.
  unfold keymap_message_buffer_receive_byte, receive_byte. cbn [tl app].
  assert (Hd' : forall l, l = [a; b; c; 0] -> deserialize l = Ok (Some (event_of_c (mkCEvent t i)))) by (intros ? ->; exact Hd).
  match goal with |- context [deserialize ?l] => rewrite (Hd' l eq_refl) end.
  do 3 (match goal with |- context [deserialize ?l] =>
    rewrite (window_zero l); [|reflexivity|cbn; destruct (x =? 0), (y =? 0); cbn; lia] end).
  repeat split. destruct Ht as [-> | ->]; reflexivity.
Qed.
Example C36_example :
  returns (c_update [ko_from_key_code 4; ko_from_consumer_code 9; ko_from_custom_code 3; ko_from_key_code 225]) (fun r =>
    cr_keyboard r = [2; 0; 4; 0; 0; 0; 0; 0] /\ cr_custom r = [3; 0; 0; 0; 0; 0] /\ cr_consumer r = [9; 0; 0; 0]).
Proof. vm_compute. repeat split; reflexivity. Qed.

Print Assumptions C34_round_trip.
Print Assumptions C34_serialize_iff.
Print Assumptions C34_serialize_all_refuted.
Print Assumptions C34_receive_stream.
Print Assumptions C34_resynchronises.
Print Assumptions C34_receive_any_buffer_refuted.
Print Assumptions C34_receive_physical.
Print Assumptions C35_contents.
Print Assumptions C35_over_capacity.
Print Assumptions C35_equality.
Print Assumptions C36_events.
Print Assumptions C36_events_from_c.
Print Assumptions C36_virtual_from_c.
Print Assumptions C36_report.
Print Assumptions C36_receive_total.
Print Assumptions C36_split_transport.
