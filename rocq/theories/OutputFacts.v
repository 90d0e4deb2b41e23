(** Proofs about key outputs and reports (C01-C05). *)
From Verif Require Import BaseFacts Output SpecOutput SimpleKeys.
Local Open Scope N_scope.

(** ** Modifier bytes *)
Lemma land_low m c : c < 256 -> N.land m c = N.land (m mod 256) c.
Proof.
  intros Hc. apply N.bits_inj. intros n. rewrite !N.land_spec.
  change 256 with (2 ^ 8). destruct (N.lt_ge_cases n 8) as [H|H].
  - now rewrite N.mod_pow2_bits_low.
  - assert (N.testbit c n = false) as ->; [|now rewrite !andb_false_r].
    destruct (N.eq_dec c 0) as [->|Hz]; [apply N.bits_0|].
    apply N.bits_above_log2. apply N.lt_le_trans with 8; [|exact H].
    apply N.log2_lt_pow2; [lia|exact Hc].
Qed.

Lemma as_key_codes_low m : as_key_codes m = as_key_codes (m mod 256).
Proof.
  unfold as_key_codes.
  rewrite !(land_low m) by (cbv; reflexivity). reflexivity.
Qed.

Lemma as_byte_sweep : forall b, b < 256 -> as_byte b = b.
Proof.
  intros b Hb. apply N.eqb_eq. revert b Hb.
  apply (forall_byte (fun b => as_byte b =? b)). vm_compute. reflexivity.
Qed.

Lemma as_byte_mod m : as_byte m = m mod 256.
Proof.
  unfold as_byte. rewrite as_key_codes_low. apply (as_byte_sweep (m mod 256)).
  apply N.mod_lt. discriminate.
Qed.

Lemma as_byte_lt m : as_byte m < 256.
Proof. rewrite as_byte_mod. apply N.mod_lt. discriminate. Qed.

Lemma as_byte_testbit m k : k < 8 -> N.testbit (as_byte m) k = N.testbit m k.
Proof. intros H. rewrite as_byte_mod. change 256 with (2 ^ 8). now apply N.mod_pow2_bits_low. Qed.

Lemma as_key_codes_spec m :
  as_key_codes m = map (fun k => 0xE0 + k) (filter (N.testbit m) [0;1;2;3;4;5;6;7]).
Proof.
  rewrite as_key_codes_low.
  assert (Hm : m mod 256 < 256) by (apply N.mod_lt; discriminate).
  assert (E : as_key_codes (m mod 256)
    = map (fun k => 0xE0 + k) (filter (N.testbit (m mod 256)) [0;1;2;3;4;5;6;7])).
  { assert (E : (if list_eq_dec N.eq_dec (as_key_codes (m mod 256))
      (map (fun k => 0xE0 + k) (filter (N.testbit (m mod 256)) [0;1;2;3;4;5;6;7])) then true else false) = true).
    { apply (forall_byte (fun b => if list_eq_dec N.eq_dec (as_key_codes b)
      (map (fun k => 0xE0 + k) (filter (N.testbit b) [0;1;2;3;4;5;6;7])) then true else false)); [|exact Hm].
      vm_compute. reflexivity. }
    destruct (list_eq_dec N.eq_dec _ _); [assumption|discriminate]. }
  rewrite E. f_equal.
  apply filter_ext_in. intros k Hk. change 256 with (2 ^ 8).
  apply N.mod_pow2_bits_low. cbn in Hk. lia.
Qed.

Lemma as_key_codes_length m : (length (as_key_codes m) <= 8)%nat.
Proof.
  rewrite as_key_codes_spec, map_length. 
  transitivity (length [0;1;2;3;4;5;6;7]); [|cbn; lia]. 
  generalize [0;1;2;3;4;5;6;7]. intros l. induction l as [|a l IH]; cbn; [lia|].
  destruct (N.testbit m a); cbn; lia.
Qed.

(** ** Union of the modifiers of a list of outputs *)
Lemma union_mods_acc kos acc k :
  N.testbit (fold_left (fun a ko => mods_union a (ko_mods ko)) kos acc) k
  = N.testbit acc k || existsb (fun ko => N.testbit (ko_mods ko) k) kos.
Proof.
  revert acc. induction kos as [|ko kos IH]; intros acc; cbn.
  - now rewrite orb_false_r.
  - rewrite IH. unfold mods_union. rewrite N.lor_spec. now rewrite orb_assoc.
Qed.
Lemma union_mods_testbit kos k :
  N.testbit (union_mods kos) k = existsb (fun ko => N.testbit (ko_mods ko) k) kos.
Proof. unfold union_mods. rewrite union_mods_acc. unfold mods_new. now rewrite N.bits_0. Qed.

Lemma existsb_held kos k :
  existsb (fun ko => N.testbit (ko_mods ko) k) kos = true <-> modifier_held kos k.
Proof. rewrite existsb_exists. reflexivity. Qed.

(** ** Code lists *)
Lemma keyboard_codes_eq kos : filter_map keyboard_code kos = keyboard_codes kos.
Proof.
  induction kos as [|[[] m] kos IH]; cbn; try rewrite IH; reflexivity.
Qed.
Lemma consumer_codes_eq kos : filter_map consumer_code kos = consumer_codes kos.
Proof.
  induction kos as [|[[] m] kos IH]; cbn; try rewrite IH; reflexivity.
Qed.
Lemma custom_codes_eq kos : filter_map custom_code kos = custom_codes kos.
Proof.
  induction kos as [|[[] m] kos IH]; cbn; try rewrite IH; reflexivity.
Qed.
Lemma mouse_outputs_eq kos : filter_map mouse_usage kos = mouse_outputs kos.
Proof.
  induction kos as [|[[] m] kos IH]; cbn; try rewrite IH; reflexivity.
Qed.
Lemma key_slots_eq kos :
  filter (fun kc => negb (kc =? 0)) (filter_map keyboard_code kos) = key_slots kos.
Proof.
  induction kos as [|[[kc|uc|cc|mo] m] kos IH]; cbn; try exact IH; try reflexivity.
  destruct (kc =? 0); cbn; now rewrite IH.
Qed.

Lemma fill6_nth n l s : (s < n)%nat -> nth s (fill6 n l) 0 = nth s l 0.
Proof.
  revert l s. induction n as [|n IH]; intros l s H; [lia|].
  destruct l as [|c l], s; cbn; try reflexivity.
  - rewrite IH by lia. now destruct s.
  - apply IH; lia.
Qed.
Lemma fill6_length n l : length (fill6 n l) = n.
Proof. revert l. induction n; intros []; cbn; auto. Qed.
Lemma fill6_firstn n l : fill6 n l = firstn n l ++ repeat 0 (n - length l).
Proof.
  revert l. induction n as [|n IH]; intros [|c l]; cbn; try reflexivity.
  - rewrite IH. cbn. rewrite firstn_nil. now rewrite Nat.sub_0_r.
  - now rewrite IH.
Qed.

(** ** C01 *)
Lemma boot_report_layout kos :
  let r := as_hid_boot_keyboard_report kos in
  length r = 8%nat
  /\ nth 0 r 0 < 256
  /\ (forall k, k < 8 -> (N.testbit (nth 0 r 0) k = true <-> modifier_held kos k))
  /\ nth 1 r 0 = 0
  /\ (forall s, (s < 6)%nat -> nth (2 + s) r 0 = nth s (key_slots kos) 0).
Proof.
  cbv zeta. unfold as_hid_boot_keyboard_report. repeat split.
  - cbn [length]. now rewrite fill6_length.
  - cbn [nth]. apply as_byte_lt.
  - cbn [nth]. rewrite as_byte_testbit by assumption. rewrite union_mods_testbit. apply existsb_held.
  - cbn [nth]. rewrite as_byte_testbit by assumption. rewrite union_mods_testbit. apply existsb_held.
  - intros s Hs. cbn [nth Nat.add]. rewrite fill6_nth by assumption. now rewrite key_slots_eq.
Qed.

Lemma boot_report_exact kos :
  as_hid_boot_keyboard_report kos
  = nth 0 (as_hid_boot_keyboard_report kos) 0 :: 0
    :: firstn 6 (key_slots kos) ++ repeat 0 (6 - length (key_slots kos)).
Proof.
  unfold as_hid_boot_keyboard_report at 1. rewrite key_slots_eq, fill6_firstn. reflexivity.
Qed.

(** ** C02 *)
Lemma from_key_code_modifier k : k < 8 ->
  ko_from_key_code (0xE0 + k) = mkKO (Keyboard 0) (2 ^ k).
Proof.
  intros H.
  assert (Hc : k = 0 \/ k = 1 \/ k = 2 \/ k = 3 \/ k = 4 \/ k = 5 \/ k = 6 \/ k = 7) by lia.
  destruct Hc as [->|[->|[->|[->|[->|[->|[->| ->]]]]]]]; reflexivity.
Qed.

Lemma mods_from_key_code_none c : (c < 0xE0 \/ 0xE7 < c) -> mods_from_key_code c = None.
Proof.
  intros H. unfold mods_from_key_code.
  repeat match goal with |- context [?a =? ?b] => destruct (N.eqb_spec a b); [lia|] end.
  reflexivity.
Qed.

Lemma mods_from_key_code_some c m :
  mods_from_key_code c = Some m -> 0xE0 <= c <= 0xE7.
Proof.
  intros H. destruct (N.lt_ge_cases c 0xE0) as [Hl|Hl].
  - rewrite mods_from_key_code_none in H by lia. discriminate.
  - destruct (N.lt_ge_cases 0xE7 c) as [Hr|Hr]; [|lia].
    rewrite mods_from_key_code_none in H by lia. discriminate.
Qed.

Lemma mods_from_key_code_is c :
  0xE0 <= c <= 0xE7 -> exists m, mods_from_key_code c = Some m.
Proof.
  intros H. unfold mods_from_key_code.
  repeat match goal with |- context [?a =? ?b] => destruct (N.eqb_spec a b); [eauto|] end.
  lia.
Qed.

Lemma from_key_code_plain c : (c < 0xE0 \/ 0xE7 < c) ->
  ko_from_key_code c = mkKO (Keyboard c) 0.
Proof. intros H. unfold ko_from_key_code. now rewrite mods_from_key_code_none. Qed.

Lemma union_testbit a b k :
  N.testbit (mods_union a b) k = N.testbit a k || N.testbit b k.
Proof. apply N.lor_spec. Qed.

Lemma constructed_no_modifier ko c :
  constructed ko -> ko_usage ko = Keyboard c -> c < 0xE0 \/ 0xE7 < c.
Proof.
  assert (Hk : forall c c', ko_usage (ko_from_key_code c') = Keyboard c -> c < 0xE0 \/ 0xE7 < c).
  { intros d c' H. unfold ko_from_key_code in H. destruct (mods_from_key_code c') eqn:E; cbn in H.
    - injection H; intros; subst. left; reflexivity.
    - injection H; intros; subst.
      destruct (N.lt_ge_cases d 0xE0); [auto|]. destruct (N.lt_ge_cases 0xE7 d); [auto|].
      destruct (mods_from_key_code_is d) as [m Hm]; [lia|congruence]. }
  intros H E. destruct H; cbn in E; try discriminate; eauto.
  - injection E; intros; subst. left; reflexivity.
  - destruct u; cbn in E; try discriminate; eauto.
  - destruct u; cbn in E; try discriminate.
    destruct (mods_from_key_code kc) eqn:Em; cbn in E; injection E; intros; subst.
    + left; reflexivity.
    + destruct (N.lt_ge_cases c 0xE0); [auto|]. destruct (N.lt_ge_cases 0xE7 c); [auto|].
      destruct (mods_from_key_code_is c) as [m' Hm]; [lia|congruence].
Qed.

Lemma key_slots_In kos c :
  In c (key_slots kos) -> exists ko, In ko kos /\ ko_usage ko = Keyboard c.
Proof.
  rewrite <- key_slots_eq. rewrite filter_In, filter_map_In. intros [[ko [H E]] _].
  exists ko. split; [exact H|]. unfold keyboard_code in E. destruct (ko_usage ko); congruence.
Qed.

Lemma no_modifier_in_slots kos s :
  Forall constructed kos -> (s < 6)%nat ->
  let c := nth (2 + s) (as_hid_boot_keyboard_report kos) 0 in c < 0xE0 \/ 0xE7 < c.
Proof.
  intros Hf Hs. cbv zeta. destruct (boot_report_layout kos) as (_ & _ & _ & _ & H).
  rewrite H by exact Hs. clear H.
  destruct (Nat.lt_ge_cases s (length (key_slots kos))) as [Hl|Hl].
  - apply nth_In with (d := 0) in Hl. apply key_slots_In in Hl as [ko [Hi E]].
    rewrite Forall_forall in Hf. eapply constructed_no_modifier; eauto.
  - rewrite nth_overflow by exact Hl. left; reflexivity.
Qed.

(** ** C03 *)
Lemma pressed_key_codes_complete kos :
  (length kos <= MAX_PRESSED_KEYS)%nat ->
  pressed_key_codes kos = Ok (held_modifier_codes kos ++ keyboard_codes kos).
Proof.
  intros H. unfold pressed_key_codes.
  assert (Hm : as_key_codes (union_mods kos) = held_modifier_codes kos).
  { rewrite as_key_codes_spec. unfold held_modifier_codes. f_equal. apply filter_ext.
    intros k. apply union_mods_testbit. }
  pose proof (as_key_codes_length (union_mods kos)) as Hl.
  rewrite push_all_cap_total by (cbn; lia). cbn [bind app].
  rewrite push_all_cap_total, keyboard_codes_eq, Hm; [reflexivity|].
  pose proof (filter_map_length keyboard_code kos). unfold MAX_PRESSED_KEYS in H. lia.
Qed.

Lemma pressed_consumer_codes_complete kos :
  (length kos <= MAX_PRESSED_KEYS)%nat -> pressed_consumer_codes kos = Ok (consumer_codes kos).
Proof.
  intros H. unfold pressed_consumer_codes. rewrite push_all_cap_total, consumer_codes_eq; [reflexivity|].
  pose proof (filter_map_length consumer_code kos). unfold MAX_PRESSED_KEYS in H. cbn. lia.
Qed.
Lemma pressed_custom_codes_complete kos :
  (length kos <= MAX_PRESSED_KEYS)%nat -> pressed_custom_codes kos = Ok (custom_codes kos).
Proof.
  intros H. unfold pressed_custom_codes. rewrite push_all_cap_total, custom_codes_eq; [reflexivity|].
  pose proof (filter_map_length custom_code kos). unfold MAX_PRESSED_KEYS in H. cbn. lia.
Qed.

(** ** C04 *)
Lemma has_modifiers_any a b :
  has_modifiers a b = true <-> exists k, N.testbit a k = true /\ N.testbit b k = true.
Proof.
  unfold has_modifiers. split.
  - intros H. apply negb_true_iff, N.eqb_neq in H.
    exists (N.log2 (N.land a b)). pose proof (N.bit_log2 _ H) as E.
    rewrite N.land_spec in E. now apply andb_true_iff in E.
  - intros [k [Ha Hb]]. apply negb_true_iff, N.eqb_neq. intros E.
    assert (N.testbit (N.land a b) k = false) by (rewrite E; apply N.bits_0).
    rewrite N.land_spec, Ha, Hb in H. discriminate.
Qed.

Lemma has_modifiers_all_implies a b :
  b <> 0 -> (forall k, N.testbit b k = true -> N.testbit a k = true) -> has_modifiers a b = true.
Proof.
  intros Hb H. apply has_modifiers_any. exists (N.log2 b).
  pose proof (N.bit_log2 _ Hb). auto.
Qed.

(** ** C05 *)
Lemma mouse_combine_comm a b : mouse_combine a b = mouse_combine b a.
Proof. unfold mouse_combine, i8_sat_add. f_equal; try apply N.lor_comm; rewrite Z.add_comm; reflexivity. Qed.

Lemma i8_sat_add_id z : (-128 <= z <= 127)%Z -> i8_sat_add 0 z = z.
Proof. intros H. unfold i8_sat_add. destruct (Z.ltb_spec 127 (0 + z)); [lia|].
  destruct (Z.ltb_spec (0 + z) (-128)); lia. Qed.

Lemma mouse_combine_id m : mouse_i8 m -> mouse_combine mouse_none m = m.
Proof.
  intros (Hx & Hy & Hv & Hh). destruct m as [b x y v h]. unfold mouse_combine, mouse_none. cbn in *.
  rewrite !i8_sat_add_id by assumption. f_equal.
Qed.

Lemma i8_sat_add_range a b : (-128 <= i8_sat_add a b <= 127)%Z.
Proof. unfold i8_sat_add. destruct (Z.ltb_spec 127 (a + b)); [lia|].
  destruct (Z.ltb_spec (a + b) (-128)); lia. Qed.

Lemma mouse_combine_i8 a b : mouse_i8 (mouse_combine a b).
Proof. repeat split; cbn; apply i8_sat_add_range. Qed.

Lemma zsum_cons f m ms : zsum f (m :: ms) = (f m + zsum f ms)%Z.
Proof. reflexivity. Qed.
Lemma zsum_abs_cons f m ms : zsum_abs f (m :: ms) = (Z.abs (f m) + zsum_abs f ms)%Z.
Proof. reflexivity. Qed.
Lemma zsum_abs_nonneg f ms : (0 <= zsum_abs f ms)%Z.
Proof. induction ms as [|m ms IH]; [reflexivity|]. rewrite zsum_abs_cons. lia. Qed.

(** The axis [f] of a fold of [combine] is the exact sum when it cannot saturate. *)
Section Axis.
Variable f : mouse_output -> Z.
Hypothesis f_combine : forall a b, f (mouse_combine a b) = i8_sat_add (f a) (f b).
Lemma axis_sum ms acc :
  (Z.abs (f acc) + zsum_abs f ms <= 127)%Z ->
  f (fold_left mouse_combine ms acc) = (f acc + zsum f ms)%Z.
Proof.
  revert acc. induction ms as [|m ms IH]; intros acc H; [cbn in *; lia|].
  rewrite zsum_abs_cons in H. rewrite zsum_cons. cbn [fold_left].
  pose proof (zsum_abs_nonneg f ms) as Hp.
  assert (E : f (mouse_combine acc m) = (f acc + f m)%Z).
  { rewrite f_combine. unfold i8_sat_add.
    destruct (Z.ltb_spec 127 (f acc + f m)); [lia|].
    destruct (Z.ltb_spec (f acc + f m) (-128)); lia. }
  rewrite IH by (rewrite E; lia). rewrite E. lia.
Qed.
End Axis.

Lemma buttons_fold ms acc k :
  N.testbit (mo_buttons (fold_left mouse_combine ms acc)) k
  = N.testbit (mo_buttons acc) k || existsb (fun m => N.testbit (mo_buttons m) k) ms.
Proof.
  revert acc. induction ms as [|m ms IH]; intros acc; cbn.
  - now rewrite orb_false_r.
  - rewrite IH. cbn. rewrite N.lor_spec. now rewrite orb_assoc.
Qed.

Lemma pressed_mouse_exact kos :
  let ms := mouse_outputs kos in
  (zsum_abs mo_x ms <= 127)%Z -> (zsum_abs mo_y ms <= 127)%Z ->
  (zsum_abs mo_vscroll ms <= 127)%Z -> (zsum_abs mo_hscroll ms <= 127)%Z ->
  let r := pressed_mouse_output kos in
  mo_x r = zsum mo_x ms /\ mo_y r = zsum mo_y ms
  /\ mo_vscroll r = zsum mo_vscroll ms /\ mo_hscroll r = zsum mo_hscroll ms.
Proof.
  cbv zeta. intros Hx Hy Hv Hh. unfold pressed_mouse_output. rewrite mouse_outputs_eq.
  repeat split; rewrite axis_sum; cbn [mouse_none mo_x mo_y mo_vscroll mo_hscroll]; try reflexivity; cbn; lia.
Qed.

Lemma pressed_mouse_buttons kos k :
  N.testbit (mo_buttons (pressed_mouse_output kos)) k = true
  <-> exists m, In m (mouse_outputs kos) /\ N.testbit (mo_buttons m) k = true.
Proof.
  unfold pressed_mouse_output. rewrite buttons_fold, mouse_outputs_eq. cbn [mouse_none mo_buttons].
  rewrite N.bits_0. cbn [orb]. apply existsb_exists.
Qed.

Lemma mouse_key_axes ko m :
  mouse_key_out ko -> ko_usage ko = Mouse m ->
  (Z.abs (mo_x m) <= 5 /\ Z.abs (mo_y m) <= 5 /\ Z.abs (mo_vscroll m) <= 5 /\ Z.abs (mo_hscroll m) <= 5)%Z.
Proof.
  intros [r H] E. destruct r; cbn in H;
    try (injection H; intros; subst; cbn in E; injection E; intros; subst; cbn; lia).
  destruct (_ || _); [discriminate|].
  injection H; intros; subst; cbn in E; injection E; intros; subst; cbn; lia.
Qed.

Lemma zsum_abs_bound f ms (b : Z) :
  (0 <= b)%Z -> Forall (fun m => (Z.abs (f m) <= b)%Z) ms ->
  (zsum_abs f ms <= b * Z.of_nat (length ms))%Z.
Proof. intros Hb. induction 1 as [|m ms Hm H IH]; [cbn; lia|]. rewrite zsum_abs_cons. cbn [length]. lia. Qed.

Lemma mouse_outputs_length kos : (length (mouse_outputs kos) <= length kos)%nat.
Proof. rewrite <- mouse_outputs_eq. apply filter_map_length. Qed.

Lemma mouse_outputs_In kos m :
  In m (mouse_outputs kos) <-> exists ko, In ko kos /\ ko_usage ko = Mouse m.
Proof.
  rewrite <- mouse_outputs_eq, filter_map_In. unfold mouse_usage.
  split; intros [ko [H E]]; exists ko; split; auto; destruct (ko_usage ko); congruence.
Qed.

Lemma mouse_keys_no_saturation kos :
  (length kos <= MAX_PRESSED_KEYS)%nat -> mouse_only_from_keys kos ->
  let ms := mouse_outputs kos in
  (zsum_abs mo_x ms <= 127 /\ zsum_abs mo_y ms <= 127
   /\ zsum_abs mo_vscroll ms <= 127 /\ zsum_abs mo_hscroll ms <= 127)%Z.
Proof.
  intros Hl Hk. cbv zeta.
  assert (Hm : forall m, In m (mouse_outputs kos) ->
    (Z.abs (mo_x m) <= 5 /\ Z.abs (mo_y m) <= 5 /\ Z.abs (mo_vscroll m) <= 5 /\ Z.abs (mo_hscroll m) <= 5)%Z).
  { intros m Hm. apply mouse_outputs_In in Hm as [ko [Hi E]]. eapply mouse_key_axes; eauto. }
  pose proof (mouse_outputs_length kos) as Hn. unfold MAX_PRESSED_KEYS in Hl.
  repeat split.
  - pose proof (zsum_abs_bound mo_x (mouse_outputs kos) 5 ltac:(lia)
      ltac:(apply Forall_forall; intros m Hi; apply Hm in Hi; tauto)). lia.
  - pose proof (zsum_abs_bound mo_y (mouse_outputs kos) 5 ltac:(lia)
      ltac:(apply Forall_forall; intros m Hi; apply Hm in Hi; tauto)). lia.
  - pose proof (zsum_abs_bound mo_vscroll (mouse_outputs kos) 5 ltac:(lia)
      ltac:(apply Forall_forall; intros m Hi; apply Hm in Hi; tauto)). lia.
  - pose proof (zsum_abs_bound mo_hscroll (mouse_outputs kos) 5 ltac:(lia)
      ltac:(apply Forall_forall; intros m Hi; apply Hm in Hi; tauto)). lia.
Qed.

Lemma mouse_keys_exact kos :
  (length kos <= MAX_PRESSED_KEYS)%nat -> mouse_only_from_keys kos ->
  let ms := mouse_outputs kos in let r := pressed_mouse_output kos in
  mo_x r = zsum mo_x ms /\ mo_y r = zsum mo_y ms
  /\ mo_vscroll r = zsum mo_vscroll ms /\ mo_hscroll r = zsum mo_hscroll ms.
Proof.
  intros Hl Hk. destruct (mouse_keys_no_saturation kos Hl Hk) as (? & ? & ? & ?).
  now apply pressed_mouse_exact.
Qed.

Lemma zsum_perm f ms ms' : Permutation ms ms' -> zsum f ms = zsum f ms'.
Proof. induction 1; rewrite ?zsum_cons; try reflexivity; lia. Qed.

Lemma mouse_outputs_perm kos kos' :
  Permutation kos kos' -> Permutation (mouse_outputs kos) (mouse_outputs kos').
Proof.
  induction 1 as [|[u m] l l' H IH|[u m] [u' m'] l|]; cbn.
  - constructor.
  - destruct u; auto.
  - destruct u, u'; auto. constructor.
  - etransitivity; eauto.
Qed.

Lemma mouse_keys_order_independent kos kos' :
  (length kos <= MAX_PRESSED_KEYS)%nat -> mouse_only_from_keys kos -> Permutation kos kos' ->
  pressed_mouse_output kos = pressed_mouse_output kos'.
Proof.
  intros Hl Hk HP.
  assert (Hl' : (length kos' <= MAX_PRESSED_KEYS)%nat) by (rewrite <- (Permutation_length HP); exact Hl).
  assert (Hk' : mouse_only_from_keys kos').
  { intros ko m Hi. apply Hk. eapply Permutation_in; [symmetry; exact HP|exact Hi]. }
  destruct (mouse_keys_exact _ Hl Hk) as (Hx & Hy & Hv & Hh).
  destruct (mouse_keys_exact _ Hl' Hk') as (Hx' & Hy' & Hv' & Hh').
  pose proof (mouse_outputs_perm _ _ HP) as HPm.
  assert (Hb : mo_buttons (pressed_mouse_output kos) = mo_buttons (pressed_mouse_output kos')).
  { apply N.bits_inj. intros k. apply eq_true_iff_eq. rewrite !pressed_mouse_buttons.
    split; intros [m [Hm Hb]]; exists m; split; auto; (eapply Permutation_in; [|exact Hm]);
      [exact HPm|symmetry; exact HPm]. }
  rewrite (zsum_perm mo_x _ _ HPm), <- Hx' in Hx. rewrite (zsum_perm mo_y _ _ HPm), <- Hy' in Hy.
  rewrite (zsum_perm mo_vscroll _ _ HPm), <- Hv' in Hv. rewrite (zsum_perm mo_hscroll _ _ HPm), <- Hh' in Hh.
  destruct (pressed_mouse_output kos), (pressed_mouse_output kos'); cbn in *; congruence.
Qed.

Lemma is_modifier_key_code_spec c :
  (is_modifier_key_code c = true <-> exists k, k < 8 /\ c = 0xE0 + k)
  /\ (is_modifier_key_code c = true <-> mods_from_key_code c <> None).
Proof.
  assert (H : is_modifier_key_code c = true <-> exists k, k < 8 /\ c = 0xE0 + k).
  { unfold is_modifier_key_code. rewrite andb_true_iff, !N.leb_le. split.
    - intros H. exists (c - 0xE0). lia.
    - intros (k & Hk & ->). lia. }
  split; [exact H|]. rewrite H. unfold mods_from_key_code. split.
  - intros (k & Hk & ->). assert (Hc : k = 0 \/ k = 1 \/ k = 2 \/ k = 3 \/ k = 4 \/ k = 5 \/ k = 6 \/ k = 7) by lia.
    destruct Hc as [->|[->|[->|[->|[->|[->|[->| ->]]]]]]]; cbn; discriminate.
  - intros Hn. assert (Hc : ~ (c < 0xE0 \/ 0xE7 < c) -> exists k, k < 8 /\ c = 0xE0 + k) by (intros X; exists (c - 0xE0); lia).
    apply Hc. intros X. apply Hn.
    repeat match goal with |- context [?a =? ?b] => destruct (N.eqb_spec a b); [lia|] end. reflexivity.
Qed.

Lemma with_modifiers_spec c m :
  (forall k, k < 8 -> c = 0xE0 + k ->
     ko_usage (ko_from_key_code_with_modifiers c m) = Keyboard 0
     /\ forall b, N.testbit (ko_mods (ko_from_key_code_with_modifiers c m)) b = (b =? k) || N.testbit m b)
  /\ ((c < 0xE0 \/ 0xE7 < c) -> ko_from_key_code_with_modifiers c m = mkKO (Keyboard c) m)
  /\ ko_from_usage_with_modifiers (Keyboard c) m = ko_from_key_code_with_modifiers c m.
Proof.
  split; [|split].
  - intros k Hk ->. unfold ko_from_key_code_with_modifiers. rewrite from_key_code_modifier by exact Hk. split; [reflexivity|].
    intros b. cbn [ko_mods]. rewrite union_testbit, N.pow2_bits_eqb. now rewrite (N.eqb_sym k b).
  - intros H. unfold ko_from_key_code_with_modifiers. rewrite from_key_code_plain by exact H. reflexivity.
  - unfold ko_from_usage_with_modifiers, ko_from_key_code_with_modifiers, ko_from_key_code. destruct (mods_from_key_code c); reflexivity.
Qed.
