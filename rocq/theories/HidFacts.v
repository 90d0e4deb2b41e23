(** Proofs for C75. *)
From Verif Require Import Base BaseFacts Output OutputFacts Types Split Scheduler Keymap CApi CReport SpecCReport CUsb CBleMap SpecHid SpecOutput.
Import List.
Local Open Scope N_scope.

(** *** Bytes as bits *)
Definition eight (b : u8) : list bool := map (N.testbit b) [0; 1; 2; 3; 4; 5; 6; 7].
Lemma bits_cons b t : bits_of (b :: t) = eight b ++ bits_of t.
Proof. reflexivity. Qed.
Lemma eight_length b : length (eight b) = 8%nat.
Proof. reflexivity. Qed.
Lemma value_eight b : b < 256 -> value (eight b) = b.
Proof. intros H. apply N.eqb_eq. revert b H. apply (forall_byte (fun b => value (eight b) =? b)). vm_compute. reflexivity. Qed.
Lemma first_eight b l : firstn 8 (eight b ++ l) = eight b.
Proof. reflexivity. Qed.
Lemma skip_eight b l : skipn 8 (eight b ++ l) = l.
Proof. reflexivity. Qed.
Lemma value_app a b : value (a ++ b) = value a + 2 ^ N.of_nat (length a) * value b.
Proof.
  induction a as [|x a IH]; [cbn [app value length]; change (2 ^ N.of_nat 0) with 1; lia|]. cbn [app value length]. rewrite IH, Nnat.Nat2N.inj_succ, N.pow_succ_r'. lia.
Qed.

(** *** Elements *)
Definition one (page u : N) : list (N * N * Z) := [(page, u, 1%Z)].
(** A byte of an array whose logical minimum and usage minimum are 0. *)
Definition selects (page : N) (lmax : Z) (umax : N) (b : u8) : list (N * N * Z) :=
  if (lmax <? Z.of_N b)%Z then [] else if b <=? umax then one page b else [].
Lemma array_bytes f umax bytes : forall i n, f_size f = 8 -> f_constant f = false -> f_variable f = false -> f_min f = 0%Z -> f_range f = Some (0, umax) ->
  n = length bytes -> Forall (fun b => b < 256) bytes -> elements f n i (bits_of bytes) = flat_map (selects (f_page f) (f_max f) umax) bytes.
Proof.
  induction bytes as [|b bytes IH]; intros i n Hs Hc Hv Hm Hr -> Hb; [reflexivity|]. inversion Hb; subst. cbn [length elements flat_map]. rewrite bits_cons.
  f_equal; [|rewrite Hs; change (N.to_nat 8) with 8%nat; rewrite skip_eight; now apply IH].
  unfold element. rewrite Hs, Hc, Hv, Hm. change (N.to_nat 8) with 8%nat. rewrite first_eight, value_eight by assumption. change (0 <? 0)%Z with false. cbn [orb].
  destruct (Z.ltb_spec (Z.of_N b) 0); [lia|]. cbn [orb]. unfold selects. destruct (f_max f <? Z.of_N b)%Z; [reflexivity|]. unfold usage_at. rewrite Hr.
  replace (0 + Z.to_N (Z.of_N b - 0)) with b by lia. now destruct (b <=? umax).
Qed.
Definition bit_value (b : bool) : Z := if b then 1%Z else 0%Z.
Lemma bit_element f i b l u : f_size f = 1 -> f_constant f = false -> f_variable f = true -> f_min f = 0%Z -> f_max f = 1%Z -> usage_at f i = Some u ->
  element f i (b :: l) = [(f_page f, u, bit_value b)].
Proof. intros Hs Hc Hv Hm HM Hu. unfold element. rewrite Hs, Hc, Hv, Hm, HM, Hu. destruct b; reflexivity. Qed.
Fixpoint bit_list (page u : N) (bits : list bool) : list (N * N * Z) :=
  match bits with [] => [] | b :: t => (page, u, bit_value b) :: bit_list page (u + 1) t end.
Lemma bit_elements f bits : forall n i l a b, f_size f = 1 -> f_constant f = false -> f_variable f = true -> f_min f = 0%Z -> f_max f = 1%Z -> f_range f = Some (a, b) ->
  n = length bits -> a + i + N.of_nat n <= b + 1 -> elements f n i (bits ++ l) = bit_list (f_page f) (a + i) bits.
Proof.
  induction bits as [|x bits IH]; intros n i l a b Hs Hc Hv Hm HM Hr -> Hl; [reflexivity|]. cbn [length elements app bit_list].
  rewrite (bit_element f i x (bits ++ l) (a + i)); auto; [|unfold usage_at; rewrite Hr; destruct (N.leb_spec (a + i) b); [reflexivity|cbn in Hl; lia]].
  cbn [app]. f_equal. rewrite Hs. change (skipn (N.to_nat 1) (x :: bits ++ l)) with (bits ++ l).
  rewrite (IH (length bits) (i + 1) l a b) by (auto; cbn in Hl; lia). f_equal. lia.
Qed.
Lemma in_bit_list page bits : forall u0 p u v, In (p, u, v) (bit_list page u0 bits) <->
  p = page /\ u0 <= u < u0 + N.of_nat (length bits) /\ v = bit_value (nth (N.to_nat (u - u0)) bits false).
Proof.
  induction bits as [|x bits IH]; intros u0 p u v; cbn [bit_list In length]; [split; [tauto|lia]|]. rewrite IH. split.
  - intros [E|(-> & L & ->)]; [injection E as <- <- <-|].
    + split; [reflexivity|]. split; [lia|]. now rewrite N.sub_diag.
    + split; [reflexivity|]. split; [lia|]. replace (N.to_nat (u - u0)) with (S (N.to_nat (u - (u0 + 1)))) by lia. reflexivity.
  - intros (-> & L & ->). destruct (N.eq_dec u u0) as [->|Hn]; [left; now rewrite N.sub_diag|right].
    split; [reflexivity|]. split; [lia|]. replace (N.to_nat (u - u0)) with (S (N.to_nat (u - (u0 + 1)))) by lia. reflexivity.
Qed.
Lemma nth_eight b i : i < 8 -> nth (N.to_nat i) (eight b) false = N.testbit b i.
Proof.
  intros H. assert (X : i = 0 \/ i = 1 \/ i = 2 \/ i = 3 \/ i = 4 \/ i = 5 \/ i = 6 \/ i = 7) by lia.
  repeat (destruct X as [->|X]; [reflexivity|]). subst i. reflexivity.
Qed.
Lemma bit_value_down b : bit_value b <> 0%Z <-> b = true.
Proof. destruct b; cbn; split; congruence. Qed.

(** *** Signed bytes *)
Lemma signed_i8 z : (-128 <= z <= 127)%Z -> signed 8 (i8_byte z) = z.
Proof.
  intros H. unfold signed, i8_byte. change (0 <? 8) with true. change (2 ^ (8 - 1)) with 128. change (2 ^ 8) with 256. cbn [andb].
  destruct (Z.leb_spec 0 z) as [P|P].
  - rewrite Z.mod_small by lia. destruct (N.leb_spec 128 (Z.to_N z)); lia.
  - replace (z mod 256)%Z with (z + 256)%Z by (rewrite <- (Z.mod_add z 1 256), Z.mod_small; lia). destruct (N.leb_spec 128 (Z.to_N (z + 256))); lia.
Qed.
Lemma i8_small z : i8_byte z < 256.
Proof. unfold i8_byte. pose proof (Z.mod_pos_bound z 256). lia. Qed.
Definition axis (page u : N) (z : Z) : list (N * N * Z) := if (z <? -127)%Z then [] else [(page, u, z)].
Lemma axis_element f i z l u : f_size f = 8 -> f_constant f = false -> f_variable f = true -> f_min f = (-127)%Z -> f_max f = 127%Z -> usage_at f i = Some u -> (-128 <= z <= 127)%Z ->
  element f i (eight (i8_byte z) ++ l) = axis (f_page f) u z.
Proof.
  intros Hs Hc Hv Hm HM Hu Hz. unfold element. rewrite Hs, Hc, Hv, Hm, HM, Hu. change (N.to_nat 8) with 8%nat. rewrite first_eight, value_eight by apply i8_small.
  change (-127 <? 0)%Z with true. cbv iota. rewrite signed_i8 by assumption. unfold axis. cbn [orb]. destruct (z <? -127)%Z; [reflexivity|]. destruct (Z.ltb_spec 127 z); [lia|reflexivity].
Qed.

(** *** The descriptors *)
Definition f_modifiers id := mkField id true 1 8 false true 0 1 7 [] (Some (224, 231)).
Definition f_reserved id := mkField id true 8 1 true false 0 1 7 [] None.
Definition f_keys id lmax umax := mkField id true 8 6 false false 0 lmax 7 [] (Some (0, umax)).
Definition f_buttons id := mkField id true 1 3 false true 0 1 9 [] (Some (1, 3)).
Definition f_pad id v := mkField id true 5 1 true v 0 1 9 [] None.
Definition f_axes id := mkField id true 8 3 false true (-127) 127 1 [48; 49; 56] None.
Definition f_pan id := mkField id true 8 1 false true (-127) 127 12 [568] None.
Lemma usb_keyboard_fields : input_fields KeyRepDesc 0 = [f_modifiers 0; f_reserved 0; f_keys 0 255 145].
Proof. vm_compute. reflexivity. Qed.
Lemma ble_keyboard_fields : input_fields hidReportMap 1 = [f_modifiers 1; f_reserved 1; f_keys 1 101 101].
Proof. vm_compute. reflexivity. Qed.
Lemma usb_mouse_fields : input_fields MouseRepDesc 0 = [f_buttons 0; f_pad 0 false; f_axes 0].
Proof. vm_compute. reflexivity. Qed.
Lemma ble_mouse_fields : input_fields hidReportMap 2 = [f_buttons 2; f_pad 2 true; f_axes 2; f_pan 2].
Proof. vm_compute. reflexivity. Qed.
Lemma usb_consumer_fields : input_fields ConsumerRepDesc 0 = [mkField 0 true 8 4 false false 0 255 12 [] (Some (0, 255))].
Proof. vm_compute. reflexivity. Qed.
Lemma ble_consumer_fields : input_fields hidReportMap 3 = [mkField 3 true 16 2 false false 0 1023 12 [] (Some (0, 1023))].
Proof. vm_compute. reflexivity. Qed.

Lemma keyboard_sees id lmax umax m keys : Forall (fun b => b < 256) keys -> length keys = 6%nat ->
  see [f_modifiers id; f_reserved id; f_keys id lmax umax] (bits_of (m :: 0 :: keys)) = bit_list 7 224 (eight m) ++ flat_map (selects 7 lmax umax) keys.
Proof.
  intros Hk Hl. rewrite !bits_cons. unfold see. cbn [f_modifiers f_reserved f_keys f_size f_count].
  change (N.to_nat 8) with 8%nat. change (N.to_nat (1 * 8)) with 8%nat. change (N.to_nat (8 * 1)) with 8%nat. change (N.to_nat 1) with 1%nat. change (N.to_nat 6) with 6%nat.
  rewrite (bit_elements (f_modifiers id) (eight m) 8 0 _ 224 231) by (reflexivity || (cbn; lia)). rewrite !skip_eight.
  f_equal. change (elements (f_reserved id) 1 0 (eight 0 ++ bits_of keys)) with (@nil (N * N * Z)). rewrite app_nil_l, app_nil_r. now apply (array_bytes (f_keys id lmax umax) umax keys 0).
Qed.
Lemma in_selects page lmax umax keys p u v : In (p, u, v) (flat_map (selects page lmax umax) keys) <-> p = page /\ v = 1%Z /\ In u keys /\ (Z.of_N u <= lmax)%Z /\ u <= umax.
Proof.
  rewrite in_flat_map. split.
  - intros (b & Hb & Hs). unfold selects, one in Hs. destruct (Z.ltb_spec lmax (Z.of_N b)); [destruct Hs|]. destruct (N.leb_spec b umax); [|destruct Hs]. destruct Hs as [E|[]]. injection E as <- <- <-. auto.
  - intros (-> & -> & Hb & L & U). exists u. split; [exact Hb|]. unfold selects, one. destruct (Z.ltb_spec lmax (Z.of_N u)); [lia|]. destruct (N.leb_spec u umax); [left; reflexivity|lia].
Qed.
Lemma fill6_in n codes u : u <> 0 -> In u (fill6 n codes) <-> In u (firstn n codes).
Proof.
  intros Hu. revert codes. induction n as [|n IH]; intros codes; [reflexivity|]. destruct codes as [|c t]; cbn [fill6 firstn In]; [rewrite IH, firstn_nil; cbn; split; [intros [E|E]; [congruence|assumption]|tauto]|]. now rewrite IH.
Qed.
Lemma fill6_length n codes : length (fill6 n codes) = n.
Proof. revert codes. induction n as [|n IH]; intros [|c t]; cbn; auto. Qed.
Lemma fill6_bytes n codes : Forall (fun b => b < 256) codes -> Forall (fun b => b < 256) (fill6 n codes).
Proof. revert codes. induction n as [|n IH]; intros codes H; [constructor|]. destruct H; cbn [fill6]; constructor; auto; lia. Qed.

(** What is down on a keyboard that shows codes up to [bound]. *)
Lemma keyboard_down desc id lmax umax bound kos page u :
  input_fields desc id = [f_modifiers id; f_reserved id; f_keys id lmax umax] -> (forall k, (Z.of_N k <= lmax)%Z /\ k <= umax <-> k <= bound) -> bound < 224 ->
  Forall (fun k => k < 256) (key_slots kos) ->
  down (host_sees desc id (as_hid_boot_keyboard_report kos)) page u <->
  page = 7 /\ ((1 <= u <= bound /\ In u (firstn 6 (key_slots kos))) \/ (224 <= u <= 231 /\ modifier_held kos (u - 224))).
Proof.
  intros Hf Hb Hbd Hk.
  unfold host_sees, as_hid_boot_keyboard_report. rewrite Hf. rewrite key_slots_eq, keyboard_sees; [|apply fill6_bytes; assumption|apply fill6_length].
  unfold down. split.
  - intros (Hu & v & Hv & Hin). apply in_app_or in Hin as [Hin|Hin].
    + apply in_bit_list in Hin as (-> & L & ->). rewrite eight_length in L. split; [reflexivity|]. right. split; [lia|].
      apply bit_value_down in Hv. rewrite nth_eight in Hv by lia. rewrite as_byte_testbit, union_mods_testbit in Hv by lia. apply existsb_exists in Hv. exact Hv.
    + apply in_selects in Hin as (-> & _ & Hin & L). split; [reflexivity|]. left. apply Hb in L. apply fill6_in in Hin; [|assumption]. split; [lia|assumption].
  - intros (-> & [(L & Hin)|(L & ko & Hin & Ht)]).
    + split; [lia|]. exists 1%Z. split; [discriminate|]. apply in_or_app. right. apply in_selects. rewrite fill6_in by lia. rewrite Hb. repeat split; auto; lia.
    + split; [lia|]. exists 1%Z. split; [discriminate|]. apply in_or_app. left. apply in_bit_list. split; [reflexivity|]. rewrite eight_length. split; [lia|].
      rewrite nth_eight, as_byte_testbit, union_mods_testbit by lia. replace (existsb _ kos) with true; [reflexivity|]. symmetry. apply existsb_exists. eauto.
Qed.

(** *** The mouse *)
Lemma eight_split b : eight b = [N.testbit b 0; N.testbit b 1; N.testbit b 2] ++ [N.testbit b 3; N.testbit b 4; N.testbit b 5; N.testbit b 6; N.testbit b 7].
Proof. reflexivity. Qed.
Lemma axes_elements id x y w l : (-128 <= x <= 127)%Z -> (-128 <= y <= 127)%Z -> (-128 <= w <= 127)%Z ->
  elements (f_axes id) 3 0 (eight (i8_byte x) ++ eight (i8_byte y) ++ eight (i8_byte w) ++ l) = axis 1 48 x ++ axis 1 49 y ++ axis 1 56 w.
Proof.
  intros Hx Hy Hw. cbn [elements]. change (N.to_nat (f_size (f_axes id))) with 8%nat. rewrite !skip_eight.
  rewrite (axis_element (f_axes id) 0 x _ 48), (axis_element (f_axes id) (0 + 1) y _ 49), (axis_element (f_axes id) (0 + 1 + 1) w _ 56) by (reflexivity || assumption). now rewrite app_nil_r.
Qed.
Lemma mouse_sees id v m rest fs : (-128 <= mo_x m <= 127)%Z -> (-128 <= mo_y m <= 127)%Z -> (-128 <= mo_vscroll m <= 127)%Z ->
  see (f_buttons id :: f_pad id v :: f_axes id :: fs) (bits_of (mouse_pack m ++ rest)) =
  bit_list 9 1 [N.testbit (mo_buttons m) 0; N.testbit (mo_buttons m) 1; N.testbit (mo_buttons m) 2]
  ++ axis 1 48 (mo_x m) ++ axis 1 49 (mo_y m) ++ axis 1 56 (mo_vscroll m) ++ see fs (bits_of rest).
Proof.
  intros Hx Hy Hw. unfold mouse_pack. cbn [app]. rewrite !bits_cons, eight_split, <- !app_assoc. cbn [see f_buttons f_pad f_axes f_size f_count].
  change (N.to_nat 3) with 3%nat. change (N.to_nat (1 * 3)) with 3%nat. change (N.to_nat (5 * 1)) with 5%nat. change (N.to_nat 1) with 1%nat. change (N.to_nat (8 * 3)) with 24%nat.
  rewrite (bit_elements (f_buttons id) [N.testbit (mo_buttons m) 0; N.testbit (mo_buttons m) 1; N.testbit (mo_buttons m) 2] 3 0 _ 1 3) by (reflexivity || (cbn; lia)).
  f_equal. set (pad := [_; _; _; _; _]). change (skipn 3 ([N.testbit (mo_buttons m) 0; N.testbit (mo_buttons m) 1; N.testbit (mo_buttons m) 2] ++ ?l)) with l.
  replace (skipn 3 ([N.testbit (mo_buttons m) 0; N.testbit (mo_buttons m) 1; N.testbit (mo_buttons m) 2] ++ pad ++ eight (i8_byte (mo_x m)) ++ eight (i8_byte (mo_y m)) ++ eight (i8_byte (mo_vscroll m)) ++ bits_of rest))
    with (pad ++ eight (i8_byte (mo_x m)) ++ eight (i8_byte (mo_y m)) ++ eight (i8_byte (mo_vscroll m)) ++ bits_of rest) by reflexivity.
  replace (elements (mkField id true 5 1 true v 0 1 9 [] None) 1 0 (pad ++ eight (i8_byte (mo_x m)) ++ eight (i8_byte (mo_y m)) ++ eight (i8_byte (mo_vscroll m)) ++ bits_of rest)) with (@nil (N * N * Z)) by reflexivity.
  replace (skipn 5 (pad ++ eight (i8_byte (mo_x m)) ++ eight (i8_byte (mo_y m)) ++ eight (i8_byte (mo_vscroll m)) ++ bits_of rest))
    with (eight (i8_byte (mo_x m)) ++ eight (i8_byte (mo_y m)) ++ eight (i8_byte (mo_vscroll m)) ++ bits_of rest) by reflexivity.
  rewrite app_nil_l. fold (f_axes id). rewrite axes_elements by assumption. rewrite <- !app_assoc. reflexivity.
Qed.
Lemma in_axis page u0 z p u v : In (p, u, v) (axis page u0 z) <-> p = page /\ u = u0 /\ v = z /\ (-127 <= z)%Z.
Proof.
  unfold axis. destruct (Z.ltb_spec z (-127)); cbn [In]; [split; [tauto|lia]|]. split; [intros [E|[]]; injection E as <- <- <-; auto|intros (-> & -> & -> & _); auto].
Qed.

(** *** Consumer keys *)
Lemma word_element a b l f i : f_size f = 16 -> f_constant f = false -> f_variable f = false -> f_min f = 0%Z -> f_range f = Some (0, 1023) -> f_max f = 1023%Z -> a < 256 -> b < 256 ->
  element f i (eight a ++ eight b ++ l) = if a + 256 * b <=? 1023 then one (f_page f) (a + 256 * b) else [].
Proof.
  intros Hs Hc Hv Hm Hr HM Ha Hb. unfold element. rewrite Hs, Hc, Hv, Hm, HM. change (N.to_nat 16) with 16%nat.
  replace (firstn 16 (eight a ++ eight b ++ l)) with (eight a ++ eight b) by reflexivity. rewrite value_app, !value_eight by assumption. rewrite eight_length. change (2 ^ N.of_nat 8) with 256.
  change (0 <? 0)%Z with false. cbn [orb]. destruct (Z.ltb_spec (Z.of_N (a + 256 * b)) 0); [lia|]. cbn [orb]. unfold usage_at. rewrite Hr. replace (0 + Z.to_N (Z.of_N (a + 256 * b) - 0)) with (a + 256 * b) by lia.
  destruct (Z.ltb_spec 1023 (Z.of_N (a + 256 * b))), (N.leb_spec (a + 256 * b) 1023); try lia; reflexivity.
Qed.
Lemma consumer_report kos r : c_update kos = Ok r -> cr_keyboard r = as_hid_boot_keyboard_report kos /\ cr_consumer r = fill_prefix 4 (consumer_codes kos) /\ cr_mouse r = pressed_mouse_output kos.
Proof.
  unfold c_update, pressed_custom_codes, pressed_consumer_codes. intros H. destruct (push_all_cap 24 [] (Base.filter_map custom_code kos)) as [c1| |] eqn:E1; try discriminate H. cbn [bind] in H.
  destruct (push_all_cap 24 [] (Base.filter_map consumer_code kos)) as [c2| |] eqn:E2; try discriminate H. cbn [bind] in H. injection H as <-. cbn [cr_keyboard cr_consumer cr_mouse].
  apply push_all_cap_ok in E2 as (-> & _). rewrite consumer_codes_eq. repeat split; reflexivity.
Qed.
Lemma fill_prefix_length n codes : length (fill_prefix n codes) = n.
Proof. unfold fill_prefix. rewrite app_length, repeat_length, firstn_length. lia. Qed.
Lemma fill_prefix_in n codes u : u <> 0 -> In u (fill_prefix n codes) <-> In u (firstn n codes).
Proof. intros Hu. unfold fill_prefix. rewrite in_app_iff. split; [intros [H|H]; [exact H|apply repeat_spec in H; contradiction]|auto]. Qed.
Lemma fill_prefix_bytes n codes : Forall (fun b => b < 256) codes -> Forall (fun b => b < 256) (fill_prefix n codes).
Proof.
  intros H. apply Forall_app. split; [|apply Forall_forall; intros x Hx; apply repeat_spec in Hx; lia].
  rewrite Forall_forall in *. intros x Hx. apply H. rewrite <- (firstn_skipn n codes). apply in_or_app. now left.
Qed.
Lemma usb_consumer_sees keys : Forall (fun b => b < 256) keys -> length keys = 4%nat ->
  host_sees ConsumerRepDesc 0 keys = flat_map (selects 12 255 255) keys.
Proof.
  intros Hk Hl. unfold host_sees. rewrite usb_consumer_fields. cbn [see f_count]. rewrite app_nil_r.
  pose proof (array_bytes (mkField 0 true 8 4 false false 0 255 12 [] (Some (0, 255))) 255 keys 0) as A. rewrite Hl in A. now apply A.
Qed.
Definition word (a b : N) : list (N * N * Z) := if a + 256 * b <=? 1023 then one 12 (a + 256 * b) else [].
Lemma ble_consumer_sees a b c d : a < 256 -> b < 256 -> c < 256 -> d < 256 -> host_sees hidReportMap 3 [a; b; c; d] = word a b ++ word c d.
Proof.
  intros Ha Hb Hc Hd. unfold host_sees. rewrite ble_consumer_fields. cbn [see f_count]. rewrite app_nil_r. change (N.to_nat 2) with 2%nat. rewrite !bits_cons. cbn [elements f_size]. change (bits_of []) with (@nil bool). rewrite app_nil_r.
  change (N.to_nat 16) with 16%nat. change (skipn 16 _) with (eight c ++ eight d ++ []). rewrite (word_element a b (eight c ++ eight d) _ 0) by (reflexivity || assumption).
  rewrite (word_element c d [] _ (0 + 1)) by (reflexivity || assumption). now rewrite app_nil_r.
Qed.
Lemma in_word a b p u v : In (p, u, v) (word a b) <-> p = 12 /\ u = a + 256 * b /\ v = 1%Z /\ u <= 1023.
Proof.
  unfold word, one. destruct (N.leb_spec (a + 256 * b) 1023); cbn [In]; [|split; [tauto|lia]]. split; [intros [E|[]]; injection E as <- <- <-; auto|intros (-> & -> & -> & _); auto].
Qed.
Lemma mouse_in_range kos : mouse_i8 (pressed_mouse_output kos).
Proof.
  unfold pressed_mouse_output. generalize (Base.filter_map mouse_usage kos). intros l. assert (G : forall acc, mouse_i8 acc -> mouse_i8 (fold_left mouse_combine l acc)).
  { induction l as [|x l IH]; intros acc H; [exact H|]. apply IH, mouse_combine_i8. }
  apply G. repeat split; discriminate.
Qed.
Lemma last_news l : forall z, last (news z l) z = last l z.
Proof.
  assert (D : forall (q : list (list u8)) x y, q <> [] -> last q x = last q y) by (induction q as [|a [|b t] IH]; intros x y H; [contradiction|reflexivity|apply IH; discriminate]).
  assert (C : forall (q : list (list u8)) x z, last (x :: q) z = last q x) by (intros [|a t] x z; [reflexivity|cbn [last]; apply (D (a :: t)); discriminate]).
  induction l as [|x l IH]; intros z; [reflexivity|]. cbn [news]. destruct (list_eq_dec N.eq_dec x z) as [->|_]; rewrite C; [apply IH|]. rewrite C. apply IH.
Qed.
Lemma plain_made {R Ctx Ev PKS KS} (conf : kconf R Ctx Ev PKS KS) fuel l : forall k k' rs r, plain_calls conf fuel l k = Ok (k', rs) -> In r rs ->
  exists k1 k2 kos, km_report_output conf k1 = Ok (k2, kos) /\ c_update kos = Ok r.
Proof.
  induction l as [|[e|] l IH]; intros k k' rs r H Hr; cbn [plain_calls] in H.
  - injection H as <- <-. destruct Hr.
  - inv_bind H. eauto.
  - apply bind_ok in H as ((k1 & r1) & E & H). apply bind_ok in H as ((k2 & rs2) & E2 & H). injection H as <- <-. destruct Hr as [<-|Hr]; [|eauto].
    unfold keymap_tick in E. apply bind_ok in E as (k3 & _ & E). apply bind_ok in E as ((k4 & kos) & E3 & E). apply bind_ok in E as (r0 & E4 & E). injection E as <- <-. eauto.
Qed.
Lemma in_buttons b p u v : In (p, u, v) (bit_list 9 1 [N.testbit b 0; N.testbit b 1; N.testbit b 2]) <->
  p = 9 /\ 1 <= u <= 3 /\ v = if N.testbit b (u - 1) then 1%Z else 0%Z.
Proof.
  rewrite in_bit_list. cbn [length]. split; intros (-> & L & ->); (split; [reflexivity|]; split; [lia|]);
    (assert (X : u = 1 \/ u = 2 \/ u = 3) by lia; destruct X as [->|[->| ->]]; reflexivity).
Qed.
Lemma pan_sees id z : (-128 <= z <= 127)%Z -> see [f_pan id] (bits_of [i8_byte z]) = axis 12 568 z.
Proof.
  intros H. rewrite bits_cons. cbn [see]. change (N.to_nat (f_count (f_pan id))) with 1%nat. cbn [elements]. rewrite (axis_element (f_pan id) 0 z _ 568) by (reflexivity || assumption). now rewrite !app_nil_r.
Qed.
Lemma rl_run_app {R Ctx Ev PKS KS} (conf : kconf R Ctx Ev PKS KS) fuel l l' : forall s, rl_run conf fuel (l ++ l') s = bind (rl_run conf fuel l s) (rl_run conf fuel l').
Proof. unfold rl_run. induction l as [|a l IH]; intros s; [reflexivity|]. cbn [app fold_res]. destruct (rl_do conf fuel s a); cbn [bind]; [apply IH|reflexivity|reflexivity]. Qed.
