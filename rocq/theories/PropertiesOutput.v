(** Theorems C01-C05: key outputs and HID reports. *)
From Coq Require Import Permutation.
From Verif Require Import Base Output SimpleKeys SpecOutput OutputFacts.
Local Open Scope N_scope.

(** C01: layout of the boot keyboard report. *)
Theorem C01_boot_report_layout : forall kos : list key_output,
  let r := as_hid_boot_keyboard_report kos in
  length r = 8%nat
  /\ nth 0 r 0 < 256
  /\ (forall k, k < 8 -> (N.testbit (nth 0 r 0) k = true <-> modifier_held kos k))
  /\ nth 1 r 0 = 0
  /\ (forall s, (s < 6)%nat -> nth (2 + s) r 0 = nth s (key_slots kos) 0).
Proof. exact boot_report_layout. Qed.
Print Assumptions C01_boot_report_layout.

Theorem C01_boot_report_bytes : forall kos : list key_output,
  exists m, as_hid_boot_keyboard_report kos
            = m :: 0 :: firstn 6 (key_slots kos) ++ repeat 0 (6 - length (key_slots kos)).
Proof. exact (fun kos => ex_intro _ _ (boot_report_exact kos)). Qed.
Print Assumptions C01_boot_report_bytes.

(** Seven keys, a consumer code and modifiers. *)
Example C01_example :
  as_hid_boot_keyboard_report
    [ko_from_key_code 0xE1; ko_from_key_code 4; ko_from_consumer_code 9;
     ko_from_key_code_with_modifiers 5 0x80; ko_from_key_code 6; ko_from_key_code 7;
     ko_from_key_code 8; ko_from_key_code 9; ko_from_key_code 10]
  = [0x82; 0; 4; 5; 6; 7; 8; 9].
Proof. reflexivity. Qed.

(** C02: modifier key codes become modifiers, every other code stays a usage;
    modifiers round-trip through bytes and key codes; union is set union. *)
Theorem C02_from_key_code : forall c,
  (forall k, k < 8 -> c = 0xE0 + k -> ko_from_key_code c = mkKO (Keyboard 0) (2 ^ k))
  /\ ((c < 0xE0 \/ 0xE7 < c) -> ko_from_key_code c = mkKO (Keyboard c) 0).
Proof.
  exact (fun c => conj (fun k Hk E => eq_ind_r (fun c => ko_from_key_code c = _) (from_key_code_modifier k Hk) E)
                       (from_key_code_plain c)).
Qed.
Print Assumptions C02_from_key_code.

(** The same with modifiers added: a modifier's key code adds its bit to them. *)
Theorem C02_with_modifiers : forall c m,
  (forall k, k < 8 -> c = 0xE0 + k ->
     ko_usage (ko_from_key_code_with_modifiers c m) = Keyboard 0
     /\ forall b, N.testbit (ko_mods (ko_from_key_code_with_modifiers c m)) b = (b =? k) || N.testbit m b)
  /\ ((c < 0xE0 \/ 0xE7 < c) -> ko_from_key_code_with_modifiers c m = mkKO (Keyboard c) m)
  /\ ko_from_usage_with_modifiers (Keyboard c) m = ko_from_key_code_with_modifiers c m.
Proof. exact with_modifiers_spec. Qed.
Print Assumptions C02_with_modifiers.
(** Outputs made from a usage keep it, and without modifiers are the plain ones. *)
Theorem C02_from_usage : forall u m,
  (forall c, u = Keyboard c -> ko_from_usage u = ko_from_key_code c)
  /\ ((forall c, u <> Keyboard c) -> ko_from_usage u = mkKO u 0 /\ ko_from_usage_with_modifiers u m = mkKO u m).
Proof.
  intros u m. split; [intros c ->; reflexivity|]. intros H. destruct u as [c|c|c|o]; [now destruct (H c)|..]; split; reflexivity.
Qed.
Print Assumptions C02_from_usage.

(** The test for modifier key codes accepts exactly the codes that stand for a modifier. *)
Theorem C02_is_modifier_key_code : forall c,
  (is_modifier_key_code c = true <-> exists k, k < 8 /\ c = 0xE0 + k)
  /\ (is_modifier_key_code c = true <-> mods_from_key_code c <> None).
Proof. exact is_modifier_key_code_spec. Qed.
Print Assumptions C02_is_modifier_key_code.

Theorem C02_modifiers_round_trip : forall b, b < 256 -> as_byte (mods_from_byte b) = b.
Proof. exact as_byte_sweep. Qed.
Print Assumptions C02_modifiers_round_trip.

Theorem C02_as_key_codes : forall m,
  as_key_codes m = map (fun k => 0xE0 + k) (filter (N.testbit m) [0;1;2;3;4;5;6;7]).
Proof. exact as_key_codes_spec. Qed.
Print Assumptions C02_as_key_codes.

Theorem C02_union : forall a b k,
  N.testbit (mods_union a b) k = N.testbit a k || N.testbit b k.
Proof. exact union_testbit. Qed.
Print Assumptions C02_union.

Theorem C02_no_modifier_code_in_key_slots : forall kos s,
  Forall constructed kos -> (s < 6)%nat ->
  let c := nth (2 + s) (as_hid_boot_keyboard_report kos) 0 in c < 0xE0 \/ 0xE7 < c.
Proof. exact no_modifier_in_slots. Qed.
Print Assumptions C02_no_modifier_code_in_key_slots.

Example C02_example :
  Forall constructed [ko_from_key_code 0xE4; ko_from_key_code_with_modifiers 0x1E 0x02;
                      ko_from_usage (Keyboard 0xE7)]
  /\ as_hid_boot_keyboard_report
       [ko_from_key_code 0xE4; ko_from_key_code_with_modifiers 0x1E 0x02;
        ko_from_usage (Keyboard 0xE7)] = [0x92; 0; 0x1E; 0; 0; 0; 0; 0].
Proof. split; [repeat constructor|reflexivity]. Qed.

(** C03: code lists are complete and the 24-entry buffers suffice. *)
Theorem C03_code_lists : forall kos,
  (length kos <= MAX_PRESSED_KEYS)%nat ->
  pressed_key_codes kos = Ok (held_modifier_codes kos ++ keyboard_codes kos)
  /\ pressed_consumer_codes kos = Ok (consumer_codes kos)
  /\ pressed_custom_codes kos = Ok (custom_codes kos).
Proof.
  exact (fun kos H => conj (pressed_key_codes_complete kos H)
    (conj (pressed_consumer_codes_complete kos H) (pressed_custom_codes_complete kos H))).
Qed.
Print Assumptions C03_code_lists.

(** Sixteen outputs, all eight modifiers: 24 codes exactly. *)
Example C03_example :
  let kos := repeat (mkKO (Keyboard 4) 0xFF) 16 in
  (length kos <= MAX_PRESSED_KEYS)%nat
  /\ pressed_key_codes kos = Ok ([0xE0;0xE1;0xE2;0xE3;0xE4;0xE5;0xE6;0xE7] ++ repeat 4 16).
Proof. split; [cbv; repeat constructor|reflexivity]. Qed.

(** C04: the documented meaning ("all modifiers") of has_modifiers is false of
    the code; it means "any". *)
Theorem C04_has_modifiers_all_refuted :
  ~ (forall a b, a < 256 -> b < 256 ->
       (has_modifiers a b = true <-> (forall k, N.testbit b k = true -> N.testbit a k = true))).
Proof.
  intros H. specialize (H 1 3 eq_refl eq_refl).
  pose proof (proj1 H eq_refl 1 eq_refl) as E. discriminate E.
Qed.
Print Assumptions C04_has_modifiers_all_refuted.

Theorem C04_has_modifiers_any : forall a b,
  has_modifiers a b = true <-> exists k, N.testbit a k = true /\ N.testbit b k = true.
Proof. exact has_modifiers_any. Qed.
Print Assumptions C04_has_modifiers_any.

(** The direction of the documented meaning that does hold. *)
Theorem C04_has_modifiers_partial : forall a b,
  b <> 0 -> (forall k, N.testbit b k = true -> N.testbit a k = true) -> has_modifiers a b = true.
Proof. exact has_modifiers_all_implies. Qed.
Print Assumptions C04_has_modifiers_partial.

Example C04_example : has_modifiers 0x03 0x02 = true /\ has_modifiers 0x01 0x02 = false.
Proof. split; reflexivity. Qed.

(** C05: mouse outputs. *)
Theorem C05_combine_comm : forall a b, mouse_combine a b = mouse_combine b a.
Proof. exact mouse_combine_comm. Qed.
Print Assumptions C05_combine_comm.

Theorem C05_combine_identity : forall m, mouse_i8 m -> mouse_combine mouse_none m = m.
Proof. exact mouse_combine_id. Qed.
Print Assumptions C05_combine_identity.

Theorem C05_combine_in_range : forall a b, mouse_i8 (mouse_combine a b).
Proof. exact mouse_combine_i8. Qed.
Print Assumptions C05_combine_in_range.

Theorem C05_buttons : forall kos k,
  N.testbit (mo_buttons (pressed_mouse_output kos)) k = true
  <-> exists m, In m (mouse_outputs kos) /\ N.testbit (mo_buttons m) k = true.
Proof. exact pressed_mouse_buttons. Qed.
Print Assumptions C05_buttons.

Theorem C05_exact_sum : forall kos,
  (length kos <= MAX_PRESSED_KEYS)%nat -> mouse_only_from_keys kos ->
  let ms := mouse_outputs kos in let r := pressed_mouse_output kos in
  mo_x r = zsum mo_x ms /\ mo_y r = zsum mo_y ms
  /\ mo_vscroll r = zsum mo_vscroll ms /\ mo_hscroll r = zsum mo_hscroll ms.
Proof. exact mouse_keys_exact. Qed.
Print Assumptions C05_exact_sum.

Theorem C05_order_independent : forall kos kos',
  (length kos <= MAX_PRESSED_KEYS)%nat -> mouse_only_from_keys kos -> Permutation kos kos' ->
  pressed_mouse_output kos = pressed_mouse_output kos'.
Proof. exact mouse_keys_order_independent. Qed.
Print Assumptions C05_order_independent.

(** Arbitrary outputs: saturation makes the result depend on the order. *)
Theorem C05_order_independent_any_refuted :
  ~ (forall kos kos', Permutation kos kos' ->
       Forall (fun m => mouse_i8 m) (mouse_outputs kos) ->
       pressed_mouse_output kos = pressed_mouse_output kos').
Proof.
  intros H.
  pose (a := ko_from_mouse_output (mkMouse 0 100 0 0 0)).
  pose (b := ko_from_mouse_output (mkMouse 0 (-100) 0 0 0)).
  specialize (H [a; a; b] [a; b; a]).
  assert (E : pressed_mouse_output [a; a; b] = pressed_mouse_output [a; b; a]).
  { apply H.
    - apply perm_skip, perm_swap.
    - repeat constructor; cbv; discriminate. }
  vm_compute in E. discriminate E.
Qed.
Print Assumptions C05_order_independent_any_refuted.

Example C05_example :
  match mouse_key_output MsCursorUp, mouse_key_output (MsButton 3) with
  | Ok up, Ok b3 =>
      mouse_only_from_keys [up; b3; ko_from_key_code 4; up]
      /\ pressed_mouse_output [up; b3; ko_from_key_code 4; up] = mkMouse 4 0 (-10) 0 0
  | _, _ => False
  end.
Proof.
  cbn. split; [|reflexivity].
  intros ko m [<-|[<-|[<-|[<-|[]]]]] E; cbn in E; try discriminate.
  - exists MsCursorUp; reflexivity.
  - exists (MsButton 3); reflexivity.
  - exists MsCursorUp; reflexivity.
Qed.
