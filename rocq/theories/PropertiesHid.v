(** Theorem C75: what the host makes of the reports, by the report descriptors. *)
From Verif Require Import Base BaseFacts Output OutputFacts Types Split Scheduler Keymap CApi CReport SpecCReport CReportFacts CReportLive PropertiesCReport CUsb CBle CBleMap SpecOutput SpecHid HidFacts.
Import List.
Local Open Scope N_scope.

(** C75: over USB the keys down are the first six key codes up to 145 and the modifiers,
    and nothing else. *)
Theorem C75_usb_keyboard : forall kos page u, bytes (key_slots kos) ->
  down (host_sees KeyRepDesc 0 (as_hid_boot_keyboard_report kos)) page u <-> page = KEYBOARD /\ key_shown 145 kos u.
Proof. intros kos page u H. apply (keyboard_down KeyRepDesc 0 255 145 145); [exact usb_keyboard_fields|lia|lia|exact H]. Qed.
Print Assumptions C75_usb_keyboard.

(** C75: over USB the consumer keys down are the first four consumer codes. *)
Theorem C75_usb_consumer : forall kos r page u, c_update kos = Ok r -> bytes (consumer_codes kos) ->
  down (host_sees ConsumerRepDesc 0 (cr_consumer r)) page u <-> page = CONSUMER /\ u <> 0 /\ In u (firstn 4 (consumer_codes kos)).
Proof.
  intros kos r page u Hr H. apply consumer_report in Hr as (_ & -> & _). rewrite usb_consumer_sees by (apply fill_prefix_length || now apply fill_prefix_bytes).
  unfold down. split.
  - intros (Hu & v & _ & Hi). apply in_selects in Hi as (-> & _ & Hi & _). apply fill_prefix_in in Hi; auto.
  - intros (-> & Hu & Hi). split; [exact Hu|]. exists 1%Z. split; [discriminate|]. apply in_selects. rewrite fill_prefix_in by assumption.
    assert (L : u < 256) by (apply (proj1 (Forall_forall _ _) (fill_prefix_bytes 4 _ H)), fill_prefix_in; assumption). repeat split; auto; lia.
Qed.
Print Assumptions C75_usb_consumer.

(** C75: the mouse over USB: of the buttons the first three, and the movements, unless
    at their lower limit. *)
Theorem C75_usb_mouse : forall kos page u v, let m := pressed_mouse_output kos in
  In (page, u, v) (host_sees MouseRepDesc 0 (mouse_pack m)) <->
  (page = BUTTON /\ 1 <= u <= 3 /\ v = if N.testbit (mo_buttons m) (u - 1) then 1%Z else 0%Z)
  \/ (page = DESKTOP /\ ((u = AXIS_X /\ v = mo_x m) \/ (u = AXIS_Y /\ v = mo_y m) \/ (u = WHEEL /\ v = mo_vscroll m)) /\ v <> (-128)%Z).
Proof.
  intros kos page u v m. destruct (mouse_in_range kos) as (Hx & Hy & Hw & _). fold m in Hx, Hy, Hw. unfold host_sees. rewrite usb_mouse_fields, <- (app_nil_r (mouse_pack m)).
  rewrite (mouse_sees 0 false m [] []) by assumption. cbn [see]. rewrite app_nil_r. rewrite !in_app_iff, in_buttons, !in_axis. unfold DESKTOP, BUTTON, AXIS_X, AXIS_Y, WHEEL. intuition (subst; auto; lia).
Qed.
Print Assumptions C75_usb_mouse.

(** C75: the lengths are those the descriptors promise. *)
Theorem C75_lengths : forall kos r, c_update kos = Ok r ->
  8 * N.of_nat (length (cr_keyboard r)) = report_bits (input_fields KeyRepDesc 0)
  /\ 8 * N.of_nat (length (cr_consumer r)) = report_bits (input_fields ConsumerRepDesc 0)
  /\ 8 * N.of_nat (length (mouse_pack (cr_mouse r))) = report_bits (input_fields MouseRepDesc 0)
  /\ 8 * N.of_nat (length (ble_part ChKb r)) = report_bits (input_fields hidReportMap HID_RPT_ID_KEY_IN)
  /\ 8 * N.of_nat (length (ble_part ChMouse r)) = report_bits (input_fields hidReportMap HID_RPT_ID_MOUSE_IN)
  /\ 8 * N.of_nat (length (ble_part ChCon r)) = report_bits (input_fields hidReportMap HID_RPT_ID_CONSUMER_IN).
Proof.
  intros kos r H. apply consumer_report in H as (Hk & Hc & _). cbn [ble_part]. rewrite Hk, Hc, fill_prefix_length. unfold as_hid_boot_keyboard_report. cbn [length]. rewrite fill6_length.
  repeat split; vm_compute; reflexivity.
Qed.
Print Assumptions C75_lengths.

(** C75: over Bluetooth the keys down are the first six key codes up to 101 and the
    modifiers. *)
Theorem C75_ble_keyboard : forall kos r page u, c_update kos = Ok r -> bytes (key_slots kos) ->
  down (host_sees hidReportMap HID_RPT_ID_KEY_IN (ble_part ChKb r)) page u <-> page = KEYBOARD /\ key_shown 101 kos u.
Proof.
  intros kos r page u Hr H. apply consumer_report in Hr as (Hk & _). cbn [ble_part]. rewrite Hk.
  apply (keyboard_down hidReportMap 1 101 101 101); [exact ble_keyboard_fields|lia|lia|exact H].
Qed.
Print Assumptions C75_ble_keyboard.

(** C75: the mouse over Bluetooth; it also scrolls sideways. *)
Theorem C75_ble_mouse : forall kos r page u v, c_update kos = Ok r -> let m := pressed_mouse_output kos in
  In (page, u, v) (host_sees hidReportMap HID_RPT_ID_MOUSE_IN (ble_part ChMouse r)) <->
  (page = BUTTON /\ 1 <= u <= 3 /\ v = if N.testbit (mo_buttons m) (u - 1) then 1%Z else 0%Z)
  \/ (page = DESKTOP /\ ((u = AXIS_X /\ v = mo_x m) \/ (u = AXIS_Y /\ v = mo_y m) \/ (u = WHEEL /\ v = mo_vscroll m)) /\ v <> (-128)%Z)
  \/ (page = CONSUMER /\ u = PAN /\ v = mo_hscroll m /\ v <> (-128)%Z).
Proof.
  intros kos r page u v Hr m. apply consumer_report in Hr as (_ & _ & Hm). cbn [ble_part]. rewrite Hm. fold m.
  destruct (mouse_in_range kos) as (Hx & Hy & Hw & Hh). fold m in Hx, Hy, Hw, Hh. unfold host_sees, HID_RPT_ID_MOUSE_IN. rewrite ble_mouse_fields.
  rewrite (mouse_sees 2 true m) by assumption. rewrite (pan_sees 2) by assumption. rewrite !in_app_iff, in_buttons, !in_axis. unfold DESKTOP, BUTTON, CONSUMER, AXIS_X, AXIS_Y, WHEEL, PAN. intuition (subst; auto; lia).
Qed.
Print Assumptions C75_ble_mouse.

(** C75: over Bluetooth one consumer key is seen as itself. *)
Theorem C75_ble_consumer : forall kos r page u, c_update kos = Ok r -> bytes (consumer_codes kos) -> (length (consumer_codes kos) <= 1)%nat ->
  down (host_sees hidReportMap HID_RPT_ID_CONSUMER_IN (ble_part ChCon r)) page u <-> page = CONSUMER /\ u <> 0 /\ In u (consumer_codes kos).
Proof.
  intros kos r page u Hr H L. apply consumer_report in Hr as (_ & Hc & _). cbn [ble_part]. rewrite Hc. unfold HID_RPT_ID_CONSUMER_IN, down, CONSUMER.
  destruct (consumer_codes kos) as [|c [|d t]]; [| |cbn in L; lia].
  - cbn [fill_prefix firstn length repeat app Nat.sub]. change (fill_prefix 4 []) with [0; 0; 0; 0]. rewrite ble_consumer_sees by lia. split.
    + intros (Hu & v & _ & Hi). rewrite in_app_iff, !in_word in Hi. lia.
    + intros (_ & _ & []).
  - change (fill_prefix 4 [c]) with [c; 0; 0; 0]. apply Forall_inv in H. rewrite ble_consumer_sees by lia. split.
    + intros (Hu & v & _ & Hi). rewrite in_app_iff, !in_word in Hi. cbn [In]. intuition lia.
    + intros (-> & Hu & [->|[]]). split; [exact Hu|]. exists 1%Z. split; [discriminate|]. rewrite in_app_iff, !in_word. left. repeat split; lia.
Qed.
Print Assumptions C75_ble_consumer.

(** C75: from the keymap to the host.  When the host has taken everything due to it, it
    sees down exactly the keys and consumer keys of the outputs of the latest tick. *)
Theorem C75_usb_host : forall R Ctx Ev PKS KS (conf : kconf R Ctx Ev PKS KS) fuel k l s made r,
  rl_run conf fuel l (rl_new k) = Ok s -> due ChKb s = received ChKb s -> due ChCon s = received ChCon s -> rl_made s = made ++ [r] ->
  exists k1 k2 kos, km_report_output conf k1 = Ok (k2, kos) /\ c_update kos = Ok r
    /\ (bytes (key_slots kos) -> forall page u,
        down (host_sees KeyRepDesc 0 (last (received ChKb s) (repeat 0 8))) page u <-> page = KEYBOARD /\ key_shown 145 kos u)
    /\ (bytes (consumer_codes kos) -> forall page u,
        down (host_sees ConsumerRepDesc 0 (last (received ChCon s) (repeat 0 4))) page u <-> page = CONSUMER /\ u <> 0 /\ In u (firstn 4 (consumer_codes kos))).
Proof.
  intros R Ctx Ev PKS KS conf fuel k l s made r H Dk Dc Hm. destruct (C57_plain R Ctx Ev PKS KS conf fuel k l s H) as (Hp & _).
  destruct (plain_made conf fuel (rl_calls s) k _ _ r Hp) as (k1 & k2 & kos & Ho & Hr); [rewrite Hm; apply in_or_app; right; now left|].
  exists k1, k2, kos. split; [exact Ho|]. split; [exact Hr|].
  assert (Lk : last (received ChKb s) (repeat 0 8) = cr_keyboard r) by (rewrite <- Dk; unfold due; cbn [part_len]; rewrite last_news, Hm, map_app; cbn [map]; rewrite last_last; reflexivity).
  assert (Lc : last (received ChCon s) (repeat 0 4) = cr_consumer r) by (rewrite <- Dc; unfold due; cbn [part_len]; rewrite last_news, Hm, map_app; cbn [map]; rewrite last_last; reflexivity).
  rewrite Lk, Lc. split; [|intros Hb page u; now apply C75_usb_consumer].
  intros Hb page u. destruct (consumer_report kos r Hr) as (-> & _). now apply C75_usb_keyboard.
Qed.
Print Assumptions C75_usb_host.

(** C75: and it gets there: at most 75 steps of the main loop and one poll of each
    endpoint after a calm run, the host sees down the keys of the latest outputs. *)
Theorem C75_usb_host_gets_there : forall R Ctx Ev PKS KS (conf : kconf R Ctx Ev PKS KS) fuel k l s made r,
  rl_run conf fuel l (rl_new k) = Ok s -> rl_all_calm conf fuel l (rl_new k) -> rl_enum s = true -> rl_made s = made ++ [r] ->
  exists n s1 k1 k2 kos, (n <= 75)%nat
    /\ rl_run conf fuel (repeat RlMain n ++ [RlHost ChKb; RlHost ChMouse; RlHost ChCon]) s = Ok s1
    /\ km_report_output conf k1 = Ok (k2, kos) /\ c_update kos = Ok r
    /\ (bytes (key_slots kos) -> forall page u,
        down (host_sees KeyRepDesc 0 (last (received ChKb s1) (repeat 0 8))) page u <-> page = KEYBOARD /\ key_shown 145 kos u)
    /\ (bytes (consumer_codes kos) -> forall page u,
        down (host_sees ConsumerRepDesc 0 (last (received ChCon s1) (repeat 0 4))) page u <-> page = CONSUMER /\ u <> 0 /\ In u (firstn 4 (consumer_codes kos))).
Proof.
  intros R Ctx Ev PKS KS conf fuel k l s made r H C He Hm. destruct (C57_gets_there R Ctx Ev PKS KS conf fuel k l s H C He) as (n & s1 & Hn & H1 & M1 & Dk & Dc & _).
  rewrite <- M1 in Hm. pose proof (rl_run_app conf fuel l (repeat RlMain n ++ [RlHost ChKb; RlHost ChMouse; RlHost ChCon]) (rl_new k)) as A. rewrite H in A. cbn [bind] in A. rewrite H1 in A.
  destruct (C75_usb_host R Ctx Ev PKS KS conf fuel k _ s1 made r A Dk Dc Hm) as (k1 & k2 & kos & X). exists n, s1, k1, k2, kos. tauto.
Qed.
Print Assumptions C75_usb_host_gets_there.

(** Control and shift with A and F24, a consumer key, and the mouse moving. *)
Definition hid_kos : list key_output :=
  [ko_from_key_code 0xE0; ko_from_key_code 4; ko_from_key_code_with_modifiers 115 2; ko_from_consumer_code 233; ko_from_mouse_output (mkMouse 4 (-5) 127 1 (-1))].
Example C75_example :
  bytes (key_slots hid_kos) /\ bytes (consumer_codes hid_kos) /\ (length (consumer_codes hid_kos) <= 1)%nat
  /\ key_shown 145 hid_kos 115 /\ ~ key_shown 101 hid_kos 115 /\ key_shown 101 hid_kos 224 /\ key_shown 101 hid_kos 225 /\ ~ key_shown 145 hid_kos 226
  /\ filter (fun x => negb (snd x =? 0)%Z) (host_sees KeyRepDesc 0 (as_hid_boot_keyboard_report hid_kos))
     = [(KEYBOARD, 224, 1%Z); (KEYBOARD, 225, 1%Z); (KEYBOARD, 4, 1%Z); (KEYBOARD, 115, 1%Z)] ++ repeat (KEYBOARD, 0, 1%Z) 4
  /\ host_sees MouseRepDesc 0 (mouse_pack (pressed_mouse_output hid_kos))
     = [(BUTTON, 1, 0%Z); (BUTTON, 2, 0%Z); (BUTTON, 3, 1%Z); (DESKTOP, AXIS_X, (-5)%Z); (DESKTOP, AXIS_Y, 127%Z); (DESKTOP, WHEEL, 1%Z)]
  /\ returns (c_update hid_kos) (fun r =>
       host_sees ConsumerRepDesc 0 (cr_consumer r) = (CONSUMER, 233, 1%Z) :: repeat (CONSUMER, 0, 1%Z) 3
       /\ host_sees hidReportMap HID_RPT_ID_CONSUMER_IN (ble_part ChCon r) = [(CONSUMER, 233, 1%Z); (CONSUMER, 0, 1%Z)]
       /\ In (CONSUMER, PAN, (-1)%Z) (host_sees hidReportMap HID_RPT_ID_MOUSE_IN (ble_part ChMouse r))).
Proof.
  split; [vm_compute; repeat constructor|]. split; [vm_compute; repeat constructor|]. split; [vm_compute; repeat constructor|].
  split; [left; split; [lia|vm_compute; tauto]|].
  split; [intros [(L & _)|(L & _)]; lia|].
  split; [right; split; [lia|]; exists (ko_from_key_code 0xE0); split; [left|]; reflexivity|].
  split; [right; split; [lia|]; exists (ko_from_key_code_with_modifiers 115 2); split; [right; right; left|]; reflexivity|].
  split.
  { intros [(L & _)|(_ & ko & Hi & Ht)]; [lia|]. vm_compute in Hi. destruct Hi as [<-|[<-|[<-|[<-|[<-|[]]]]]]; discriminate Ht. }
  vm_compute. repeat split; auto 10.
Qed.
(** The host of the run of C57 after the first poll. *)
Example C75_run_example :
  let l := [RlEnumerate; RlTimer [dn 0; dn 2]] ++ mn 60 ++ [RlHost ChKb] ++ mn 60 ++ [RlTimer []] ++ mn 80 ++ [RlHost ChCon] in
  rl_all_calm crep_conf 300 l crep_new
  /\ returns (rl_run crep_conf 300 l crep_new)
       (fun s => due ChKb s = received ChKb s /\ due ChCon s = received ChCon s /\ rl_enum s = true /\ rl_made s <> []
                 /\ In (KEYBOARD, 4, 1%Z) (host_sees KeyRepDesc 0 (last (received ChKb s) (repeat 0 8)))
                 /\ In (CONSUMER, 9, 1%Z) (host_sees ConsumerRepDesc 0 (last (received ChCon s) (repeat 0 4)))).
Proof. split; [apply calmb_calm; vm_compute; reflexivity|]. vm_compute. repeat split; try discriminate. all: repeat (first [left; reflexivity|right]). Qed.

(** C75, false of every key code: over USB the codes from 146 on are not in the
    descriptor's range; over Bluetooth those from 102 on, such as F13. *)
Lemma unseen desc id kos page u : (forall v, ~ In (page, u, v) (host_sees desc id (as_hid_boot_keyboard_report kos))) -> ~ down (host_sees desc id (as_hid_boot_keyboard_report kos)) page u.
Proof. intros H (_ & v & _ & Hi). exact (H v Hi). Qed.
Theorem C75_all_codes_refuted :
  ~ (forall kc, 1 <= kc < 224 -> down (host_sees KeyRepDesc 0 (as_hid_boot_keyboard_report [ko_from_key_code kc])) KEYBOARD kc)
  /\ ~ (forall kc, 1 <= kc <= 145 -> down (host_sees hidReportMap HID_RPT_ID_KEY_IN (as_hid_boot_keyboard_report [ko_from_key_code kc])) KEYBOARD kc).
Proof.
  split.
  - intros H. specialize (H 176 ltac:(lia)). rewrite C75_usb_keyboard in H by (vm_compute; repeat constructor). destruct H as (_ & [(L & _)|(L & _)]); lia.
  - intros H. specialize (H 104 ltac:(lia)). pose proof (C75_ble_keyboard [ko_from_key_code 104] (mkCReport (as_hid_boot_keyboard_report [ko_from_key_code 104]) (repeat 0 KEYMAP_HID_REPORT_CUSTOM_LEN) (repeat 0 4) mouse_none) KEYBOARD 104) as B.
    cbn [ble_part cr_keyboard] in B. apply B in H; [|vm_compute; reflexivity|vm_compute; repeat constructor]. destruct H as (_ & [(L & _)|(L & _)]); lia.
Qed.
Print Assumptions C75_all_codes_refuted.

(** C75, false of two consumer keys over Bluetooth: the report map has two codes of 16
    bits where the firmware sends four of 8.  Volume up with mute reads as no key at all,
    and volume up with brightness's neighbour, code 1, as usage 489. *)
Definition two_consumer : list key_output := [ko_from_consumer_code 233; ko_from_consumer_code 226].
Lemma two_consumer_seen : returns (c_update two_consumer) (fun r => host_sees hidReportMap HID_RPT_ID_CONSUMER_IN (ble_part ChCon r) = [(CONSUMER, 0, 1%Z)]).
Proof. vm_compute. reflexivity. Qed.
Theorem C75_ble_two_consumer_keys_refuted :
  ~ (forall kos r u, c_update kos = Ok r -> bytes (consumer_codes kos) -> u <> 0 -> In u (firstn 4 (consumer_codes kos)) ->
     down (host_sees hidReportMap HID_RPT_ID_CONSUMER_IN (ble_part ChCon r)) CONSUMER u).
Proof.
  intros H. pose proof two_consumer_seen as S1. destruct (c_update two_consumer) as [r| |] eqn:E; try contradiction. cbn [returns] in S1.
  specialize (H two_consumer r 233 E ltac:(vm_compute; repeat constructor) ltac:(discriminate) ltac:(vm_compute; auto)). rewrite S1 in H.
  destruct H as (_ & v & _ & [X|[]]). discriminate X.
Qed.
Print Assumptions C75_ble_two_consumer_keys_refuted.
(** The other one: a usage nobody pressed. *)
Theorem C75_ble_only_pressed_refuted :
  ~ (forall kos r u, c_update kos = Ok r -> bytes (consumer_codes kos) ->
     down (host_sees hidReportMap HID_RPT_ID_CONSUMER_IN (ble_part ChCon r)) CONSUMER u -> In u (consumer_codes kos)).
Proof.
  intros H. specialize (H [ko_from_consumer_code 233; ko_from_consumer_code 1] _ 489 eq_refl). cbn [ble_part cr_consumer] in H.
  assert (B : bytes (consumer_codes [ko_from_consumer_code 233; ko_from_consumer_code 1])) by (vm_compute; repeat constructor).
  apply H in B; [vm_compute in B; destruct B as [B|[B|[]]]; discriminate B|]. split; [discriminate|]. exists 1%Z. split; [discriminate|]. vm_compute. auto.
Qed.
Print Assumptions C75_ble_only_pressed_refuted.

(** C75, false of the fourth mouse button and of the strongest movement back. *)
Lemma mouse_unseen :
  host_sees MouseRepDesc 0 (mouse_pack (mkMouse 8 (-128) 0 0 0)) = [(BUTTON, 1, 0%Z); (BUTTON, 2, 0%Z); (BUTTON, 3, 0%Z); (DESKTOP, AXIS_Y, 0%Z); (DESKTOP, WHEEL, 0%Z)].
Proof. vm_compute. reflexivity. Qed.
Theorem C75_mouse_refuted :
  ~ (forall m n, 1 <= n <= 8 -> N.testbit (mo_buttons m) (n - 1) = true -> down (host_sees MouseRepDesc 0 (mouse_pack m)) BUTTON n)
  /\ ~ (forall m, mouse_i8 m -> In (DESKTOP, AXIS_X, mo_x m) (host_sees MouseRepDesc 0 (mouse_pack m))).
Proof.
  split.
  - intros H. specialize (H (mkMouse 8 (-128) 0 0 0) 4 ltac:(lia) eq_refl). rewrite mouse_unseen in H. destruct H as (_ & v & _ & Hi). cbn [In] in Hi. repeat (destruct Hi as [X|Hi]; [discriminate X|]). exact Hi.
  - intros H. specialize (H (mkMouse 8 (-128) 0 0 0) ltac:(repeat split; discriminate)). rewrite mouse_unseen in H. cbn [In mo_x] in H. repeat (destruct H as [X|H]; [discriminate X|]). exact H.
Qed.
Print Assumptions C75_mouse_refuted.
