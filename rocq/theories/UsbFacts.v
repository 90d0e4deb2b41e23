(** Proofs for C74. *)
From Verif Require Import Base BaseFacts CUsb SpecUsb.
Import List.
Local Open Scope N_scope.

(** *** Bytes *)
Definition bytes256 : list N := map N.of_nat (seq 0 256).
Lemma in_bytes n : n < 256 -> In n bytes256.
Proof. intros H. apply in_map_iff. exists (N.to_nat n). split; [lia|]. apply in_seq. lia. Qed.
Lemma all_bytes (f : N -> bool) : forallb f bytes256 = true -> forall n, n < 256 -> f n = true.
Proof. intros H n Hn. rewrite forallb_forall in H. apply H. now apply in_bytes. Qed.
Lemma land31 n : n < 256 -> N.land n 31 = n mod 32.
Proof. intros H. apply N.eqb_eq. revert n H. apply all_bytes. vm_compute. reflexivity. Qed.
Lemma land96 n : n < 256 -> N.land n 96 = 32 * ((n / 32) mod 4).
Proof. intros H. apply N.eqb_eq. revert n H. apply all_bytes. vm_compute. reflexivity. Qed.
Lemma land128 n : n < 256 -> negb (N.land n 128 =? 0) = (128 <=? n).
Proof. intros H. apply eqb_prop. revert n H. apply (all_bytes (fun n => Bool.eqb _ _)). vm_compute. reflexivity. Qed.
Lemma lo8_mod n : lo8 n = n mod 256.
Proof. unfold lo8. change 255 with (N.ones 8). now rewrite N.land_ones. Qed.
Lemma hi8_div n : n < 65536 -> hi8 n = n / 256.
Proof.
  intros H. unfold hi8. change 255 with (N.ones 8). rewrite N.land_ones, N.shiftr_div_pow2. change (2 ^ 8) with 256.
  apply N.mod_small. apply N.div_lt_upper_bound; lia.
Qed.
Lemma rejoin n : n mod 256 + 256 * (n / 256) = n.
Proof. rewrite N.add_comm. symmetry. apply N.div_mod. lia. Qed.

Definition type_byte (s : setup) : N := (if su_in s then 128 else 0) + 32 * su_kind s + su_to s.
Section TypeByte.
Variable s : setup.
Hypothesis W : well_formed s.
Lemma type_small : type_byte s < 256.
Proof. destruct W as (A & B & _). unfold type_byte. destruct (su_in s); lia. Qed.
Lemma type_to : N.land (type_byte s) 31 = su_to s.
Proof.
  rewrite land31 by apply type_small. destruct W as (A & B & _). unfold type_byte.
  replace ((if su_in s then 128 else 0) + 32 * su_kind s + su_to s) with (su_to s + (if su_in s then 4 + su_kind s else su_kind s) * 32) by (destruct (su_in s); lia).
  rewrite N.mod_add by lia. now apply N.mod_small.
Qed.
Lemma type_kind : N.land (type_byte s) 96 = 32 * su_kind s.
Proof.
  rewrite land96 by apply type_small. destruct W as (A & B & _). f_equal. unfold type_byte.
  replace ((if su_in s then 128 else 0) + 32 * su_kind s + su_to s) with (su_to s + (if su_in s then 4 + su_kind s else su_kind s) * 32) by (destruct (su_in s); lia).
  rewrite N.div_add by lia. rewrite N.div_small by lia. rewrite N.add_0_l. destruct (su_in s).
  - replace (4 + su_kind s) with (su_kind s + 1 * 4) by lia. rewrite N.mod_add by lia. now apply N.mod_small.
  - now apply N.mod_small.
Qed.
Lemma type_in : negb (N.land (type_byte s) 128 =? 0) = su_in s.
Proof.
  rewrite land128 by apply type_small. destruct W as (A & B & _). unfold type_byte.
  destruct (su_in s); [apply N.leb_le|apply N.leb_gt]; lia.
Qed.
End TypeByte.

(** *** Lists *)
Lemma firstn_app_exact {A} (l1 l2 : list A) n : n = length l1 -> firstn n (l1 ++ l2) = l1.
Proof. intros ->. rewrite firstn_app, Nat.sub_diag, firstn_all. cbn. now rewrite app_nil_r. Qed.
Lemma set_nth_length {A} (l : list A) i v : length (set_nth l i v) = length l.
Proof. revert i. induction l as [|x l IH]; intros [|i]; cbn; auto. Qed.
Lemma nth_set_nth {A} (l : list A) i j v dflt : (i < length l)%nat -> nth j (set_nth l i v) dflt = if (j =? i)%nat then v else nth j l dflt.
Proof.
  revert i j. induction l as [|x l IH]; intros [|i] [|j] H; cbn in *; try lia; try reflexivity. rewrite IH by lia. reflexivity.
Qed.
Lemma memcpy_ok dst src n : (N.to_nat n <= length dst)%nat -> (N.to_nat n <= length src)%nat ->
  memcpy dst src n = Ok (firstn (N.to_nat n) src ++ skipn (N.to_nat n) dst).
Proof. intros A B. unfold memcpy. apply Nat.leb_le in A, B. now rewrite A, B. Qed.
Lemma memcpy_length dst src n b : memcpy dst src n = Ok b -> length b = length dst.
Proof.
  unfold memcpy. destruct ((N.to_nat n <=? length dst)%nat && (N.to_nat n <=? length src)%nat) eqn:E; [|discriminate].
  apply andb_prop in E as [A B]. apply Nat.leb_le in A, B. intros H. injection H as <-. rewrite app_length, firstn_length, skipn_length. lia.
Qed.

(** *** What always holds *)
Record fine (d : usbdev) : Prop := {
  fi_buf : length (ud_buf d) = 64%nat;
  fi_eps : length (ud_eps d) = 3%nat;
  fi_ep : Forall (fun e => length (ep_buf e) = 64%nat /\ (ep_res e = HsAck -> ep_busy e = true)) (ud_eps d);
  fi_idle : length (st_idle (ud_stat d)) = 3%nat;
  fi_proto : length (st_proto (ud_stat d)) = 3%nat;
  fi_addr : st_addr (ud_stat d) < 128 /\ ud_address d < 128;
  fi_descr : N.land (rq_type (ud_req d)) 96 = 0 -> rq_code (ud_req d) = 6 -> (N.to_nat (ud_len d) <= length (ud_descr d))%nat
}.
Lemma init_fine : fine usb_init.
Proof. split; try reflexivity; cbn; try lia. repeat constructor; discriminate. Qed.

(** The device with the setup packet read. *)
Definition begun (s : setup) (d : usbdev) : usbdev :=
  mkUd (packet s ++ skipn 8 (ud_buf d)) (ud_descr d) (mkReq (type_byte s) (su_request s) (su_value s) (su_index s)) (su_length s)
       (ud_stat d) (ud_address d) (ud_tx_len d) (mkC0 true HsNak true HsNak) (ud_eps d).
Lemma begin_setup s d : well_formed s -> length (ud_buf d) = 64%nat ->
  on_setup (packet s) d =
  let! (err, d1) := if negb (32 * su_kind s =? 0) then Ok (if 32 * su_kind s =? 32 then class_request (begun s d) else (false, begun s d))
                    else standard_request (begun s d) in Ok (finish_setup err d1).
Proof.
  intros W L. unfold on_setup. rewrite memcpy_ok by (cbn; lia). cbn [bind].
  replace (read_setup (set_buf (firstn (N.to_nat 8) (packet s) ++ skipn (N.to_nat 8) (ud_buf d)) d)) with (begun s d).
  - replace (N.land (rq_type (ud_req (begun s d))) 96) with (32 * su_kind s) by (symmetry; now apply type_kind). reflexivity.
  - unfold begun, read_setup, set_buf, set_c0, set_req, set_len. cbn [ud_buf ud_descr ud_req ud_len ud_stat ud_address ud_tx_len ud_c0 ud_eps].
    change (N.to_nat 8) with 8%nat. unfold packet, byte_at. cbn [firstn app nth]. now rewrite !rejoin.
Qed.
Lemma begun_buf s d : length (ud_buf d) = 64%nat -> length (ud_buf (begun s d)) = 64%nat.
Proof. intros H. cbn [begun ud_buf]. rewrite app_length, skipn_length, H. reflexivity. Qed.

(** *** Descriptors: the lengths are those of the arrays *)
Lemma find_descriptor_spec s : su_value s < 65536 ->
  match find_descriptor (su_value s) (su_index s) with
  | Some (p, len) => has_descriptor (su_value s / 256) (su_value s mod 256) (su_index s) (firstn (N.to_nat len) p)
                     /\ (N.to_nat len <= length p)%nat /\ len mod 64 <> 0
                     /\ forall b, has_descriptor (su_value s / 256) (su_value s mod 256) (su_index s) b -> b = firstn (N.to_nat len) p
  | None => forall b, ~ has_descriptor (su_value s / 256) (su_value s mod 256) (su_index s) b
  end.
Proof.
  intros H. unfold find_descriptor. rewrite hi8_div, lo8_mod by assumption.
  generalize (su_value s / 256). generalize (su_value s mod 256). generalize (su_index s). clear. intros i n t.
  assert (T : t = 1 \/ t = 2 \/ t = 3 \/ t = 33 \/ t = 34 \/ ~ In t [1; 2; 3; 33; 34]).
  { destruct (in_dec N.eq_dec t [1; 2; 3; 33; 34]) as [I|I]; [|auto 7]. cbn in I. intuition auto. }
  assert (Hnone : forall b, ~ In t [1; 2; 3; 33; 34] -> ~ has_descriptor t n i b).
  { intros b I X. apply I. inversion X; subst; cbn; auto 10. }
  destruct T as [->|[->|[->|[->|[->|T]]]]].
  - split; [apply hd_device|]. split; [apply Nat.leb_le; vm_compute; reflexivity|]. split; [vm_compute; discriminate|]. intros b X. inversion X; subst. vm_compute. reflexivity.
  - split; [apply hd_configuration|]. split; [apply Nat.leb_le; vm_compute; reflexivity|]. split; [vm_compute; discriminate|]. intros b X. inversion X; subst. vm_compute. reflexivity.
  - assert (N' : n = 0 \/ n = 1 \/ n = 2 \/ n = 3 \/ 4 <= n) by lia.
    destruct N' as [->|[->|[->|[->|N']]]];
      try (split; [apply hd_string; vm_compute; reflexivity|]; split; [apply Nat.leb_le; vm_compute; reflexivity|]; split; [vm_compute; discriminate|]; intros b X; inversion X as [| |? ? ? Y|? ? ? Y|? ? ? Y]; subst; vm_compute in Y; injection Y as <-; vm_compute; reflexivity).
    assert (E : (match n with 0 => Some (MyLangDescr, LANG_DESC_LEN) | 1 => Some (MyManuInfo, MANU_DESC_LEN) | 2 => Some (MyProdInfo, PROD_DESC_LEN) | 3 => Some (MySerNumInfo, SN_DESC_LEN) | _ => None end) = None)
      by (destruct n as [|[[p|p|]|[p|p|]|]]; try reflexivity; lia).
    rewrite E. intros b X. inversion X as [| |? ? ? Y| |]; subst. assert (Z : nth_error strings (N.to_nat n) <> None) by congruence. apply nth_error_Some in Z. cbn in Z. lia.
  - assert (N' : i = 0 \/ i = 1 \/ i = 2 \/ 3 <= i) by lia.
    destruct N' as [->|[->|[->|N']]];
      try (split; [apply hd_hid; vm_compute; reflexivity|]; split; [apply Nat.leb_le; vm_compute; reflexivity|]; split; [vm_compute; discriminate|]; intros b X; inversion X as [| |? ? ? Y|? ? ? Y|? ? ? Y]; subst; vm_compute in Y; injection Y as <-; vm_compute; reflexivity).
    assert (E : (match i with 0 => Some (skipn 18 MyCfgDescr, 9) | 1 => Some (skipn 43 MyCfgDescr, 9) | 2 => Some (skipn 68 MyCfgDescr, 9) | _ => None end) = None)
      by (destruct i as [|[[p|p|]|[p|p|]|]]; try reflexivity; lia).
    rewrite E. intros b X. inversion X as [| | |? ? ? Y|]; subst. clear - Y N'. destruct i as [|[[p|p|]|[p|p|]|]]; try lia; vm_compute in Y; discriminate Y.
  - assert (N' : i = 0 \/ i = 1 \/ i = 2 \/ 3 <= i) by lia.
    destruct N' as [->|[->|[->|N']]];
      try (split; [apply hd_report; vm_compute; reflexivity|]; split; [apply Nat.leb_le; vm_compute; reflexivity|]; split; [vm_compute; discriminate|]; intros b X; inversion X as [| |? ? ? Y|? ? ? Y|? ? ? Y]; subst; vm_compute in Y; injection Y as <-; vm_compute; reflexivity).
    assert (E : (match i with 0 => Some (KeyRepDesc, REPORT_DESC_LEN_KB) | 1 => Some (MouseRepDesc, REPORT_DESC_LEN_MS) | 2 => Some (ConsumerRepDesc, REPORT_DESC_LEN_CONSUMER) | _ => None end) = None)
      by (destruct i as [|[[p|p|]|[p|p|]|]]; try reflexivity; lia).
    rewrite E. intros b X. inversion X as [| | | |? ? ? Y]; subst. assert (Z : nth_error report_descriptors (N.to_nat i) <> None) by congruence. apply nth_error_Some in Z. cbn in Z. lia.
  - match goal with |- match ?m with _ => _ end => assert (E : m = None) end.
    { cbn [In] in T. destruct t as [|p]; [reflexivity|]. repeat (destruct p as [p|p|]; try reflexivity; try (exfalso; apply T; auto 10; fail)). }
    rewrite E. intros b. now apply Hnone.
Qed.

(** *** Every event keeps the device fine *)
Record mid (d : usbdev) : Prop := {
  mi_buf : length (ud_buf d) = 64%nat;
  mi_eps : length (ud_eps d) = 3%nat;
  mi_ep : Forall (fun e => length (ep_buf e) = 64%nat /\ (ep_res e = HsAck -> ep_busy e = true)) (ud_eps d);
  mi_idle : length (st_idle (ud_stat d)) = 3%nat;
  mi_proto : length (st_proto (ud_stat d)) = 3%nat;
  mi_addr : st_addr (ud_stat d) < 128 /\ ud_address d < 128
}.
Definition served (d : usbdev) : Prop :=
  N.land (rq_type (ud_req d)) 96 = 0 -> rq_code (ud_req d) = 6 -> (N.to_nat (ud_len d) <= length (ud_descr d))%nat.
Lemma fine_iff d : fine d <-> mid d /\ served d.
Proof. split; [intros []; split; [split; assumption|assumption]|intros [[] ?]; split; assumption]. Qed.

Lemma ep_put_ok l i e : Forall (fun e => length (ep_buf e) = 64%nat /\ (ep_res e = HsAck -> ep_busy e = true)) l ->
  length (ep_buf e) = 64%nat \/ (length l <= i)%nat -> (ep_res e = HsAck -> ep_busy e = true) ->
  Forall (fun e => length (ep_buf e) = 64%nat /\ (ep_res e = HsAck -> ep_busy e = true)) (set_nth l i e).
Proof.
  intros H. revert i. induction H as [|x l Hx Hl IH]; intros [|i] [A|A] B; cbn in *; try constructor; auto; try lia.
  apply IH; [right; lia|assumption].
Qed.
Lemma ep_buf_at d i : mid d -> length (ep_buf (ep_at d i)) = 64%nat \/ (length (ud_eps d) <= i)%nat.
Proof.
  intros M. destruct (Nat.ltb_spec i (length (ud_eps d))) as [L|L]; [left|now right].
  pose proof (mi_ep _ M) as F. rewrite Forall_forall in F. apply (F (ep_at d i)). unfold ep_at. now apply nth_In.
Qed.
Lemma put_ep_mid d i e : mid d -> (length (ep_buf e) = 64%nat \/ (length (ud_eps d) <= i)%nat) -> (ep_res e = HsAck -> ep_busy e = true) -> mid (put_ep i e d).
Proof.
  intros M A B. destruct M. split; cbn [put_ep set_eps ud_buf ud_eps ud_stat ud_address]; auto.
  - now rewrite set_nth_length.
  - now apply ep_put_ok.
Qed.
Lemma set_buf_mid d b : mid d -> length b = 64%nat -> mid (set_buf b d).
Proof. intros [] H. split; cbn; auto. Qed.
Lemma set_len_mid d n : mid d -> mid (set_len n d).
Proof. intros []. split; cbn; auto. Qed.
Lemma set_descr_mid d n : mid d -> mid (set_descr n d).
Proof. intros []. split; cbn; auto. Qed.
Lemma set_c0_mid d n : mid d -> mid (set_c0 n d).
Proof. intros []. split; cbn; auto. Qed.
Lemma set_tx_mid d n : mid d -> mid (set_tx_len n d).
Proof. intros []. split; cbn; auto. Qed.
Lemma set_stat_mid d s : mid d -> length (st_idle s) = 3%nat -> length (st_proto s) = 3%nat -> st_addr s < 128 -> mid (set_stat s d).
Proof. intros [] ? ? ?. split; cbn; intuition auto. Qed.
Lemma begun_mid s d : mid d -> mid (begun s d).
Proof. intros M. pose proof (begun_buf s d (mi_buf _ M)). destruct M. split; cbn [begun ud_eps ud_stat ud_address]; auto. Qed.

(** What serving a request leaves alone. *)
Definition keeps_request (d d1 : usbdev) : Prop := ud_req d1 = ud_req d.
Lemma class_mid d err d1 : mid d -> class_request d = (err, d1) -> mid d1 /\ keeps_request d d1.
Proof.
  intros M. unfold class_request, keeps_request.
  assert (X : forall b x, (if b : bool then (false, x) else (true, d)) = (err, d1) -> mid x -> ud_req x = ud_req d -> mid d1 /\ ud_req d1 = ud_req d).
  { intros [] x E A B; injection E as <- <-; auto. }
  assert (Y : forall b x, (b, x) = (err, d1) -> mid x -> ud_req x = ud_req d -> mid d1 /\ ud_req d1 = ud_req d).
  { intros b x E A B; injection E as <- <-; auto. }
  pose proof (mi_idle _ M). pose proof (mi_proto _ M). pose proof (mi_addr _ M). pose proof (mi_buf _ M).
  destruct (rq_code (ud_req d)) as [|p]; [intros E; apply (Y _ _ E); auto|].
  repeat (destruct p as [p|p|]; try (intros E; apply (Y _ _ E); now auto));
    intros E; apply (X _ _ E); try reflexivity;
    first [apply set_stat_mid; [assumption|cbn; rewrite ?set_nth_length; tauto|cbn; rewrite ?set_nth_length; tauto|cbn; tauto]
          |apply set_buf_mid; [assumption|now rewrite set_nth_length]].
Qed.
Lemma clear_mid d err d1 : mid d -> clear_feature d = (err, d1) -> mid d1 /\ keeps_request d d1.
Proof.
  intros M. unfold clear_feature, keeps_request. pose proof (mi_idle _ M). pose proof (mi_proto _ M). pose proof (mi_addr _ M).
  destruct (_ =? 0). { destruct (_ =? 1); intros E; injection E as <- <-; [|auto]. split; [|reflexivity]. apply set_stat_mid; cbn; tauto. }
  destruct (_ =? 2); [|intros E; injection E as <- <-; auto]. destruct (_ =? 0); [|intros E; injection E as <- <-; auto].
  destruct (endpoint_of _) as [i|]; intros E; injection E as <- <-; [|auto]. split; [|reflexivity].
  apply put_ep_mid; [assumption|apply (ep_buf_at d i M)|discriminate].
Qed.
Lemma setf_mid d err d1 : mid d -> set_feature d = (err, d1) -> mid d1 /\ keeps_request d d1.
Proof.
  intros M. unfold set_feature, keeps_request. pose proof (mi_idle _ M). pose proof (mi_proto _ M). pose proof (mi_addr _ M).
  destruct (_ =? 0). { destruct (_ =? 1); [destruct (negb _)|]; intros E; injection E as <- <-; [|auto|auto]. split; [|reflexivity]. apply set_stat_mid; cbn; tauto. }
  destruct (_ =? 2); [|intros E; injection E as <- <-; auto]. destruct (_ =? 0); [|intros E; injection E as <- <-; auto].
  destruct (endpoint_of _) as [i|]; intros E; injection E as <- <-; [|auto]. split; [|reflexivity].
  apply put_ep_mid; [assumption|apply (ep_buf_at d i M)|discriminate].
Qed.
Lemma status_mid d err d1 : mid d -> get_status d = (err, d1) -> mid d1 /\ keeps_request d d1.
Proof.
  intros M. unfold get_status, keeps_request. pose proof (mi_buf _ M) as Hb.
  assert (M0 : mid (set_buf (set_nth (set_nth (ud_buf d) 0 0) 1 0) d)) by (apply set_buf_mid; [assumption|now rewrite !set_nth_length]).
  set (d0 := set_buf (set_nth (set_nth (ud_buf d) 0 0) 1 0) d) in *.
  assert (L : length (ud_buf d0) = 64%nat) by (cbn; now rewrite !set_nth_length).
  assert (X : forall b x, mid x -> ud_req x = ud_req d -> (b, if 2 <? ud_len x then set_len 2 x else x) = (err, d1) -> mid d1 /\ ud_req d1 = ud_req d).
  { intros b x A B E. injection E as <- <-. destruct (2 <? ud_len x); [split; [now apply set_len_mid|assumption]|auto]. }
  destruct (_ =? 0). { apply X; [apply set_buf_mid; [assumption|now rewrite set_nth_length]|reflexivity]. }
  destruct (_ =? 2); [|apply X; [assumption|reflexivity]]. destruct (endpoint_of _) as [i|]; [|apply X; [assumption|reflexivity]].
  destruct (is_stall _); [|apply X; [assumption|reflexivity]]. apply X; [apply set_buf_mid; [assumption|now rewrite set_nth_length]|reflexivity].
Qed.

(** GET_DESCRIPTOR, with the descriptor found. *)
Definition found (d : usbdev) : bool * list u8 * N :=
  match find_descriptor (rq_value (ud_req d)) (rq_index (ud_req d)) with
  | Some (p, len) => (false, p, len)
  | None => (true, ud_descr d, 0)
  end.
Lemma get_descriptor_ok s d : well_formed s -> mid d -> exists err p len,
  found (begun s d) = (err, p, len) /\ (N.to_nat len <= length p)%nat /\
  get_descriptor (begun s d) =
    Ok (err, mkUd (firstn (N.to_nat (N.min 64 (N.min len (su_length s)))) p ++ skipn (N.to_nat (N.min 64 (N.min len (su_length s)))) (ud_buf (begun s d)))
                  (skipn (N.to_nat (N.min 64 (N.min len (su_length s)))) p) (ud_req (begun s d)) (N.min len (su_length s))
                  (ud_stat d) (ud_address d) (ud_tx_len d) (mkC0 true HsNak true HsNak) (ud_eps d)).
Proof.
  intros W M. unfold found. cbn [begun ud_req rq_value rq_index].
  assert (X : exists err p len, match find_descriptor (su_value s) (su_index s) with
            | Some (p, len) => (false, p, len) | None => (true, ud_descr d, 0) end = (err, p, len) /\ (N.to_nat len <= length p)%nat).
  { pose proof (find_descriptor_spec s) as F. destruct (find_descriptor (su_value s) (su_index s)) as [[p len]|].
    - eexists _, _, _. split; [reflexivity|]. apply F. apply W.
    - eexists _, _, _. split; [reflexivity|]. cbn. lia. }
  destruct X as (err & p & len & E & L). exists err, p, len. split; [exact E|]. split; [exact L|].
  unfold get_descriptor. cbn [begun ud_req rq_value rq_index ud_descr ud_len]. rewrite E. cbv zeta.
  replace (if len <? su_length s then len else su_length s) with (N.min len (su_length s)) by (destruct (N.ltb_spec len (su_length s)); lia).
  replace (if UEP0_SIZE <=? N.min len (su_length s) then UEP0_SIZE else N.min len (su_length s)) with (N.min 64 (N.min len (su_length s)))
    by (unfold UEP0_SIZE; destruct (N.leb_spec 64 (N.min len (su_length s))); lia).
  rewrite memcpy_ok; [reflexivity| |lia]. rewrite begun_buf by apply (mi_buf _ M). lia.
Qed.
Lemma finish_mid err d : mid d -> mid (finish_setup err d) /\ ud_req (finish_setup err d) = ud_req d /\ ud_descr (finish_setup err d) = ud_descr d.
Proof.
  intros M. unfold finish_setup. destruct err. { split; [now apply set_c0_mid|auto]. }
  destruct (negb _). { split; [now apply set_c0_mid, set_tx_mid, set_len_mid|auto]. }
  destruct (_ =? 0). { split; [now apply set_c0_mid, set_tx_mid|auto]. } split; [now apply set_c0_mid|auto].
Qed.
Lemma setup_fine s d : mid d -> well_formed s -> (su_kind s = 0 -> su_request s = 6 -> su_in s = true) -> (su_kind s = 0 -> su_request s = 5 -> su_value s < 128) ->
  exists d', on_setup (packet s) d = Ok d' /\ fine d'.
Proof.
  intros M W H6 H5. rewrite begin_setup by (assumption || apply (mi_buf _ M)).
  pose proof (begun_mid s d M) as MB.
  assert (K : N.land (rq_type (ud_req (begun s d))) 96 = 32 * su_kind s) by (now apply type_kind).
  assert (Fin : forall err d1, mid d1 -> keeps_request (begun s d) d1 -> (su_kind s = 0 -> su_request s <> 6) -> fine (finish_setup err d1)).
  { intros err d1 M1 R1 Hn. destruct (finish_mid err d1 M1) as (A & B & C). apply fine_iff. split; [exact A|]. intros Y Z. rewrite B, R1 in Y, Z. rewrite K in Y. cbn in Z. exfalso. apply Hn; [lia|assumption]. }
  destruct (negb (32 * su_kind s =? 0)) eqn:E0.
  { assert (K0 : su_kind s <> 0) by (intros Z; rewrite Z in E0; discriminate). destruct (32 * su_kind s =? 32).
    - destruct (class_request (begun s d)) as [err d1] eqn:E. cbn [bind]. destruct (class_mid _ _ _ MB E) as (A & B). eexists. split; [reflexivity|]. apply Fin; auto; congruence.
    - cbn [bind]. eexists. split; [reflexivity|]. apply Fin; auto; try reflexivity; congruence. }
  assert (K0 : su_kind s = 0) by (destruct (N.eqb_spec (32 * su_kind s) 0); [lia|discriminate]).
  destruct (N.eq_dec (su_request s) 6) as [C6|C6].
  { unfold standard_request. cbn [begun ud_req rq_code]. rewrite C6. fold (begun s d).
    destruct (get_descriptor_ok s d W M) as (err & p & len & F & L & G). rewrite G. cbn [bind]. eexists. split; [reflexivity|].
    assert (MG : mid (mkUd (firstn (N.to_nat (N.min 64 (N.min len (su_length s)))) p ++ skipn (N.to_nat (N.min 64 (N.min len (su_length s)))) (ud_buf (begun s d)))
                  (skipn (N.to_nat (N.min 64 (N.min len (su_length s)))) p) (ud_req (begun s d)) (N.min len (su_length s))
                  (ud_stat d) (ud_address d) (ud_tx_len d) (mkC0 true HsNak true HsNak) (ud_eps d))).
    { destruct M. split; cbn [ud_buf ud_eps ud_stat ud_address]; auto. rewrite app_length, firstn_length, skipn_length, begun_buf by assumption. lia. }
    destruct (finish_mid err _ MG) as (A & _). apply fine_iff. split; [exact A|]. intros _ _. unfold finish_setup. destruct err.
    - unfold found in F. destruct (find_descriptor _ _) as [[]|]; [discriminate F|]. injection F as <- <-. cbn. lia.
    - cbn [ud_req begun rq_type]. rewrite type_in by assumption. rewrite (H6 K0 C6).
      cbn [set_c0 set_tx_len set_len ud_len ud_descr]. rewrite skipn_length. unfold UEP0_SIZE. destruct (N.ltb_spec 64 (N.min len (su_length s))); lia. }
  assert (HS : exists err d1, standard_request (begun s d) = Ok (err, d1) /\ mid d1 /\ keeps_request (begun s d) d1).
  { assert (Hclip : forall x, mid x -> mid (clip1 x) /\ ud_req (clip1 x) = ud_req x) by (intros x Hx; unfold clip1; destruct (1 <? ud_len x); [split; [now apply set_len_mid|reflexivity]|auto]).
    pose proof (mi_idle _ M). pose proof (mi_proto _ M). pose proof (mi_addr _ M). pose proof (begun_buf s d (mi_buf _ M)).
    unfold standard_request. change (rq_code (ud_req (begun s d))) with (su_request s).
    assert (R : In (su_request s) [0; 1; 3; 5; 8; 9; 10; 11] \/ ~ In (su_request s) [0; 1; 3; 5; 8; 9; 10; 11]) by (destruct (in_dec N.eq_dec (su_request s) [0; 1; 3; 5; 8; 9; 10; 11]); auto).
    destruct R as [R|R].
    - cbn [In] in R. destruct R as [R|[R|[R|[R|[R|[R|[R|[R|[]]]]]]]]]; rewrite <- R.
      + destruct (get_status (begun s d)) as [e x] eqn:E. destruct (status_mid _ _ _ MB E). eauto.
      + destruct (clear_feature (begun s d)) as [e x] eqn:E. destruct (clear_mid _ _ _ MB E). eauto.
      + destruct (set_feature (begun s d)) as [e x] eqn:E. destruct (setf_mid _ _ _ MB E). eauto.
      + eexists _, _. split; [reflexivity|]. split; [|reflexivity]. apply set_stat_mid; cbn [begun ud_stat set_addr st_idle st_proto st_addr ud_req rq_value]; try tauto.
        rewrite lo8_mod. symmetry in R. pose proof (H5 K0 R). rewrite N.mod_small by lia. lia.
      + eexists _, _. split; [reflexivity|]. destruct (Hclip (set_buf (set_nth (ud_buf (begun s d)) 0 (st_config (ud_stat (begun s d)))) (begun s d))) as (A & B).
        { apply set_buf_mid; [assumption|now rewrite set_nth_length]. } split; [exact A|exact B].
      + eexists _, _. split; [reflexivity|]. split; [|reflexivity]. apply set_stat_mid; cbn; tauto.
      + eexists _, _. split; [reflexivity|]. destruct (Hclip (set_buf (set_nth (ud_buf (begun s d)) 0 0) (begun s d))) as (A & B).
        { apply set_buf_mid; [assumption|now rewrite set_nth_length]. } split; [exact A|exact B].
      + eexists _, _. split; [reflexivity|]. split; [assumption|reflexivity].
    - exists true, (begun s d). split; [|split; [assumption|reflexivity]].
      cbn [In] in R. destruct (su_request s) as [|p]; [exfalso; auto|]. repeat (destruct p as [p|p|]; try reflexivity; try (exfalso; apply R; auto 10; fail); try (exfalso; apply C6; reflexivity)). }
  destruct HS as (err & d1 & -> & A & B). cbn [bind]. eexists. split; [reflexivity|]. apply Fin; auto.
Qed.

Definition in0_base (d : usbdev) : usbdev := if ud_len d =? 0 then set_c0 (mkC0 false HsAck true HsAck) d else d.
Definition in0_chunk (d : usbdev) : N := N.min 64 (ud_len d).
Definition in0_serve (d : usbdev) : res usbdev :=
  let! buf := memcpy (ud_buf d) (ud_descr d) (in0_chunk d) in
  Ok (set_c0 (mkC0 (negb (t_tog (ud_c0 d))) (t_res (ud_c0 d)) (r_tog (ud_c0 d)) (r_res (ud_c0 d)))
       (set_tx_len (in0_chunk d) (set_descr (skipn (N.to_nat (in0_chunk d)) (ud_descr d)) (set_len (ud_len d - in0_chunk d) (set_buf buf d))))).
Definition in0_address (d : usbdev) : usbdev := set_address (N.lor (N.land (ud_address d) 128) (st_addr (ud_stat d))) d.
Lemma in0_shape d :
  (N.land (rq_type (ud_req d)) 96 = 0 /\ rq_code (ud_req d) = 6 /\ on_in0 d = in0_serve (in0_base d))
  \/ (N.land (rq_type (ud_req d)) 96 = 0 /\ rq_code (ud_req d) = 5 /\ on_in0 d = Ok (in0_address (in0_base d)))
  \/ (~ (N.land (rq_type (ud_req d)) 96 = 0 /\ (rq_code (ud_req d) = 5 \/ rq_code (ud_req d) = 6)) /\ on_in0 d = Ok (in0_base d)).
Proof.
  assert (Er : ud_req (in0_base d) = ud_req d) by (unfold in0_base; destruct (_ =? 0); reflexivity).
  unfold on_in0. fold (in0_base d). rewrite <- Er. generalize (in0_base d). clear. intros d.
  destruct (N.eqb_spec (N.land (rq_type (ud_req d)) 96) 0) as [K|K]; cbn [negb]; [|right; right; split; [tauto|reflexivity]].
  destruct (N.eq_dec (rq_code (ud_req d)) 6) as [C|C].
  - left. split; [exact K|]. split; [exact C|]. rewrite C. unfold in0_serve, in0_chunk.
    replace (if UEP0_SIZE <=? ud_len d then UEP0_SIZE else ud_len d) with (N.min 64 (ud_len d)) by (unfold UEP0_SIZE; destruct (N.leb_spec 64 (ud_len d)); lia).
    reflexivity.
  - right. destruct (N.eq_dec (rq_code (ud_req d)) 5) as [C'|C'].
    + left. rewrite C'. auto.
    + right. split; [tauto|]. destruct (rq_code (ud_req d)) as [|p]; [reflexivity|].
      repeat (destruct p as [p|p|]; try reflexivity; try (exfalso; apply C; reflexivity); try (exfalso; apply C'; reflexivity)).
Qed.
Lemma base_same d : ud_buf (in0_base d) = ud_buf d /\ ud_descr (in0_base d) = ud_descr d /\ ud_req (in0_base d) = ud_req d /\ ud_len (in0_base d) = ud_len d
  /\ ud_stat (in0_base d) = ud_stat d /\ ud_address (in0_base d) = ud_address d /\ ud_eps (in0_base d) = ud_eps d /\ ud_tx_len (in0_base d) = ud_tx_len d.
Proof. unfold in0_base. destruct (_ =? 0); repeat split. Qed.
Lemma base_mid d : mid d -> mid (in0_base d).
Proof. unfold in0_base. destruct (_ =? 0); [now apply set_c0_mid|auto]. Qed.
Lemma in0_fine d : fine d -> exists d', on_in0 d = Ok d' /\ fine d'.
Proof.
  intros F. apply fine_iff in F as (M & Sv). pose proof (base_mid _ M) as M0.
  destruct (base_same d) as (Eb & Ed & Er & El & Es & Ea & Ee & Et).
  assert (S0 : served (in0_base d)) by (unfold served; now rewrite Er, El, Ed).
  destruct (in0_shape d) as [(K & C & ->)|[(K & C & ->)|(_ & ->)]].
  - specialize (Sv K C). unfold in0_serve, in0_chunk. rewrite memcpy_ok; [|rewrite (mi_buf _ M0), El; lia|rewrite El, Ed; lia]. cbn [bind]. eexists. split; [reflexivity|]. apply fine_iff. split.
    + apply set_c0_mid, set_tx_mid, set_descr_mid, set_len_mid, set_buf_mid; [assumption|]. rewrite app_length, firstn_length, skipn_length, (mi_buf _ M0), Ed, El. lia.
    + intros _ _. cbn [set_c0 set_tx_len set_descr set_len set_buf ud_len ud_descr]. rewrite skipn_length, El, Ed. lia.
  - eexists. split; [reflexivity|]. apply fine_iff. split; [|exact S0].
    assert (A : N.lor (N.land (ud_address (in0_base d)) 128) (st_addr (ud_stat (in0_base d))) < 128).
    { pose proof (mi_addr _ M0) as (A & B). replace (N.land (ud_address (in0_base d)) 128) with 0; [now rewrite N.lor_0_l|].
      symmetry. pose proof (land128 (ud_address (in0_base d))) as Z. assert (Z' : ud_address (in0_base d) < 256) by lia. specialize (Z Z'). destruct (N.leb_spec 128 (ud_address (in0_base d))); [lia|].
      destruct (N.eqb_spec (N.land (ud_address (in0_base d)) 128) 0); [assumption|discriminate Z]. }
    destruct M0. split; cbn [in0_address set_address ud_buf ud_eps ud_stat ud_address]; tauto.
  - eexists. split; [reflexivity|]. now apply fine_iff.
Qed.
Lemma out0_fine t data d : fine d -> (length data <= 64)%nat -> exists d', on_out0 t data d = Ok d' /\ fine d'.
Proof.
  intros F L. apply fine_iff in F as (M & Sv). unfold on_out0. rewrite memcpy_ok; [|rewrite (mi_buf _ M); lia|lia]. cbn [bind].
  set (b := firstn _ _ ++ _). assert (Lb : length b = 64%nat) by (subst b; rewrite app_length, firstn_length, skipn_length, (mi_buf _ M); lia).
  assert (Mb : mid (set_buf b d)) by now apply set_buf_mid.
  set (d1 := if t && _ && _ then _ else _). eexists. split; [reflexivity|].
  assert (M1 : mid d1). { subst d1. destruct (t && _ && _); [|assumption]. apply set_len_mid, set_stat_mid; cbn; destruct M; tauto. }
  assert (S1 : served d1). { subst d1. destruct (t && _ && _); [|exact Sv]. intros _ _. cbn. lia. }
  apply fine_iff. destruct (ud_len d1 =? 0); [|now split]. split; [now apply set_c0_mid, set_tx_mid|]. exact S1.
Qed.
Lemma step_fine ev d : fine d -> proper_event ev -> exists d', usb_step ev d = Ok d' /\ fine d'.
Proof.
  intros F P. pose proof F as F'. apply fine_iff in F' as (M & Sv). destruct ev as [p|e|tog data| |a|e data]; cbn [usb_step proper_event] in *.
  - destruct P as (s & W & -> & A & B). now apply setup_fine.
  - destruct (answer_in e d); try (eexists; split; [reflexivity|assumption]). destruct e as [|i]; [now apply in0_fine|].
    eexists. split; [reflexivity|]. apply fine_iff. split; [|exact Sv]. unfold on_in. apply put_ep_mid; [assumption|apply (ep_buf_at d i M)|discriminate].
  - destruct (r_res (ud_c0 d)); try (eexists; split; [reflexivity|assumption]). now apply out0_fine.
  - eexists. split; [reflexivity|]. apply fine_iff. split; [|exact Sv]. destruct M as [Mb Me Mf Mi Mp Ma]. split; cbn [on_reset set_eps set_c0 set_address set_stat ud_buf ud_eps ud_stat ud_address st_idle st_proto st_addr]; auto; [now rewrite map_length| |lia].
    apply Forall_map. eapply Forall_impl; [|exact Mf]. intros x (X & _). split; [exact X|discriminate].
  - eexists. split; [reflexivity|]. apply fine_iff. split; [|exact Sv]. apply set_stat_mid; [assumption|apply (mi_idle _ M)|apply (mi_proto _ M)|apply (mi_addr _ M)].
  - destruct e as [|i]; [eexists; split; [reflexivity|assumption]|]. unfold data_up. destruct (ep_busy (ep_at d i)) eqn:Eb; [eexists; split; [reflexivity|assumption]|].
    assert (Li : (i < length (ud_eps d))%nat) by (rewrite (mi_eps _ M); lia).
    assert (Lb : length (ep_buf (ep_at d i)) = 64%nat) by (destruct (ep_buf_at d i M); [assumption|lia]).
    rewrite memcpy_ok; [|rewrite Lb; lia|lia]. cbn [bind]. eexists. split; [reflexivity|]. apply fine_iff. split; [|exact Sv].
    apply put_ep_mid; [assumption| |reflexivity]. left. cbn [ep_buf]. rewrite app_length, firstn_length, skipn_length, Lb. lia.
Qed.
Lemma run_fine evs : forall d, fine d -> Forall proper_event evs -> exists d', usb_run evs d = Ok d' /\ fine d'.
Proof.
  induction evs as [|ev evs IH]; intros d F P; [exists d; split; [reflexivity|assumption]|]. inversion P; subst.
  destruct (step_fine ev d F) as (d1 & E & F1); [assumption|]. destruct (IH d1 F1) as (d2 & E2 & F2); [assumption|].
  exists d2. split; [|assumption]. unfold usb_run in *. cbn [fold_res]. rewrite E. exact E2.
Qed.
Lemma reachable_fine d : reachable d -> fine d.
Proof. intros (evs & P & R). destruct (run_fine evs _ init_fine P) as (d' & E & F). congruence. Qed.

(** *** Beside control transfers *)
Definition same_ep0 (d d' : usbdev) : Prop :=
  ud_buf d' = ud_buf d /\ ud_descr d' = ud_descr d /\ ud_req d' = ud_req d /\ ud_len d' = ud_len d /\ ud_tx_len d' = ud_tx_len d /\ ud_c0 d' = ud_c0 d.
Lemma odd_lor2 n : N.odd (N.lor n 2) = N.odd n.
Proof. rewrite <- !N.bit0_odd, N.lor_spec. cbn. now rewrite orb_false_r. Qed.
Lemma odd_ldiff2 n : N.odd (N.ldiff n 2) = N.odd n.
Proof. rewrite <- !N.bit0_odd, N.ldiff_spec. cbn. now rewrite andb_true_r. Qed.
Lemma aside_frame ev d d' : aside ev -> usb_step ev d = Ok d' ->
  same_ep0 d d' /\ settings_of d' = settings_of d /\ st_addr (ud_stat d') = st_addr (ud_stat d).
Proof.
  intros A. destruct ev as [p|[|i]|tog data| |a|e data]; try contradiction A; cbn [usb_step].
  - destruct (answer_in (S i) d); intros E; injection E as <-; repeat split.
  - intros E. injection E as <-. split; [repeat split|]. split; [|reflexivity]. unfold settings_of. cbn. destruct a; now rewrite ?odd_lor2, ?odd_ldiff2.
  - destruct e as [|i]; [intros E; injection E as <-; repeat split|]. unfold data_up. destruct (ep_busy _); [intros E; injection E as <-; repeat split|].
    destruct (memcpy _ _ _); [|discriminate|discriminate]. intros E. injection E as <-. repeat split.
Qed.

(** *** Reading *)
Section Reading.
Variable w : N.
(** All the bytes the host is to get. *)
Variable all : list u8.
Hypothesis Hw : N.of_nat (length all) <= w.
(** A transfer that ends before the host has what it wants ends with a packet that is
    not full. *)
Hypothesis Hshort : N.of_nat (length all) < w -> (length all mod 64 <> 0)%nat.

(** The device offers the packet that begins at byte [a]. *)
Record serving (a : nat) (tog : bool) (d : usbdev) : Prop := {
  sv_c0 : exists rt, ud_c0 d = mkC0 tog HsAck rt HsAck;
  sv_buf : length (ud_buf d) = 64%nat;
  sv_tx : N.to_nat (ud_tx_len d) = Nat.min 64 (length all - a);
  sv_packet : firstn (N.to_nat (ud_tx_len d)) (ud_buf d) = firstn 64 (skipn a all);
  sv_len : N.to_nat (ud_len d) = (length all - a - 64)%nat;
  sv_more : (64 < length all - a)%nat ->
    N.land (rq_type (ud_req d)) 96 = 0 /\ rq_code (ud_req d) = 6 /\ (length all - a - 64 <= length (ud_descr d))%nat
    /\ firstn (length all - a - 64) (ud_descr d) = skipn (a + 64) all
}.
Lemma serving_answer a tog d : serving a tog d -> answer_in 0 d = InData tog (firstn 64 (skipn a all)).
Proof. intros Sv. cbn. destruct (sv_c0 _ _ _ Sv) as (rt & ->). cbn. now rewrite (sv_packet _ _ _ Sv). Qed.
Lemma skipn_add {A} n m (l : list A) : skipn n (skipn m l) = skipn (m + n) l.
Proof. revert m. induction l as [|x l IH]; intros [|m]; cbn [skipn Nat.add]; auto. destruct n; reflexivity. Qed.
Lemma firstn_firstn_min {A} n m (l : list A) : firstn n (firstn m l) = firstn (Nat.min n m) l.
Proof. apply firstn_firstn. Qed.
Lemma serving_next a tog d : serving a tog d -> (64 < length all - a)%nat ->
  exists d', usb_step (UvIn 0) d = Ok d' /\ serving (a + 64) (negb tog) d'.
Proof.
  intros Sv Hm. destruct (sv_more _ _ _ Sv Hm) as (K & C & L & D). destruct (sv_c0 _ _ _ Sv) as (rt & Ec).
  pose proof (sv_len _ _ _ Sv) as El. unfold usb_step. rewrite (serving_answer _ _ _ Sv).
  destruct (in0_shape d) as [(_ & _ & ->)|[(_ & C' & _)|(C' & _)]]; [|congruence|tauto].
  assert (Eb : in0_base d = d) by (unfold in0_base; destruct (N.eqb_spec (ud_len d) 0); [lia|reflexivity]). rewrite Eb. unfold in0_serve, in0_chunk.
  assert (En : N.to_nat (N.min 64 (ud_len d)) = Nat.min 64 (length all - a - 64)) by lia.
  rewrite memcpy_ok; [|rewrite (sv_buf _ _ _ Sv); lia|lia]. cbn [bind]. eexists. split; [reflexivity|].
  split; cbn [set_c0 set_tx_len set_descr set_len set_buf ud_c0 ud_buf ud_tx_len ud_len ud_req ud_descr]; rewrite ?Ec; cbn [t_tog t_res r_tog r_res].
  - eauto.
  - rewrite app_length, firstn_length, skipn_length, (sv_buf _ _ _ Sv). lia.
  - lia.
  - rewrite firstn_app_exact by (rewrite firstn_length; lia). rewrite En. rewrite <- D, firstn_firstn_min. f_equal; lia.
  - lia.
  - intros Hm'. split; [exact K|]. split; [exact C|]. rewrite skipn_length. split; [lia|]. rewrite En.
    replace (Nat.min 64 (length all - a - 64)) with 64%nat by lia.
    rewrite <- skipn_add, <- D, skipn_firstn_comm. f_equal. lia.
Qed.
Lemma serving_same a tog d d' : same_ep0 d d' -> serving a tog d -> serving a tog d'.
Proof. intros (A & B & C & D & E & F) []. split; rewrite ?A, ?B, ?C, ?D, ?E, ?F; auto. Qed.

(** Device and host together. *)
Definition reading_ok (x : usbdev * reading) : Prop :=
  let '(d, r) := x in
  (rd_done r = true /\ rd_got r = all /\ takes_out d)
  \/ (rd_done r = false /\ exists a tog, (a mod 64 = 0)%nat /\ (a < length all)%nat /\ serving a tog d /\
      ((rd_tog r = tog /\ rd_got r = firstn a all) \/ (rd_tog r = negb tog /\ (64 < length all - a)%nat /\ rd_got r = firstn (a + 64) all))).
Lemma firstn_skipn_more {A} a n (l : list A) : firstn a l ++ firstn n (skipn a l) = firstn (a + n) l.
Proof. revert l. induction a as [|a IH]; intros [|x l]; cbn [firstn skipn app Nat.add]; auto. - now rewrite firstn_nil. - now rewrite IH. Qed.
Lemma chunk_length a : length (firstn 64 (skipn a all)) = Nat.min 64 (length all - a).
Proof. now rewrite firstn_length, skipn_length. Qed.
Lemma take_expected a tog r : (a mod 64 = 0)%nat -> (a < length all)%nat -> rd_tog r = tog -> rd_got r = firstn a all ->
  (length all - a <= 64 /\ take_packet w tog (firstn 64 (skipn a all)) r = mkReading (negb tog) all true)%nat
  \/ (64 < length all - a /\ take_packet w tog (firstn 64 (skipn a all)) r = mkReading (negb tog) (firstn (a + 64) all) false)%nat.
Proof.
  intros Ha Hl Ht Hg. unfold take_packet. rewrite Ht, eqb_reflx, Hg, firstn_skipn_more, chunk_length.
  destruct (Nat.leb_spec (length all - a) 64) as [H|H]; [left|right]; (split; [assumption|]).
  - rewrite firstn_all2 by lia. f_equal. destruct (Nat.ltb_spec (Nat.min 64 (length all - a)) 64) as [Q|Q]; [reflexivity|]. cbn [orb].
    apply N.leb_le. destruct (N.lt_ge_cases (N.of_nat (length all)) w) as [Z|Z]; [|lia]. exfalso. apply (Hshort Z).
    replace (length all) with (a + 64)%nat by lia. rewrite Nat.add_mod, Ha by lia. reflexivity.
  - f_equal. destruct (Nat.ltb_spec (Nat.min 64 (length all - a)) 64) as [Q|Q]; [lia|]. cbn [orb]. apply N.leb_gt. rewrite firstn_length. lia.
Qed.
Lemma next_mod a : (a mod 64 = 0)%nat -> ((a + 64) mod 64 = 0)%nat.
Proof. intros H. rewrite Nat.add_mod, H by lia. reflexivity. Qed.
Lemma negb_eqb b : Bool.eqb b (negb b) = false.
Proof. now destruct b. Qed.
Lemma last_takes a tog d d' : serving a tog d -> (length all - a <= 64)%nat -> usb_step (UvIn 0) d = Ok d' -> takes_out d'.
Proof.
  intros Sv Hl. unfold usb_step. rewrite (serving_answer _ _ _ Sv). pose proof (sv_len _ _ _ Sv) as El.
  assert (T : takes_out (in0_base d)) by (unfold in0_base; destruct (N.eqb_spec (ud_len d) 0); [reflexivity|lia]).
  destruct (in0_shape d) as [(_ & _ & ->)|[(_ & _ & ->)|(_ & ->)]]; [|intros E; injection E as <-; exact T|intros E; injection E as <-; exact T].
  unfold in0_serve. destruct (memcpy _ _ _); [|discriminate|discriminate]. cbn [bind]. intros E. injection E as <-. exact T.
Qed.
Lemma data_inj t b t' b' : InData t b = InData t' b' -> t = t' /\ b = b'.
Proof. intros E. injection E as -> ->. auto. Qed.
Lemma reading_step x y : reading_ok x -> read_step w x y -> reading_ok y.
Proof.
  intros R Hs. destruct Hs as [d r tog b d' Hd Ha Es|d r tog b Hd Ha|d r ev d' Hev Es]; cbn [reading_ok] in *.
  - destruct R as [(C & _)|(_ & a & tog' & Hm & Hl & Sv & Hst)]; [congruence|].
    rewrite (serving_answer _ _ _ Sv) in Ha. apply data_inj in Ha as (-> & <-).
    destruct Hst as [(Ht & Hg)|(Ht & Hm' & Hg)].
    + destruct (take_expected a tog r Hm Hl Ht Hg) as [(Q & ->)|(Q & ->)].
      * left. split; [reflexivity|]. split; [reflexivity|]. eapply last_takes; eassumption.
      * right. split; [reflexivity|]. destruct (serving_next _ _ _ Sv Q) as (d1 & E1 & Sv1). rewrite Es in E1. injection E1 as <-.
        exists (a + 64)%nat, (negb tog). split; [now apply next_mod|]. split; [lia|]. split; [exact Sv1|]. left. auto.
    + right. unfold take_packet. rewrite Ht, negb_eqb. split; [exact Hd|]. destruct (serving_next _ _ _ Sv Hm') as (d1 & E1 & Sv1). rewrite Es in E1. injection E1 as <-.
      exists (a + 64)%nat, (negb tog). split; [now apply next_mod|]. split; [lia|]. split; [exact Sv1|]. left. auto.
  - destruct R as [(C & _)|(_ & a & tog' & Hm & Hl & Sv & Hst)]; [congruence|].
    rewrite (serving_answer _ _ _ Sv) in Ha. apply data_inj in Ha as (-> & <-).
    destruct Hst as [(Ht & Hg)|(Ht & Hm' & Hg)].
    + destruct (take_expected a tog r Hm Hl Ht Hg) as [(Q & ->)|(Q & ->)].
      * left. split; [reflexivity|]. split; [reflexivity|]. destruct (sv_c0 _ _ _ Sv) as (rt & Ec). unfold takes_out. now rewrite Ec.
      * right. split; [reflexivity|]. exists a, tog. split; [exact Hm|]. split; [exact Hl|]. split; [exact Sv|]. right. auto.
    + right. unfold take_packet. rewrite Ht, negb_eqb. split; [exact Hd|]. exists a, tog. split; [exact Hm|]. split; [exact Hl|]. split; [exact Sv|]. right. auto.
  - destruct (aside_frame _ _ _ Hev Es) as (S0 & _). destruct R as [(C1 & C2 & C3)|(Hd & a & tog & Hm & Hl & Sv & Hst)].
    + left. split; [exact C1|]. split; [exact C2|]. unfold takes_out in *. destruct S0 as (_ & _ & _ & _ & _ & ->). exact C3.
    + right. split; [exact Hd|]. exists a, tog. split; [exact Hm|]. split; [exact Hl|]. split; [now apply (serving_same _ _ d)|exact Hst].
Qed.
Lemma reading_steps x y : reading_ok x -> read_steps w x y -> reading_ok y.
Proof. intros R Hs. induction Hs as [|x y z _ IH H]; [assumption|]. eapply reading_step; [|exact H]. now apply IH. Qed.
Lemma read_on_sync n : forall a tog d r, (a mod 64 = 0)%nat -> (a < length all)%nat -> fine d -> serving a tog d -> rd_done r = false -> rd_tog r = tog -> rd_got r = firstn a all ->
  (length all - a <= n)%nat -> exists r', read_on w n d r = Some r' /\ rd_got r' = all.
Proof.
  induction n as [|n IH]; intros a tog d r Hm Hl F Sv Hd Ht Hg Hn; [lia|]. destruct (step_fine (UvIn 0) d F) as (d' & E & F'); [cbn; lia|].
  cbn [read_on]. rewrite Hd, (serving_answer _ _ _ Sv), E.
  destruct (take_expected a tog r Hm Hl Ht Hg) as [(Q & ->)|(Q & ->)].
  - exists (mkReading (negb tog) all true). split; [|reflexivity]. destruct n; reflexivity.
  - destruct (serving_next _ _ _ Sv Q) as (d1 & E1 & Sv1). rewrite E in E1. injection E1 as <-.
    apply (IH (a + 64)%nat (negb tog)); auto; try lia; now apply next_mod.
Qed.
Lemma read_on_ok n d r : (length all <= n)%nat -> fine d -> reading_ok (d, r) -> rd_done r = false ->
  (exists t b, answer_in 0 d = InData t b) /\ exists r', read_on w (S n) d r = Some r' /\ rd_got r' = all.
Proof.
  intros Hn F R Hd. destruct R as [(C & _)|(_ & a & tog & Hm & Hl & Sv & Hst)]; [congruence|]. split; [do 2 eexists; eapply serving_answer; eassumption|].
  destruct Hst as [(Ht & Hg)|(Ht & Hm' & Hg)]; [eapply read_on_sync; eauto; lia|].
  destruct (serving_next _ _ _ Sv Hm') as (d1 & E1 & Sv1). destruct (step_fine (UvIn 0) d F) as (d' & E & F'); [cbn; lia|].
  rewrite E in E1. injection E1 as <-. cbn [read_on]. rewrite Hd, (serving_answer _ _ _ Sv), E. unfold take_packet. rewrite Ht, negb_eqb.
  eapply read_on_sync; try exact Sv1; auto; try lia; now apply next_mod.
Qed.
Lemma reading_prefix d r : reading_ok (d, r) -> exists rest, all = rd_got r ++ rest.
Proof.
  intros [(_ & Hg & _)|(_ & a & tog & _ & _ & _ & [(_ & Hg)|(_ & _ & Hg)])]; rewrite Hg; [exists []; now rewrite app_nil_r| |];
    eexists; symmetry; apply firstn_skipn.
Qed.
End Reading.

Lemma aside_fine ev d d' : aside ev -> usb_step ev d = Ok d' -> fine d -> fine d'.
Proof.
  intros A. destruct ev as [p|[|i]|tog data| |a|e data]; try contradiction A; intros E F.
  - destruct (Nat.ltb_spec (S i) 4) as [L|L]; [destruct (step_fine (UvIn (S i)) d F) as (x & Ex & Fx); [cbn; lia|]; congruence|].
    cbn [usb_step answer_in] in E. assert (Z : ep_at d i = no_ep) by (unfold ep_at; apply nth_overflow; rewrite (fi_eps _ F); lia). rewrite Z in E. cbn in E. injection E as <-. exact F.
  - destruct (step_fine (UvSuspend a) d F) as (x & Ex & Fx); [exact Logic.I|]. congruence.
  - destruct e as [|i]; [cbn in E; injection E as <-; exact F|]. destruct (Nat.ltb_spec (S i) 4) as [L|L].
    + destruct (Nat.leb_spec (length data) 64) as [Ld|Ld]; [destruct (step_fine (UvReport (S i) data) d F) as (x & Ex & Fx); [cbn; lia|]; congruence|].
      cbn [usb_step] in E. unfold data_up in E. destruct (ep_busy _); [injection E as <-; exact F|]. apply fine_iff in F as (M & Sv).
      assert (Lb : length (ep_buf (ep_at d i)) = 64%nat) by (destruct (ep_buf_at d i M) as [X|X]; [exact X|rewrite (mi_eps _ M) in X; lia]).
      unfold memcpy in E. rewrite Lb in E. destruct (Nat.leb_spec (N.to_nat (N.of_nat (length data))) 64); [lia|]. discriminate E.
    + cbn [usb_step] in E. unfold data_up in E. assert (Z : ep_at d i = no_ep) by (unfold ep_at; apply nth_overflow; rewrite (fi_eps _ F); lia). rewrite Z in E. cbn [no_ep ep_busy] in E.
      destruct (memcpy _ _ _) as [b| |]; [|discriminate E|discriminate E]. cbn [bind] in E. injection E as <-.
      apply fine_iff in F as (M & Sv). apply fine_iff. split; [|exact Sv]. apply put_ep_mid; [assumption|right; rewrite (mi_eps _ M); lia|reflexivity].
Qed.

(** *** Requests *)
Definition standard_now (d : usbdev) (code : N) : Prop := N.land (rq_type (ud_req d)) 96 = 0 /\ rq_code (ud_req d) = code.

Section Request.
Variables (s : setup) (d : usbdev).
Hypothesis W : well_formed s.
Hypothesis M : mid d.
Local Notation B := (begun s d).

Lemma setup_standard : su_kind s = 0 -> on_setup (packet s) d = let! (err, d1) := standard_request B in Ok (finish_setup err d1).
Proof. intros K. rewrite begin_setup by (assumption || apply (mi_buf _ M)). now rewrite K. Qed.
Lemma setup_class : su_kind s = 1 -> on_setup (packet s) d = let '(err, d1) := class_request B in Ok (finish_setup err d1).
Proof. intros K. rewrite begin_setup by (assumption || apply (mi_buf _ M)). rewrite K. change (32 * 1 =? 0) with false. change (32 * 1 =? 32) with true. cbn [negb bind]. now destruct (class_request B). Qed.
Lemma B_to : N.land (rq_type (ud_req B)) 31 = su_to s.
Proof. now apply type_to. Qed.
Lemma B_kind : N.land (rq_type (ud_req B)) 96 = 32 * su_kind s.
Proof. now apply type_kind. Qed.
Lemma B_in : negb (N.land (rq_type (ud_req B)) 128 =? 0) = su_in s.
Proof. now apply type_in. Qed.

(** A request that is refused. *)
Definition refusing (d' : usbdev) : Prop := ud_c0 d' = mkC0 true HsStall true HsStall /\ settings_of d' = settings_of d.
Lemma refuse_any d1 : settings_of d1 = settings_of d -> refusing (finish_setup true d1).
Proof. intros E. split; [reflexivity|exact E]. Qed.
Lemma endpoint_of_named i : endpoint_of (su_index s) = Some i <-> ((i < 3)%nat /\ su_index s mod 256 = 129 + N.of_nat i).
Proof.
  unfold endpoint_of. rewrite lo8_mod. generalize (su_index s mod 256). intros n.
  assert (X : n = 129 \/ n = 130 \/ n = 131 \/ (n <> 129 /\ n <> 130 /\ n <> 131)) by lia. destruct X as [->|[->|[->|X]]].
  - split; [intros E; injection E as <-; split; [lia|reflexivity]|intros (A & C); f_equal; lia].
  - split; [intros E; injection E as <-; split; [lia|reflexivity]|intros (A & C); f_equal; lia].
  - split; [intros E; injection E as <-; split; [lia|reflexivity]|intros (A & C); f_equal; lia].
  - assert (E : match n with 129 => Some 0%nat | 130 => Some 1%nat | 131 => Some 2%nat | _ => None end = None).
    { destruct n as [|p]; [reflexivity|]. repeat (destruct p as [p|p|]; try reflexivity; try (exfalso; lia)). }
    rewrite E. split; [discriminate|lia].
Qed.
Lemma endpoint_named_of e : endpoint_named s e -> exists i, e = S i /\ (i < 3)%nat /\ endpoint_of (su_index s) = Some i.
Proof. intros (A & (C & D) & E). destruct e as [|i]; [lia|]. exists i. split; [reflexivity|]. split; [lia|]. apply endpoint_of_named. lia. Qed.
Lemma endpoint_of_none : su_to s = 2 -> ~ (exists e, endpoint_named s e) -> endpoint_of (su_index s) = None.
Proof.
  intros T H. destruct (endpoint_of (su_index s)) as [i|] eqn:E; [|reflexivity]. exfalso. apply H. apply endpoint_of_named in E as (A & C). exists (S i). unfold endpoint_named. split; [exact T|]. split; lia.
Qed.
Lemma no_feature_clear : ~ (su_to s = 0 /\ su_value s mod 256 = 1) -> ~ ((exists e, endpoint_named s e) /\ su_value s mod 256 = 0) -> clear_feature B = (true, B).
Proof.
  intros H1 H2. unfold clear_feature. rewrite B_to. cbn [begun ud_req rq_value rq_index]. rewrite lo8_mod.
  destruct (N.eqb_spec (su_to s) 0) as [T|T]. { destruct (N.eqb_spec (su_value s mod 256) 1); [tauto|reflexivity]. }
  destruct (N.eqb_spec (su_to s) 2) as [T2|T2]; [|reflexivity]. destruct (N.eqb_spec (su_value s mod 256) 0) as [V|V]; [|reflexivity].
  rewrite endpoint_of_none; [reflexivity|assumption|tauto].
Qed.
Lemma no_feature_set : ~ (su_to s = 0 /\ su_value s mod 256 = 1) -> ~ ((exists e, endpoint_named s e) /\ su_value s mod 256 = 0) -> set_feature B = (true, B).
Proof.
  intros H1 H2. unfold set_feature. rewrite B_to. cbn [begun ud_req rq_value rq_index]. rewrite lo8_mod.
  destruct (N.eqb_spec (su_to s) 0) as [T|T]. { destruct (N.eqb_spec (su_value s mod 256) 1); [tauto|reflexivity]. }
  destruct (N.eqb_spec (su_to s) 2) as [T2|T2]; [|reflexivity]. destruct (N.eqb_spec (su_value s mod 256) 0) as [V|V]; [|reflexivity].
  rewrite endpoint_of_none; [reflexivity|assumption|tauto].
Qed.
Lemma refuses_setup : answers d s Refuses -> exists d', on_setup (packet s) d = Ok d' /\ refusing d'.
Proof.
  intros H. remember Refuses as a. destruct H as [b K H|K H|K L V|K|K L V|on K T L V|on e K E L V|on K H1 H2|K|K L|K T|e K E H|e K E H|K H|K I L|K I L|K I L|K I L|K H I|K L|K H]; try discriminate Heqa; clear Heqa.
  - destruct K as (K & Ki & C). rewrite setup_standard by assumption. unfold standard_request. change (rq_code (ud_req B)) with (su_request s). rewrite C.
    destruct (get_descriptor_ok s d W M) as (err & p & len & F & L & G). rewrite G. cbn [bind]. eexists. split; [reflexivity|].
    assert (V : su_value s < 65536) by apply W.
    unfold found in F. cbn [begun ud_req rq_value rq_index] in F. pose proof (find_descriptor_spec s V) as X. destruct (find_descriptor (su_value s) (su_index s)) as [[p' len']|]; [destruct X as (X & _); exfalso; eapply H, X|].
    injection F as <- _ _. now apply refuse_any.
  - destruct K as (K & Ki & C). rewrite setup_standard by assumption. unfold standard_request. change (rq_code (ud_req B)) with (su_request s). rewrite C.
    destruct on; [rewrite no_feature_set by assumption|rewrite no_feature_clear by assumption]; cbn [bind]; eexists; (split; [reflexivity|now apply refuse_any]).
  - rewrite setup_standard by assumption. unfold standard_request. change (rq_code (ud_req B)) with (su_request s).
    assert (E : forall (x0 x1 x3 x5 x6 x8 x9 x10 x11 y : res (bool * usbdev)), match su_request s with 6 => x6 | 5 => x5 | 8 => x8 | 9 => x9 | 1 => x1 | 3 => x3 | 10 => x10 | 11 => x11 | 0 => x0 | _ => y end = y).
    { intros. clear - H. destruct (su_request s) as [|p]; [exfalso; apply H; cbn; auto 10|]. repeat (destruct p as [p|p|]; try reflexivity; try (exfalso; apply H; cbn; auto 10; fail)). }
    rewrite E. cbn [bind]. eexists. split; [reflexivity|now apply refuse_any].
  - rewrite setup_class by assumption. unfold class_request. change (rq_code (ud_req B)) with (su_request s). change (rq_index (ud_req B)) with (su_index s).
    assert (L : (su_index s <=? 2) = false) by (apply N.leb_gt; lia). rewrite L. cbn [In] in H.
    destruct H as [<-|[<-|[<-|[<-|[]]]]]; eexists; (split; [reflexivity|now apply refuse_any]).
  - rewrite setup_class by assumption. unfold class_request. change (rq_code (ud_req B)) with (su_request s).
    assert (E : forall (x2 x3 x9 x10 x11 y : bool * usbdev), match su_request s with 9 => x9 | 10 => x10 | 11 => x11 | 2 => x2 | 3 => x3 | _ => y end = y).
    { intros. clear - H. destruct (su_request s) as [|p]; [reflexivity|]. repeat (destruct p as [p|p|]; try reflexivity; try (exfalso; apply H; cbn; auto 10; fail)). }
    rewrite E. eexists. split; [reflexivity|now apply refuse_any].
Qed.

(** A request without data, and not refused. *)
Definition shaking (d' : usbdev) : Prop := ud_c0 d' = mkC0 true HsAck false HsAck /\ ud_tx_len d' = 0 /\ ud_len d' = 0.
Lemma shake_any d1 : su_in s = false -> su_length s = 0 -> ud_req d1 = ud_req B -> ud_len d1 = 0 -> shaking (finish_setup false d1) /\ settings_of (finish_setup false d1) = settings_of d1
   /\ ud_req (finish_setup false d1) = ud_req B /\ ud_stat (finish_setup false d1) = ud_stat d1 /\ ud_eps (finish_setup false d1) = ud_eps d1.
Proof. intros I L R Z. unfold finish_setup. rewrite R, B_in, I, Z. cbn. repeat split; assumption. Qed.
Lemma odd_lor1 n : N.odd (N.lor n 1) = true.
Proof. rewrite <- N.bit0_odd, N.lor_spec. cbn. apply orb_true_r. Qed.
Lemma odd_ldiff1 n : N.odd (N.ldiff n 1) = false.
Proof. rewrite <- N.bit0_odd, N.ldiff_spec. cbn. apply andb_false_r. Qed.
Lemma does_setup f : answers d s (Does f) -> exists d', on_setup (packet s) d = Ok d' /\ shaking d' /\ ~ standard_now d' 6 /\ ud_address d' = ud_address d /\
  (standard_now d' 5 -> same_settings (with_address (st_addr (ud_stat d')) (settings_of d')) (f (settings_of d))) /\
  (~ standard_now d' 5 -> same_settings (settings_of d') (f (settings_of d))).
Proof.
  pose proof (mi_idle _ M) as Mi. pose proof (mi_proto _ M) as Mp.
  assert (Fin : forall d1 c, su_in s = false -> su_length s = 0 -> ud_req d1 = ud_req B -> ud_len d1 = su_length s -> ud_address d1 = ud_address d -> su_request s = c -> (su_kind s = 0 -> c <> 6) ->
    ((su_kind s = 0 /\ c = 5) -> same_settings (with_address (st_addr (ud_stat d1)) (settings_of d1)) (f (settings_of d))) ->
    (~ (su_kind s = 0 /\ c = 5) -> same_settings (settings_of d1) (f (settings_of d))) ->
    exists d', Ok (finish_setup false d1) = Ok d' /\ shaking d' /\ ~ standard_now d' 6 /\ ud_address d' = ud_address d /\
     (standard_now d' 5 -> same_settings (with_address (st_addr (ud_stat d')) (settings_of d')) (f (settings_of d))) /\
     (~ standard_now d' 5 -> same_settings (settings_of d') (f (settings_of d)))).
  { intros d1 c I L R Ln A C N6 H5 Hn. destruct (shake_any d1 I L R) as (X & Y & Z & U & _); [now rewrite Ln|]. eexists. split; [reflexivity|]. split; [exact X|].
    assert (Std : forall k, standard_now (finish_setup false d1) k <-> su_kind s = 0 /\ c = k).
    { intros k. unfold standard_now. rewrite Z, B_kind. cbn [begun ud_req rq_code]. rewrite C. split; intros (P & Q); split; lia || assumption. }
    rewrite !Std, Y, U. split; [intros (P & Q); now apply (N6 P)|]. split; [|auto]. pose proof (f_equal se_address Y) as Y'. cbn [settings_of se_address] in Y'. now rewrite Y'. }
  intros H. remember (Does f) as a. destruct H as [b K H|K H|K L V|K|K L V|on K T L V|on e K E L V|on K H1 H2|K|K L|K T|e K E H|e K E H|K H|K I L|K I L|K I L|K I L|K H I|K L|K H]; try discriminate Heqa; injection Heqa as <-; destruct K as (K & Ki & C).
  - rewrite setup_standard by assumption. unfold standard_request. change (rq_code (ud_req B)) with (su_request s). rewrite C. cbn [bind].
    apply (Fin _ 5); auto; [congruence| |tauto]. intros _. cbn [set_stat set_addr begun ud_req rq_value ud_stat st_addr settings_of with_address ud_address].
    rewrite lo8_mod, N.mod_small by lia. repeat split.
  - rewrite setup_standard by assumption. unfold standard_request. change (rq_code (ud_req B)) with (su_request s). rewrite C. cbn [bind].
    apply (Fin _ 9); auto; [congruence|intros (_ & X); discriminate X|]. intros _. cbn [begun ud_req rq_value]. rewrite lo8_mod, N.mod_small by lia. repeat split.
  - rewrite setup_standard by assumption. unfold standard_request. change (rq_code (ud_req B)) with (su_request s). rewrite C. cbn [bind].
    destruct on.
    + unfold set_feature. rewrite B_to, T. cbn [N.eqb begun ud_req rq_value]. rewrite lo8_mod, V. change (1 =? 1) with true. change (negb (N.land (byte_at MyCfgDescr 7) 32 =? 0)) with true.
      cbn [bind]. fold B. apply (Fin _ 3); auto; [congruence|intros (_ & X); discriminate X|]. intros _. repeat split. cbn. apply odd_lor1.
    + unfold clear_feature. rewrite B_to, T. cbn [N.eqb begun ud_req rq_value]. rewrite lo8_mod, V. change (1 =? 1) with true.
      cbn [bind]. fold B. apply (Fin _ 1); auto; [congruence|intros (_ & X); discriminate X|]. intros _. repeat split. cbn. apply odd_ldiff1.
  - rewrite setup_standard by assumption. unfold standard_request. change (rq_code (ud_req B)) with (su_request s). rewrite C. cbn [bind].
    apply (Fin _ 11); auto; [congruence|intros (_ & X); discriminate X|]. intros _. repeat split.
  - rewrite setup_class by assumption. unfold class_request. change (rq_code (ud_req B)) with (su_request s). change (rq_index (ud_req B)) with (su_index s). rewrite C.
    assert (Li : (su_index s <=? 2) = true) by (apply N.leb_le; lia). rewrite Li.
    apply (Fin _ 10); auto; [intros X; rewrite K in X; discriminate X|intros (_ & X); discriminate X|]. intros _. cbn [begun ud_req rq_value]. rewrite hi8_div by apply W. repeat split.
    intros i Hi. cbn [set_stat set_idle settings_of se_idle ud_stat st_idle with_idle begun]. rewrite nth_set_nth by lia. destruct (Nat.eqb_spec (N.to_nat i) (N.to_nat (su_index s))), (N.eqb_spec i (su_index s)); reflexivity || lia.
  - rewrite setup_class by assumption. unfold class_request. change (rq_code (ud_req B)) with (su_request s). change (rq_index (ud_req B)) with (su_index s). rewrite C.
    assert (Li : (su_index s <=? 2) = true) by (apply N.leb_le; lia). rewrite Li.
    apply (Fin _ 11); auto; [intros X; rewrite K in X; discriminate X|intros (_ & X); discriminate X|]. intros _. cbn [begun ud_req rq_value]. rewrite lo8_mod. repeat split.
    intros i Hi. cbn [set_stat set_proto settings_of se_protocol ud_stat st_proto with_protocol begun]. rewrite nth_set_nth by lia. destruct (Nat.eqb_spec (N.to_nat i) (N.to_nat (su_index s))), (N.eqb_spec i (su_index s)); reflexivity || lia.
Qed.

(** Halting. *)
Lemma halts_setup e on : answers d s (Halts e on) -> exists d', on_setup (packet s) d = Ok d' /\ shaking d' /\ ~ standard_now d' 6 /\ ~ standard_now d' 5 /\ settings_of d' = settings_of d /\
  exists i, e = S i /\ (i < 3)%nat /\ ud_eps d' = set_nth (ud_eps d) i (let p := ep_at d i in mkEp (if on then ep_tog p else false) (if on then HsStall else HsNak) (ep_len p) (ep_buf p) (ep_busy p)).
Proof.
  intros H. remember (Halts e on) as a. destruct H as [b K H|K H|K L V|K|K L V|on' K T L V|on' e' K E L V|on' K H1 H2|K|K L|K T|e' K E H|e' K E H|K H|K I L|K I L|K I L|K I L|K H I|K L|K H]; try discriminate Heqa; injection Heqa as -> ->; destruct K as (K & Ki & C).
  destruct (endpoint_named_of e E) as (i & -> & Li & Ei). pose proof (proj1 E) as T. clear E.
  rewrite setup_standard by assumption. unfold standard_request. change (rq_code (ud_req B)) with (su_request s). rewrite C.
  assert (Std : forall d1 k, ud_req d1 = ud_req B -> standard_now d1 k <-> (if on then 3 else 1) = k).
  { intros d1 k R. unfold standard_now. rewrite R, B_kind, K. cbn [begun ud_req rq_code]. rewrite C. split; [tauto|auto]. }
  destruct on; [unfold set_feature|unfold clear_feature]; rewrite B_to, T; cbn [N.eqb begun ud_req rq_value rq_index]; rewrite lo8_mod, V, Ei; change (0 =? 0) with true; change (2 =? 2) with true; cbn [bind]; fold B; cbn [Pos.eqb bind].
  - match goal with |- exists d', Ok (finish_setup false ?x) = _ /\ _ => destruct (shake_any x Ki L eq_refl L) as (P1 & P2 & P3 & P4 & P5) end.
    eexists. split; [reflexivity|]. split; [exact P1|]. rewrite !(Std _ _ P3). split; [discriminate|]. split; [discriminate|]. split; [exact P2|]. exists i. split; [reflexivity|]. split; [exact Li|]. exact P5.
  - match goal with |- exists d', Ok (finish_setup false ?x) = _ /\ _ => destruct (shake_any x Ki L eq_refl L) as (P1 & P2 & P3 & P4 & P5) end.
    eexists. split; [reflexivity|]. split; [exact P1|]. rewrite !(Std _ _ P3). split; [discriminate|]. split; [discriminate|]. split; [exact P2|]. exists i. split; [reflexivity|]. split; [exact Li|]. exact P5.
Qed.

(** A request for data. *)
Lemma send_any d1 b : su_in s = true -> ud_req d1 = ud_req B -> (0 < length b <= 64)%nat -> length (ud_buf d1) = 64%nat -> firstn (length b) (ud_buf d1) = b ->
  ud_len d1 = N.min (N.of_nat (length b)) (su_length s) ->
  serving (firstn (N.to_nat (su_length s)) b) 0 true (finish_setup false d1) /\ settings_of (finish_setup false d1) = settings_of d1 /\ ud_req (finish_setup false d1) = ud_req B.
Proof.
  intros I R L Lb Fb Ln. unfold finish_setup. rewrite R, B_in, I. unfold UEP0_SIZE. destruct (N.ltb_spec 64 (ud_len d1)); [lia|].
  assert (Lf : length (firstn (N.to_nat (su_length s)) b) = N.to_nat (ud_len d1)) by (rewrite firstn_length; lia).
  split; [|split; [reflexivity|exact R]]. split; cbn [set_c0 set_tx_len set_len ud_c0 ud_buf ud_tx_len ud_len ud_req ud_descr]; rewrite ?Lf, ?Nat.sub_0_r; try lia; [eauto|].
  rewrite skipn_O, firstn_firstn. transitivity (firstn (Nat.min 64 (N.to_nat (su_length s))) (firstn (length b) (ud_buf d1))); [rewrite firstn_firstn|now rewrite Fb]. f_equal. lia.
Qed.
Lemma sends_setup b : answers d s (Sends b) -> exists d', on_setup (packet s) d = Ok d' /\
  b <> [] /\ serving (firstn (N.to_nat (su_length s)) b) 0 true d' /\ (N.of_nat (length b) < su_length s -> (length b mod 64 <> 0)%nat) /\ settings_of d' = settings_of d /\ ~ standard_now d' 5.
Proof.
  pose proof (begun_buf s d (mi_buf _ M)) as Lb.
  assert (Q : forall k d', su_request s = k -> ud_req d' = ud_req B -> (su_kind s = 0 -> k <> 5) -> ~ standard_now d' 5).
  { intros k d' C R N5 (P & X). rewrite R, B_kind in P. rewrite R in X. cbn [begun ud_req rq_code] in X. apply N5; [lia|congruence]. }
  assert (Fin : forall d1 x k, su_request s = k -> (su_kind s = 0 -> k <> 5) -> su_in s = true -> ud_req d1 = ud_req B -> (0 < length x <= 2)%nat -> length (ud_buf d1) = 64%nat -> firstn (length x) (ud_buf d1) = x ->
    ud_len d1 = N.min (N.of_nat (length x)) (su_length s) -> settings_of d1 = settings_of d ->
    exists d', Ok (finish_setup false d1) = Ok d' /\ x <> [] /\ serving (firstn (N.to_nat (su_length s)) x) 0 true d' /\ (N.of_nat (length x) < su_length s -> (length x mod 64 <> 0)%nat) /\ settings_of d' = settings_of d /\ ~ standard_now d' 5).
  { intros d1 x k C N5 I R L L1 F1 Ln Hs. destruct (send_any d1 x I R) as (P1 & P2 & P3); auto; [lia|]. eexists. split; [reflexivity|]. split; [intros ->; cbn in L; lia|]. split; [exact P1|].
    split; [intros _; rewrite Nat.mod_small by lia; lia|]. split; [congruence|]. eapply Q; eassumption. }
  assert (Hb : forall (x : u8) l, length l = 64%nat -> firstn 1 (set_nth l 0 x) = [x]) by (intros x [|y l] Hl; [discriminate Hl|reflexivity]).
  assert (Hb2 : forall (x y : u8) l, length l = 64%nat -> firstn 2 (set_nth (set_nth (set_nth l 0 y) 1 0) 0 x) = [x; 0]) by (intros x y [|z [|t l]] Hl; [discriminate Hl|discriminate Hl|reflexivity]).
  assert (Hb3 : forall (l : list u8), length l = 64%nat -> firstn 2 (set_nth (set_nth l 0 0) 1 0) = [0; 0]) by (intros [|z [|t l]] Hl; [discriminate Hl|discriminate Hl|reflexivity]).
  intros H. remember (Sends b) as a. destruct H as [b' K H|K H|K L V|K|K L V|on K T L V|on e K E L V|on K H1 H2|K|K L|K T|e K E H|e K E H|K H|K I L|K I L|K I L|K I L|K H I|K L|K H]; try discriminate Heqa; injection Heqa as <-; destruct K as (K & Ki & C).
  - rewrite setup_standard by assumption. unfold standard_request. change (rq_code (ud_req B)) with (su_request s). rewrite C.
    destruct (get_descriptor_ok s d W M) as (err & p & len & F & L & G). rewrite G. cbn [bind]. eexists. split; [reflexivity|].
    assert (V : su_value s < 65536) by apply W.
    unfold found in F. cbn [begun ud_req rq_value rq_index] in F. pose proof (find_descriptor_spec s V) as X. destruct (find_descriptor (su_value s) (su_index s)) as [[p' len']|]; [|exfalso; eapply X, H].
    injection F as <- -> ->. destruct X as (_ & _ & L64 & X). apply X in H. subst b'. clear X.
    assert (Lf : length (firstn (N.to_nat len) p) = N.to_nat len) by (rewrite firstn_length; lia). rewrite Lf.
    split; [intros Z; rewrite Z in Lf; cbn in Lf; assert (len = 0) by lia; subst len; now apply L64|].
    set (w := su_length s) in *. set (n := N.min len w) in *.
    assert (Lall : length (firstn (N.to_nat w) (firstn (N.to_nat len) p)) = N.to_nat n) by (rewrite firstn_length, Lf; lia).
    assert (Eall : firstn (N.to_nat w) (firstn (N.to_nat len) p) = firstn (N.to_nat n) p) by (rewrite firstn_firstn; f_equal; lia).
    rewrite Eall in *. unfold finish_setup. cbn [ud_req begun rq_type]. rewrite type_in by assumption. rewrite Ki. unfold UEP0_SIZE. cbn [ud_len].
    replace (if 64 <? n then 64 else n) with (N.min 64 n) by (destruct (N.ltb_spec 64 n); lia).
    split; [|split; [intros _ Z; apply L64; apply Nnat.N2Nat.inj; rewrite Nnat.N2Nat.inj_mod; exact Z|split; [reflexivity|]]].
    + split; cbn [set_c0 set_tx_len set_len ud_c0 ud_buf ud_tx_len ud_len ud_req ud_descr]; rewrite ?Lall, ?Nat.sub_0_r; try lia.
      * eauto.
      * rewrite app_length, firstn_length, skipn_length, begun_buf by apply (mi_buf _ M). lia.
      * rewrite firstn_app_exact by (rewrite firstn_length; lia). cbn [skipn]. rewrite firstn_firstn. f_equal. lia.
      * intros Hm. replace (N.to_nat (N.min 64 n)) with 64%nat by lia. split; [transitivity (32 * su_kind s); [now apply type_kind|now rewrite K]|]. split; [exact C|]. rewrite skipn_length. split; [lia|]. cbn [Nat.add]. now rewrite skipn_firstn_comm.
    + intros (_ & Z). cbn [set_c0 set_tx_len set_len ud_req rq_code begun] in Z. rewrite C in Z. discriminate Z.
  - rewrite setup_standard by assumption. unfold standard_request. change (rq_code (ud_req B)) with (su_request s). rewrite C. cbn [bind].
    apply (Fin _ _ 8); auto; try discriminate; unfold clip1; cbn [set_buf ud_len begun length]; try (destruct (N.ltb_spec 1 (su_length s)); cbn [set_len set_buf ud_req ud_buf ud_len begun]; auto; try lia); rewrite ?set_nth_length; auto.
  - rewrite setup_standard by assumption. unfold standard_request. change (rq_code (ud_req B)) with (su_request s). rewrite C. cbn [bind].
    apply (Fin _ _ 10); auto; try discriminate; unfold clip1; cbn [set_buf ud_len begun length]; try (destruct (N.ltb_spec 1 (su_length s)); cbn [set_len set_buf ud_req ud_buf ud_len begun]; auto; try lia); rewrite ?set_nth_length; auto.
  - rewrite setup_standard by assumption. unfold standard_request. change (rq_code (ud_req B)) with (su_request s). rewrite C. cbn [bind]. unfold get_status. rewrite B_to, T. change (0 =? 0) with true. cbn [bind].
    assert (Ew : (if N.land (st_sleep (ud_stat B)) 1 =? 0 then 0 : u8 else 2 : u8) = (if se_wakeup (settings_of d) then 2 : u8 else 0 : u8)).
    { cbn [begun ud_stat settings_of se_wakeup]. generalize (st_sleep (ud_stat d)). intros [|[p|p|]]; reflexivity. }
    rewrite Ew.
    apply (Fin _ _ 0); auto; try discriminate; cbn [set_buf ud_len begun length]; try (destruct (N.ltb_spec 2 (su_length s)); cbn [set_len set_buf ud_req ud_buf ud_len begun]; auto; try lia); rewrite ?set_nth_length; auto; apply Hb2; exact Lb.
  - destruct (endpoint_named_of e E) as (i & -> & Li & Ei). pose proof (proj1 E) as T.
    rewrite setup_standard by assumption. unfold standard_request. change (rq_code (ud_req B)) with (su_request s). rewrite C. cbn [bind]. unfold get_status. rewrite B_to, T. change (2 =? 0) with false. change (2 =? 2) with true. cbn [begun ud_req rq_index]. rewrite Ei.
    fold B. assert (Es : is_stall (ep_res (ep_at B i)) = true) by (unfold halted in H; cbn [answer_in] in H; change (ep_at B i) with (ep_at d i); destruct (ep_res (ep_at d i)); [discriminate H|discriminate H|reflexivity]). rewrite Es. cbn [bind].
    apply (Fin _ _ 0); auto; try discriminate; cbn [set_buf ud_len begun length]; try (destruct (N.ltb_spec 2 (su_length s)); cbn [set_len set_buf ud_req ud_buf ud_len begun]; auto; try lia); rewrite ?set_nth_length; auto; apply Hb2; exact Lb.
  - destruct (endpoint_named_of e E) as (i & -> & Li & Ei). pose proof (proj1 E) as T.
    rewrite setup_standard by assumption. unfold standard_request. change (rq_code (ud_req B)) with (su_request s). rewrite C. cbn [bind]. unfold get_status. rewrite B_to, T. change (2 =? 0) with false. change (2 =? 2) with true. cbn [begun ud_req rq_index]. rewrite Ei.
    fold B. assert (Es : is_stall (ep_res (ep_at B i)) = false) by (unfold halted in H; cbn [answer_in] in H; change (ep_at B i) with (ep_at d i); destruct (ep_res (ep_at d i)); [reflexivity|reflexivity|exfalso; now apply H]). rewrite Es. cbn [bind].
    apply (Fin _ _ 0); auto; try discriminate; cbn [set_buf ud_len begun length]; try (destruct (N.ltb_spec 2 (su_length s)); cbn [set_len set_buf ud_req ud_buf ud_len begun]; auto; try lia); rewrite ?set_nth_length; auto; apply Hb3; exact Lb.
  - rewrite setup_class by assumption. unfold class_request. change (rq_code (ud_req B)) with (su_request s). change (rq_index (ud_req B)) with (su_index s). rewrite C.
    assert (Li : (su_index s <=? 2) = true) by (apply N.leb_le; lia). rewrite Li.
    apply (Fin _ _ 2); auto; try discriminate; cbn [set_buf ud_buf ud_len length begun]; try lia; rewrite ?set_nth_length; auto.
  - rewrite setup_class by assumption. unfold class_request. change (rq_code (ud_req B)) with (su_request s). change (rq_index (ud_req B)) with (su_index s). rewrite C.
    assert (Li : (su_index s <=? 2) = true) by (apply N.leb_le; lia). rewrite Li.
    apply (Fin _ _ 3); auto; try discriminate; cbn [set_buf ud_buf ud_len length begun]; try lia; rewrite ?set_nth_length; auto.
Qed.

(** A request with data from the host. *)
Definition hearing (d' : usbdev) : Prop :=
  (exists t, ud_c0 d' = mkC0 t HsAck true HsAck) /\ N.land (rq_type (ud_req d')) 96 = 32 /\ rq_code (ud_req d') = 9.
Lemma takes_setup f : answers d s (Takes f) -> exists d', on_setup (packet s) d = Ok d' /\ hearing d' /\ settings_of d' = settings_of d /\ f = (fun data => with_leds (hd 0 data)) /\ 1 <= su_length s <= 64.
Proof.
  intros H. remember (Takes f) as a. destruct H as [b' K H|K H|K L V|K|K L V|on K T L V|on e K E L V|on K H1 H2|K|K L|K T|e K E H|e K E H|K H|K I L|K I L|K I L|K I L|K H I|K L|K H]; try discriminate Heqa; injection Heqa as <-; destruct K as (K & Ki & C).
  rewrite setup_class by assumption. unfold class_request. change (rq_code (ud_req B)) with (su_request s). rewrite C. eexists. split; [reflexivity|].
  unfold finish_setup. rewrite B_in, Ki. cbn [begun ud_len]. destruct (N.eqb_spec (su_length s) 0); [lia|]. split; [|auto]. split; [eexists; reflexivity|]. split; [|exact C].
  cbn [set_c0 ud_req]. rewrite B_kind, K. reflexivity.
Qed.
End Request.

(** *** Whole transfers *)
Lemma run_cons ev evs d d' : usb_run (ev :: evs) d = Ok d' -> exists d1, usb_step ev d = Ok d1 /\ usb_run evs d1 = Ok d'.
Proof. unfold usb_run. cbn [fold_res]. destruct (usb_step ev d) as [d1| |]; [|discriminate|discriminate]. cbn [bind]. eauto. Qed.
Lemma run_nil d d' : usb_run [] d = Ok d' -> d' = d.
Proof. intros E. cbn in E. now injection E as <-. Qed.
Lemma asides_frame evs : forall d d', Forall aside evs -> usb_run evs d = Ok d' ->
  same_ep0 d d' /\ settings_of d' = settings_of d /\ st_addr (ud_stat d') = st_addr (ud_stat d) /\ (fine d -> fine d').
Proof.
  induction evs as [|ev evs IH]; intros d d' A R; [apply run_nil in R; subst; split; [repeat split|auto]|].
  inversion A; subst. destruct (run_cons _ _ _ _ R) as (d1 & E & R1). destruct (aside_frame ev d d1) as (X1 & X2 & X3); [assumption..|]. destruct (IH d1 d') as (Y1 & Y2 & Y3 & Y4); [assumption..|].
  split; [unfold same_ep0 in *; intuition congruence|]. split; [congruence|]. split; [congruence|]. intros F. apply Y4. eapply aside_fine; eassumption.
Qed.
Lemma in0_quiet d d' : ~ standard_now d 5 -> usb_step (UvIn 0) d = Ok d' -> settings_of d' = settings_of d /\ ud_req d' = ud_req d.
Proof.
  intros Hq. unfold usb_step. destruct (answer_in 0 d); try (intros E; injection E as <-; auto; fail).
  destruct (base_same d) as (Eb & Ed & Er & El & Es & Ea & Ee & Et).
  destruct (in0_shape d) as [(K & C & ->)|[(K & C & _)|(_ & ->)]]; [|exfalso; apply Hq; now split|].
  - unfold in0_serve. destruct (memcpy _ _ _); [|discriminate|discriminate]. cbn [bind]. intros E. injection E as <-. split; [|exact Er]. unfold settings_of. cbn [set_c0 set_tx_len set_descr set_len set_buf ud_address ud_stat]. now rewrite Es, Ea.
  - intros E. injection E as <-. split; [|exact Er]. unfold settings_of. now rewrite Es, Ea.
Qed.
Lemma quiet_same d d' : ud_req d' = ud_req d -> ~ standard_now d 5 -> ~ standard_now d' 5.
Proof. unfold standard_now. intros ->. auto. Qed.
Lemma read_step_quiet w d r d' r' : read_step w (d, r) (d', r') -> fine d -> ~ standard_now d 5 -> fine d' /\ settings_of d' = settings_of d /\ ~ standard_now d' 5.
Proof.
  intros H F Q. inversion H as [? ? ? ? ? _ _ E|? ? ? ? _ _|? ? ? ? A E]; subst.
  - destruct (step_fine (UvIn 0) d F) as (x & Ex & Fx); [cbn; lia|]. destruct (in0_quiet d d' Q E) as (X & Y). split; [congruence|]. split; [exact X|]. now apply (quiet_same d).
  - auto.
  - destruct (aside_frame _ _ _ A E) as ((_ & _ & Y & _) & X & _). split; [eapply aside_fine; eassumption|]. split; [exact X|]. now apply (quiet_same d).
Qed.
Lemma read_steps_quiet w x y : read_steps w x y -> fine (fst x) -> ~ standard_now (fst x) 5 -> fine (fst y) /\ settings_of (fst y) = settings_of (fst x) /\ ~ standard_now (fst y) 5.
Proof.
  intros H. induction H as [|x y z _ IH H]; [auto|]. intros F Q. destruct (IH F Q) as (F' & E' & Q'). destruct y as [d r], z as [d' r']. cbn [fst] in *.
  destruct (read_step_quiet w d r d' r' H F' Q') as (A & B & C). split; [exact A|]. split; [congruence|exact C].
Qed.

Lemma shaking_handshake d : shaking d -> handshake d /\ takes_out d.
Proof. intros (A & B & _). unfold handshake, takes_out. cbn. rewrite A, B. auto. Qed.
Lemma shaking_same d d' : same_ep0 d d' -> shaking d -> shaking d'.
Proof. intros (_ & _ & _ & A & B & C) (X & Y & Z). unfold shaking. rewrite A, B, C. auto. Qed.
(** The end of a transfer without data. *)
Lemma shake_end d : shaking d -> ~ standard_now d 6 -> ud_address d < 128 -> st_addr (ud_stat d) < 128 -> exists d', usb_step (UvIn 0) d = Ok d' /\
  (standard_now d 5 -> settings_of d' = with_address (st_addr (ud_stat d)) (settings_of d)) /\ (~ standard_now d 5 -> settings_of d' = settings_of d).
Proof.
  intros Hs N6 A1 A2. destruct (shaking_handshake d Hs) as (H & _). unfold usb_step. unfold handshake in H. rewrite H.
  destruct (base_same d) as (Eb & Ed & Er & El & Es & Ea & Ee & Et).
  destruct (in0_shape d) as [(K & C & _)|[(K & C & ->)|(X & ->)]].
  - exfalso. apply N6. now split.
  - eexists. split; [reflexivity|]. split; [|intros Y; exfalso; apply Y; now split]. intros _. unfold settings_of, with_address. cbn [in0_address set_address ud_address ud_stat se_configuration se_wakeup se_idle se_protocol se_leds].
    rewrite Es, Ea. f_equal. replace (N.land (ud_address d) 128) with 0; [now rewrite N.lor_0_l|]. pose proof (land128 (ud_address d)) as Z. specialize (Z ltac:(lia)).
    destruct (N.leb_spec 128 (ud_address d)); [lia|]. destruct (N.eqb_spec (N.land (ud_address d) 128) 0) as [Q|Q]; [now rewrite Q|discriminate Z].
  - eexists. split; [reflexivity|]. split; [intros (Y & Z); exfalso; apply X; auto|]. intros _. unfold settings_of. now rewrite Es, Ea.
Qed.

(** *** Endpoints 1 to 3 *)
Definition marked (d : usbdev) (i : nat) (on : bool) : endpoint :=
  let p := ep_at d i in mkEp (if on then ep_tog p else false) (if on then HsStall else HsNak) (ep_len p) (ep_buf p) (ep_busy p).
Lemma finish_eps err d : ud_eps (finish_setup err d) = ud_eps d.
Proof. unfold finish_setup. destruct err; [reflexivity|]. destruct (negb _); [reflexivity|]. destruct (_ =? 0); reflexivity. Qed.
Lemma class_eps d err d1 : class_request d = (err, d1) -> ud_eps d1 = ud_eps d.
Proof.
  unfold class_request. destruct (rq_code (ud_req d)) as [|p]; [intros E; injection E as <- <-; reflexivity|].
  repeat (destruct p as [p|p|]; try (intros E; injection E as <- <-; reflexivity)); destruct (_ <=? 2); intros E; injection E as <- <-; reflexivity.
Qed.
Lemma clip_eps d : ud_eps (clip1 d) = ud_eps d.
Proof. unfold clip1. destruct (1 <? _); reflexivity. Qed.
Lemma status_eps d : ud_eps (snd (get_status d)) = ud_eps d.
Proof. unfold get_status. destruct (_ =? 0); [cbn; destruct (2 <? _); reflexivity|]. destruct (_ =? 2); [|cbn; destruct (2 <? _); reflexivity]. destruct (endpoint_of _); [|cbn; destruct (2 <? _); reflexivity].
  destruct (is_stall _); cbn; destruct (2 <? _); reflexivity. Qed.
Lemma okd (a b : usbdev) : Ok a = Ok b -> a = b.
Proof. intros E. now injection E. Qed.
Lemma setup_eps s d d' : well_formed s -> mid d -> on_setup (packet s) d = Ok d' ->
  ud_eps d' = ud_eps d \/ exists i on, su_kind s = 0 /\ su_request s = (if on : bool then 3 else 1) /\ endpoint_named s (S i) /\ ud_eps d' = set_nth (ud_eps d) i (marked d i on).
Proof.
  intros W M. destruct (N.eq_dec (su_kind s) 0) as [K|K].
  - rewrite setup_standard by assumption. unfold standard_request. change (rq_code (ud_req (begun s d))) with (su_request s).
    destruct (in_dec N.eq_dec (su_request s) [0; 1; 3; 5; 6; 8; 9; 10; 11]) as [R|R].
    + cbn [In] in R. destruct R as [R|[R|[R|[R|[R|[R|[R|[R|[R|[]]]]]]]]]]; rewrite <- R.
      * cbn [bind]. destruct (get_status (begun s d)) as [e x] eqn:E. intros X. apply okd in X. subst d'. left. rewrite finish_eps. pose proof (status_eps (begun s d)) as Z. rewrite E in Z. exact Z.
      * cbn [bind]. unfold clear_feature. rewrite B_to by assumption. cbn [begun ud_req rq_value rq_index]. fold (begun s d).
        destruct (su_to s =? 0). { destruct (_ =? 1); cbn [bind]; intros X; apply okd in X; subst d'; left; rewrite finish_eps; reflexivity. }
        destruct (N.eqb_spec (su_to s) 2) as [T|T]; [|cbn [bind]; intros X; apply okd in X; subst d'; left; rewrite finish_eps; reflexivity].
        destruct (_ =? 0); [|cbn [bind]; intros X; apply okd in X; subst d'; left; rewrite finish_eps; reflexivity]. destruct (endpoint_of (su_index s)) as [i|] eqn:E; intros X; apply okd in X; subst d'; rewrite finish_eps; [|left; reflexivity].
        right. exists i, false. apply endpoint_of_named in E as (L & V). split; [assumption|]. split; [reflexivity|]. split; [|reflexivity]. split; [exact T|]. split; lia.
      * cbn [bind]. unfold set_feature. rewrite B_to by assumption. cbn [begun ud_req rq_value rq_index]. fold (begun s d).
        destruct (su_to s =? 0). { destruct (_ =? 1); [destruct (negb _)|]; cbn [bind]; intros X; apply okd in X; subst d'; left; rewrite finish_eps; reflexivity. }
        destruct (N.eqb_spec (su_to s) 2) as [T|T]; [|cbn [bind]; intros X; apply okd in X; subst d'; left; rewrite finish_eps; reflexivity].
        destruct (_ =? 0); [|cbn [bind]; intros X; apply okd in X; subst d'; left; rewrite finish_eps; reflexivity]. destruct (endpoint_of (su_index s)) as [i|] eqn:E; intros X; apply okd in X; subst d'; rewrite finish_eps; [|left; reflexivity].
        right. exists i, true. apply endpoint_of_named in E as (L & V). split; [assumption|]. split; [reflexivity|]. split; [|reflexivity]. split; [exact T|]. split; lia.
      * cbn [bind]; intros X; apply okd in X; subst d'; left; rewrite finish_eps; reflexivity.
      * destruct (get_descriptor_ok s d W M) as (err & p & len & F & L & G). rewrite G. cbn [bind]; intros X; apply okd in X; subst d'; left; rewrite finish_eps; reflexivity.
      * cbn [bind]; intros X; apply okd in X; subst d'; left; rewrite finish_eps, clip_eps; reflexivity.
      * cbn [bind]; intros X; apply okd in X; subst d'; left; rewrite finish_eps; reflexivity.
      * cbn [bind]; intros X; apply okd in X; subst d'; left; rewrite finish_eps, clip_eps; reflexivity.
      * cbn [bind]; intros X; apply okd in X; subst d'; left; rewrite finish_eps; reflexivity.
    + assert (E : forall (x0 x1 x3 x5 x6 x8 x9 x10 x11 y : res (bool * usbdev)), match su_request s with 6 => x6 | 5 => x5 | 8 => x8 | 9 => x9 | 1 => x1 | 3 => x3 | 10 => x10 | 11 => x11 | 0 => x0 | _ => y end = y).
      { intros. clear - R. destruct (su_request s) as [|p]; [exfalso; apply R; cbn; auto 10|]. repeat (destruct p as [p|p|]; try reflexivity; try (exfalso; apply R; cbn; auto 10; fail)). }
      rewrite E. cbn [bind]; intros X; apply okd in X; subst d'; left; rewrite finish_eps; reflexivity.
  - rewrite begin_setup by (assumption || apply (mi_buf _ M)). destruct (N.eqb_spec (32 * su_kind s) 0); [lia|]. cbn [negb]. destruct (_ =? 32).
    + destruct (class_request (begun s d)) as [err d1] eqn:E. cbn [bind]. cbn [bind]; intros X; apply okd in X; subst d'; left; rewrite finish_eps. apply class_eps in E. exact E.
    + cbn [bind]; intros X; apply okd in X; subst d'; left; rewrite finish_eps; reflexivity.
Qed.
Lemma in0_eps d d' : usb_step (UvIn 0) d = Ok d' -> ud_eps d' = ud_eps d.
Proof.
  unfold usb_step. destruct (answer_in 0 d); try (intros E; injection E as <-; reflexivity). destruct (base_same d) as (_ & _ & _ & _ & _ & _ & Ee & _).
  destruct (in0_shape d) as [(_ & _ & ->)|[(_ & _ & ->)|(_ & ->)]]; [|intros E; injection E as <-; exact Ee|intros E; injection E as <-; exact Ee].
  unfold in0_serve. destruct (memcpy _ _ _); [|discriminate|discriminate]. intros E; injection E as <-; exact Ee.
Qed.
Lemma out0_eps t data d d' : usb_step (UvOut t data) d = Ok d' -> ud_eps d' = ud_eps d.
Proof.
  unfold usb_step. destruct (r_res (ud_c0 d)); try (intros E; injection E as <-; reflexivity). unfold on_out0. destruct (memcpy _ _ _); [|discriminate|discriminate]. cbn [bind].
  intros E; injection E as <-. destruct (_ && _ && _); destruct (_ =? 0); reflexivity.
Qed.
Lemma ep_at_put d i j e : (i < length (ud_eps d))%nat -> ep_at (put_ep i e d) j = if (j =? i)%nat then e else ep_at d j.
Proof. intros L. unfold ep_at, put_ep. cbn [set_eps ud_eps]. now apply nth_set_nth. Qed.
(** What one event does to endpoint [S j]. *)
Lemma step_ep ev d d' j : fine d -> proper_event ev -> (j < 3)%nat -> usb_step ev d = Ok d' ->
  ep_at d' j = ep_at d j
  \/ (exists s on, ev = UvSetup (packet s) /\ su_kind s = 0 /\ su_request s = (if on : bool then 3 else 1) /\ endpoint_named s (S j) /\ ep_at d' j = marked d j on)
  \/ (ev = UvIn (S j) /\ (exists t b, answer_in (S j) d = InData t b))
  \/ ev = UvReset
  \/ (exists data, ev = UvReport (S j) data /\ ep_busy (ep_at d j) = false).
Proof.
  intros F P Lj E. pose proof F as F'. apply fine_iff in F' as (M & _). pose proof (mi_eps _ M) as Le. destruct ev as [p|[|i]|tog data| |a|[|i] data]; cbn [proper_event] in P.
  - destruct P as (s & W & -> & _ & _). destruct (setup_eps s d d' W M E) as [X|(i & on & K & R & T & X)]; [left; unfold ep_at; now rewrite X|].
    assert (Li : (i < 3)%nat) by (destruct T as (_ & ? & _); lia).
    unfold ep_at. rewrite X, nth_set_nth by lia. destruct (Nat.eqb_spec j i) as [->|N]; [|now left]. right. left. exists s, on. auto.
  - left. unfold ep_at. now rewrite (in0_eps d d' E).
  - unfold usb_step in E. destruct (answer_in (S i) d) eqn:A; try (injection E as <-; left; reflexivity). injection E as <-.
    destruct (Nat.eq_dec j i) as [->|N]; [right; right; left; eauto|]. left. unfold on_in. rewrite ep_at_put by lia. destruct (Nat.eqb_spec j i); [congruence|reflexivity].
  - left. unfold ep_at. now rewrite (out0_eps tog data d d' E).
  - auto.
  - left. cbn in E. injection E as <-. reflexivity.
  - left. cbn in E. injection E as <-. reflexivity.
  - cbn [usb_step] in E. unfold data_up in E. destruct (ep_busy (ep_at d i)) eqn:Eb; [injection E as <-; left; reflexivity|].
    destruct (memcpy _ _ _); [|discriminate|discriminate]. cbn [bind] in E. injection E as <-. destruct (Nat.eq_dec j i) as [->|N]; [do 4 right; eauto|].
    left. rewrite ep_at_put by lia. destruct (Nat.eqb_spec j i); [congruence|reflexivity].
Qed.
Lemma accepts_free d i : fine d -> (i < 3)%nat -> accepts_reports d (S i) <-> ep_busy (ep_at d i) = false.
Proof.
  intros F L. pose proof F as F'. apply fine_iff in F' as (M & _). pose proof (mi_eps _ M) as Le. split.
  - intros A. destruct (ep_busy (ep_at d i)) eqn:Eb; [|reflexivity]. destruct (A [0]) as (d1 & t1 & E1 & X1); [cbn; lia|]. destruct (A [1]) as (d2 & t2 & E2 & X2); [cbn; lia|].
    cbn [usb_step] in E1, E2. unfold data_up in E1, E2. rewrite Eb in E1, E2. injection E1 as <-. injection E2 as <-. rewrite X1 in X2. discriminate X2.
  - intros Eb data Ld. cbn [usb_step]. unfold data_up. rewrite Eb. assert (Lb : length (ep_buf (ep_at d i)) = 64%nat) by (destruct (ep_buf_at d i M); [assumption|lia]).
    rewrite memcpy_ok; [|rewrite Lb; lia|lia]. cbn [bind]. eexists _, _. split; [reflexivity|]. cbn [answer_in]. rewrite ep_at_put, Nat.eqb_refl by lia. cbn [ep_res ep_tog ep_len ep_buf].
    f_equal. rewrite Nnat.Nat2N.id, firstn_all. apply firstn_app_exact. reflexivity.
Qed.
