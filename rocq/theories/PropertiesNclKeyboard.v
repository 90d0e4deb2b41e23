(** C67: from keymap.ncl and the switches to the USB host. *)
From Verif Require Import BaseFacts Output Types Scheduler Keymap SimpleKeys Layered Composite SpecKeymap SpecPlain PlainFacts SpecLayer SpecBoard BoardFacts
  Ncl NclCodegen SpecNcl SpecNclBoard PropertiesNcl
  CApi CReport SpecCReport CFirmware SpecCFirmware CKeyboard SpecCKeyboard PropertiesCKeyboard.
Local Open Scope N_scope.

(** C67: build the firmware from a keymap.ncl of ordinary keys, callback keys and
    layer keys, hold the switches still for six scans and then long enough for 48
    reports: if no input was dropped, the keys that are down on the keyboard that the
    file describes are those whose switches are closed, and the host sees what they
    send. *)
Theorem C67_keymap_to_host :
  forall n src lo f g pos dbg fuel rows cols idx bootloader closed0 closed l1 l2 l3 s0 s2 s,
  writes n src lo -> sound lo -> simple_layout lo -> (4 * (n + 2) <= f)%nat -> build f src = Ok g ->
  N.of_nat (length (lo_base lo)) <= 65535 -> wiring_ok rows cols (length (lo_base lo)) idx ->
  let run := fw_run (cconf (gn_refs g) (gn_data g) pos dbg) fuel rows cols idx in
  fw_start rows (length (lo_base lo)) bootloader closed0 (km_new (ctx_from_config (gn_config g))) = Ok (Some s0) ->
  run (l1 ++ l2) s0 = Ok s2 -> run l3 s2 = Ok s ->
  fw_all_calm (cconf (gn_refs g) (gn_data g) pos dbg) fuel rows cols idx (l1 ++ l2 ++ l3) s0 ->
  steady rows cols closed l2 -> steady rows cols closed l3 -> (6 <= length (switches l2))%nat -> (reports s2 + 48 <= reports s)%nat ->
  fw_accepted s = fw_inputs s ->
  exists h b, typed rows cols (length (lo_base lo)) idx (switches (l1 ++ l2 ++ l3)) h /\ layout_run lo h b
  /\ (forall i, key_is_down b i <-> key_closed rows cols idx closed i)
  /\ host_sees (board_output b) s.
Proof.
  intros n src lo f g pos dbg fuel rows cols idx bl closed0 closed l1 l2 l3 s0 s2 s Hw Hs Hsl Hf H Hk W run H0 H2 H3 C S2 S3 L6 Hm Ha.
  destruct (C65_keyboard_of_the_layout n src lo f g Hw Hs Hsl Hf H) as (_ & E & Hr & Hb & _). rewrite <- E in *.
  destruct (C67_switches_to_host _ _ _ _ _ _ _ _ _ _ _ _ _ _ _ _ _ _ _ Hr Hk W H0 H2 H3 C S2 S3 L6 Hm Ha) as (h & b & Ty & B & K & V).
  exists h, b. split; [exact Ty|]. split; [now apply Hb|]. split; [exact K|exact V].
Qed.

(** C67: a keyboard of at most 16 keys built from such a file never stops before the
    clock runs out, after 2^32 scans. *)
Theorem C67_keymap_never_stops :
  forall n src lo f g pos dbg fuel rows cols idx bootloader closed0 l s0,
  writes n src lo -> sound lo -> simple_layout lo -> (4 * (n + 2) <= f)%nat -> build f src = Ok g ->
  (length (lo_base lo) <= 16)%nat -> (5 <= fuel)%nat -> wiring_ok rows cols (length (lo_base lo)) idx ->
  fw_start rows (length (lo_base lo)) bootloader closed0 (km_new (ctx_from_config (gn_config g))) = Ok (Some s0) ->
  N.of_nat (length (switches l)) <= u32_max ->
  exists s, fw_run (cconf (gn_refs g) (gn_data g) pos dbg) fuel rows cols idx l s0 = Ok s.
Proof.
  intros n src lo f g pos dbg fuel rows cols idx bl closed0 l s0 Hw Hs Hsl Hf H Hk Hfu W H0 Hl.
  destruct (C65_keyboard_of_the_layout n src lo f g Hw Hs Hsl Hf H) as (_ & E & Hr & _ & _). rewrite <- E in *.
  destruct (C64_sizes n src lo f g Hw Hs Hf H) as [[_ [_ [_ H5]]] _].
  eapply C67_small_keyboards_never_stop; try eassumption.
  left. destruct Hsl as [Hch _]. rewrite Hch in H5. now apply H5.
Qed.

(** The keyboard of two keys and two layers of C65, in one row: hold the second key,
    then also the first. *)
Definition pair (r c : nat) : option nat := match r, c with O, O => Some 0%nat | O, S O => Some 1%nat | _, _ => None end.
Lemma pair_ok : wiring_ok 1 2 (length (lo_base small_layout)) pair.
Proof.
  split.
  - intros [|r] [|[|c]] i Hr Hc X; try discriminate X; injection X as <-; cbn; lia.
  - intros [|r] [|[|c]] [|r'] [|[|c']] i Hr Hc Hr' Hc' X Y; try discriminate X; try discriminate Y; try (split; reflexivity); injection X as <-; discriminate Y.
Qed.
Definition second (r c : nat) : bool := (c =? 1)%nat.
Definition both (r c : nat) : bool := true.
Example C67_keymap_example :
  writes 1 small_src small_layout /\ sound small_layout /\ simple_layout small_layout /\
  let l1 := [FwEnumerate] ++ repeat (FwTimer second) 6 in
  let l2 := repeat (FwTimer both) 8 ++ repeat FwMain 15 ++ [FwHost ChKb] ++ repeat FwMain 30 in
  let l3 := repeat (FwTimer both) 48 in
  steady 1 2 both l2 /\ steady 1 2 both l3 /\ length (switches l2) = 8%nat /\
  returns (build 12 small_src) (fun g =>
    let conf := cconf (gn_refs g) (gn_data g) bs_std false in
    returns (fw_start 1 2 9 (fun _ _ => false) (km_new (ctx_from_config (gn_config g)))) (fun o => match o with
    | Some s0 =>
        returns (fw_run conf 6 1 2 pair (l1 ++ l2) s0) (fun s2 => reports s2 = 12%nat)
        /\ returns (fw_run conf 6 1 2 pair (l1 ++ l2 ++ l3) s0) (fun s =>
             reports s = 60%nat /\ fw_inputs s = [Press 1; Press 0] /\ fw_accepted s = [Press 1; Press 0]
             /\ received ChKb (fw_loop s) = [[0; 0; 5; 0; 0; 0; 0; 0]])
    | None => False
    end)).
Proof.
  split; [exact small_writes|]. split; [exact small_sound|]. split; [exact small_simple|]. cbv zeta.
  split; [vm_compute; repeat constructor|]. split; [vm_compute; repeat constructor|]. split; [reflexivity|].
  vm_compute. repeat split; reflexivity.
Qed.
Print Assumptions C67_keymap_to_host.
Print Assumptions C67_keymap_never_stops.
