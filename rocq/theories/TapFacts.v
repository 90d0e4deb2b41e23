(** Proofs about undecided keys: tap-hold and tap-dance keys (C21-C24). *)
From Verif Require Import BaseFacts Output Types TapHold TapDance Composite Keymap SpecTap.
Local Open Scope N_scope.

Lemma latest_press_app {E} (hist : list (event E)) ev :
  latest_press (hist ++ [ev]) = match ev with EvInput (Press k) => Some k | _ => latest_press hist end.
Proof.
  induction hist as [|e t IH]; cbn; [destruct ev as [[]| |]; reflexivity|].
  rewrite IH. destruct ev as [[]| |]; try reflexivity.
Qed.
Lemma presses_app {E} ki (hist : list (event E)) ev :
  presses ki (hist ++ [ev]) = (presses ki hist + match ev with EvInput (Press k) => if (k =? ki)%N then 1 else 0 | _ => 0 end)%nat.
Proof.
  induction hist as [|e t IH]; cbn [app presses].
  - destruct ev as [[]| |]; cbn; try reflexivity; destruct (_ =? _); reflexivity.
  - rewrite IH. destruct e as [[]| |]; try reflexivity. destruct (_ =? _); reflexivity.
Qed.

(** *** Tap-hold *)
Section TapHold.
Variables (d : key_data) (ki : u16) (c : cctx) (i : u8) (key : taphold_key ref).
Hypothesis Hkey : nth_error (kd_tap_hold d) (N.to_nat i) = Some key.
Local Notation ir := (thc_interrupt (thx_config (cx_tap_hold c))).

Local Notation tap_hold_key := (tap_hold_key key).

Lemma tap_hold_step hist ev p :
  thp_other p = latest_press hist ->
  c_update_pending d (PksTapHold p) ki c (RTapHold i) ev =
    match tap_hold_rule ir ki hist ev with
    | Some x => Ok (PksTapHold (mkTHPks (latest_press (hist ++ [ev]))), Some (NpkKey (tap_hold_key x)), [])
    | None => Ok (PksTapHold (mkTHPks (latest_press (hist ++ [ev]))), None, [])
    end.
Proof.
  intros Hp. destruct p as [o]. cbn in Hp. subst o.
  assert (Hi : index (kd_tap_hold d) (N.to_nat i) = Ok key) by (unfold index; now rewrite Hkey).
  rewrite latest_press_app.
  destruct ev as [[k|k|ko|ko]|k [e|e|e|e|e|e|[]]|km]; cbn [c_update_pending try_event as_tap_hold tap_hold_rule];
    unfold th_update_pending, th_handle_event; cbn [thp_other hold_resolution];
    try (destruct ir; cbn; rewrite ?Hi; cbn; reflexivity); try reflexivity.
  destruct ir; cbn [hold_resolution thp_other opt_eqb]; rewrite (N.eqb_sym ki k).
  - destruct (k =? ki); cbn; rewrite ?Hi; cbn; try reflexivity.
  - destruct (k =? ki); cbn; rewrite ?Hi; cbn; try reflexivity.
  - destruct (k =? ki); cbn; rewrite ?Hi; cbn; try reflexivity.
    destruct (latest_press hist) as [k'|]; cbn; [|reflexivity].
    destruct (k =? k'); cbn; rewrite ?Hi; reflexivity.
Qed.

End TapHold.

Lemma tap_hold_feed d ki i key ir :
  nth_error (kd_tap_hold d) (N.to_nat i) = Some key ->
  forall evs, Forall (fun ce => thc_interrupt (thx_config (cx_tap_hold (fst ce))) = ir) evs ->
  forall hist p, thp_other p = latest_press hist ->
  match first_decision (tap_hold_rule ir ki) hist (map snd evs) with
  | Some (x, rest) =>
      feed d ki (RTapHold i) (PksTapHold p) evs = Ok (Became (NpkKey (tap_hold_key key x)) rest, [])
  | None => exists p', feed d ki (RTapHold i) (PksTapHold p) evs = Ok (Undecided p', [])
  end.
Proof.
  intros Hkey evs Hevs. induction evs as [|[c ev] evs IH]; intros hist p Hp; cbn [first_decision feed map snd]; [eauto|].
  inversion Hevs as [|? ? Hc Hevs']; subst. cbn [fst] in *. specialize (IH Hevs').
  rewrite (tap_hold_step d ki c i key Hkey hist ev p Hp).
  destruct (tap_hold_rule _ ki hist ev) as [x|]; cbn [bind]; [reflexivity|].
  specialize (IH (hist ++ [ev]) (mkTHPks (latest_press (hist ++ [ev]))) eq_refl).
  destruct (first_decision _ _ _) as [[x rest]|].
  - rewrite IH. reflexivity.
  - destruct IH as [p' IH]. rewrite IH. exists p'. reflexivity.
Qed.

(** *** Tap-dance *)
Section TapDance.
Variables (d : key_data) (ki : u16) (c : cctx) (i : u8) (defs : list ref) (pad : nat).
Hypothesis Hkey : nth_error (kd_tap_dance d) (N.to_nat i) = Some (map Some defs ++ repeat None pad).
Hypothesis Hn : (1 <= length defs <= 256)%nat.

Lemma td_count_defs : td_count (map Some defs ++ repeat None pad) = length defs.
Proof.
  unfold td_count. rewrite filter_app, app_length.
  assert (A : forall l : list ref, length (filter (fun o => match o with Some _ => true | None => false end) (map Some l)) = length l)
    by (induction l; cbn; congruence).
  assert (B : forall m, filter (fun o : option ref => match o with Some _ => true | None => false end) (repeat None m) = [])
    by (induction m; cbn; congruence).
  rewrite A, B. cbn. lia.
Qed.
Lemma td_definition_defs m r : nth_error defs m = Some r -> td_definition (map Some defs ++ repeat None pad) m = Ok r.
Proof.
  intros H. unfold td_definition, index. rewrite nth_error_app1 by (rewrite map_length; now apply nth_error_Some; rewrite H).
  rewrite nth_error_map, H. reflexivity.
Qed.

Lemma tap_dance_step hist ev p :
  let kes := dance_timers (tdc_timeout (tdx_config (cx_tap_dance c))) ki (presses ki hist) [ev] in
  tdp_count p = N.of_nat (presses ki hist) -> (presses ki hist < Nat.max 1 (length defs - 1))%nat ->
  c_update_pending d (PksTapDance p) ki c (RTapDance i) ev =
    match tap_dance_rule (length defs) ki hist ev with
    | Some m => match nth_error defs m with
                | Some r => Ok (PksTapDance (mkTDPks (N.of_nat (presses ki (hist ++ [ev])))), Some (NpkKey r), kes)
                | None => Panic
                end
    | None => Ok (PksTapDance (mkTDPks (N.of_nat (presses ki (hist ++ [ev])))), None, kes)
    end
  /\ (tap_dance_rule (length defs) ki hist ev = None -> (presses ki (hist ++ [ev]) < Nat.max 1 (length defs - 1))%nat)
  /\ (forall m, tap_dance_rule (length defs) ki hist ev = Some m -> nth_error defs m <> None).
Proof.
  intros kes Hp Hlt. subst kes. destruct p as [cnt]. cbn in Hp. subst cnt.
  assert (Hi : index (kd_tap_dance d) (N.to_nat i) = Ok (map Some defs ++ repeat None pad)) by (unfold index; now rewrite Hkey).
  assert (Hd : exists r, nth_error defs (length defs - 1) = Some r).
  { destruct (nth_error defs (length defs - 1)) as [r|] eqn:E; [eauto|]. apply nth_error_None in E. lia. }
  destruct Hd as [rl Hd]. pose proof (td_definition_defs _ _ Hd) as Hdef.
  assert (Hlast : forall n0 kes, match td_count (map Some defs ++ repeat None pad) with
      | O => Panic
      | S n => if (n <=? N.to_nat n0)%nat
               then let! d := td_definition (map Some defs ++ repeat None pad) n in Ok (mkTDPks n0, Some (NpkKey d), kes)
               else Ok (mkTDPks n0, None, kes)
      end = if (length defs - 1 <=? N.to_nat n0)%nat then Ok (mkTDPks n0, Some (NpkKey rl), kes) else Ok (mkTDPks n0, None : option (new_pressed_key ref), kes : key_events td_event)).
  { intros n0 kes. rewrite td_count_defs. destruct (length defs) as [|n] eqn:El; [lia|].
    replace (S n - 1)%nat with n in * by lia. destruct (n <=? _)%nat; [|reflexivity]. now rewrite Hdef. }
  assert (Hlt' : (presses ki hist < length defs)%nat) by lia.
  destruct (nth_error defs (presses ki hist)) as [rc|] eqn:Erc; [|apply nth_error_None in Erc; lia].
  pose proof (td_definition_defs _ _ Erc) as Hdefc.
  unfold tap_dance_rule. rewrite presses_app.
  destruct ev as [[k|k|ko|ko]|k [e|e|e|e|e|[m]|e]|km]; cbn [c_update_pending try_event as_tap_dance];
    try (cbn [dance_timers]; rewrite Nat.add_0_r; split; [reflexivity|]; split; [lia|discriminate]);
    unfold td_update_pending; rewrite Hi; cbn [bind td_handle_event tdp_count].
  - (* press *)
    destruct (k =? ki) eqn:Ek.
    + destruct (N.ltb_spec (N.of_nat (presses ki hist)) 255) as [Hc|Hc]; [|lia]. cbn [bind tdp_count]. rewrite Hlast.
      replace (N.to_nat (N.of_nat (presses ki hist) + 1)) with (presses ki hist + 1)%nat by lia.
      replace (N.of_nat (presses ki hist) + 1)%N with (N.of_nat (S (presses ki hist))) by lia.
      replace (presses ki hist + 1)%nat with (S (presses ki hist)) by lia.
      cbn [dance_timers]; rewrite ?Ek. destruct (Nat.leb_spec (length defs - 1) (S (presses ki hist))).
      * rewrite Hd. cbn. split; [reflexivity|]. split; [discriminate|]. intros m [= <-]. congruence.
      * split; [reflexivity|]. split; [intros _; lia|discriminate].
    + cbn [bind tdp_count]. rewrite Hlast. rewrite Nat2N.id, Nat.add_0_r. cbn [dance_timers]; rewrite ?Ek.
      destruct (Nat.leb_spec (length defs - 1) (presses ki hist)).
      * rewrite Hd. cbn. split; [reflexivity|]. split; [discriminate|]. intros m [= <-]. congruence.
      * split; [reflexivity|]. split; [intros _; lia|discriminate].
  - cbn [bind tdp_count]. rewrite Hlast. rewrite Nat2N.id, Nat.add_0_r. cbn [dance_timers]; rewrite ?Ek.
    destruct (Nat.leb_spec (length defs - 1) (presses ki hist)).
    * rewrite Hd. cbn. split; [reflexivity|]. split; [discriminate|]. intros m [= <-]. congruence.
    * split; [reflexivity|]. split; [intros _; lia|discriminate].
  - cbn [bind tdp_count]. rewrite Hlast. rewrite Nat2N.id, Nat.add_0_r. cbn [dance_timers]; rewrite ?Ek.
    destruct (Nat.leb_spec (length defs - 1) (presses ki hist)).
    * rewrite Hd. cbn. split; [reflexivity|]. split; [discriminate|]. intros m [= <-]. congruence.
    * split; [reflexivity|]. split; [intros _; lia|discriminate].
  - cbn [bind tdp_count]. rewrite Hlast. rewrite Nat2N.id, Nat.add_0_r. cbn [dance_timers]; rewrite ?Ek.
    destruct (Nat.leb_spec (length defs - 1) (presses ki hist)).
    * rewrite Hd. cbn. split; [reflexivity|]. split; [discriminate|]. intros m [= <-]. congruence.
    * split; [reflexivity|]. split; [intros _; lia|discriminate].
  - (* timeout *)
    rewrite Nat.add_0_r. destruct ((k =? ki) && (m =? N.of_nat (presses ki hist))) eqn:Ek.
    + cbn [bind]. rewrite Nat2N.id, Hdefc. cbn [bind]. cbn [dance_timers]; rewrite ?Ek. rewrite Erc. cbn. split; [reflexivity|]. split; [discriminate|].
      intros x [= <-]. congruence.
    + cbn [bind tdp_count]. rewrite Hlast. rewrite Nat2N.id. cbn [dance_timers]; rewrite ?Ek.
      destruct (Nat.leb_spec (length defs - 1) (presses ki hist)).
      * rewrite Hd. cbn. split; [reflexivity|]. split; [discriminate|]. intros x [= <-]. congruence.
      * split; [reflexivity|]. split; [intros _; lia|discriminate].
  - cbn [bind tdp_count]. rewrite Hlast. rewrite Nat2N.id, Nat.add_0_r. cbn [dance_timers]; rewrite ?Ek.
    destruct (Nat.leb_spec (length defs - 1) (presses ki hist)).
    * rewrite Hd. cbn. split; [reflexivity|]. split; [discriminate|]. intros m [= <-]. congruence.
    * split; [reflexivity|]. split; [intros _; lia|discriminate].
Qed.

End TapDance.

Lemma dance_timers_app T ki : forall a b n,
  dance_timers T ki n (a ++ b) = dance_timers T ki n a ++ dance_timers T ki (n + presses ki a) b.
Proof.
  induction a as [|e a IH]; intros b n; cbn [app dance_timers presses]; [now rewrite Nat.add_0_r|].
  destruct e as [[k|k|ko|ko]|k e|km]; rewrite ?IH; try reflexivity.
  destruct (k =? ki); [|reflexivity]. cbn [app]. do 2 f_equal. f_equal. lia.
Qed.

Lemma tap_dance_feed d ki i defs pad T :
  nth_error (kd_tap_dance d) (N.to_nat i) = Some (map Some defs ++ repeat None pad) ->
  (1 <= length defs <= 256)%nat ->
  forall evs, Forall (fun ce => tdc_timeout (tdx_config (cx_tap_dance (fst ce))) = T) evs ->
  forall hist p,
  tdp_count p = N.of_nat (presses ki hist) -> (presses ki hist < Nat.max 1 (length defs - 1))%nat ->
  match first_decision (tap_dance_rule (length defs) ki) hist (map snd evs) with
  | Some (m, rest) => exists r used, nth_error defs m = Some r /\ map snd evs = used ++ rest
      /\ feed d ki (RTapDance i) (PksTapDance p) evs
         = Ok (Became (NpkKey r) rest, dance_timers T ki (presses ki hist) used)
  | None => exists p', feed d ki (RTapDance i) (PksTapDance p) evs
         = Ok (Undecided p', dance_timers T ki (presses ki hist) (map snd evs))
  end.
Proof.
  intros Hkey Hn evs Hevs.
  induction evs as [|[c ev] evs IH]; intros hist p Hp Hlt; cbn [first_decision feed map snd]; [eauto|].
  inversion Hevs as [|? ? Hc Hevs']; subst. cbn [fst] in *. specialize (IH Hevs').
  destruct (tap_dance_step d ki c i defs pad Hkey Hn hist ev p Hp Hlt) as (E & Hnone & Hsome). rewrite E.
  destruct (tap_dance_rule (length defs) ki hist ev) as [m|].
  - specialize (Hsome m eq_refl). destruct (nth_error defs m) as [r|] eqn:Er; [|congruence]. cbn [bind].
    exists r, [ev]. auto.
  - cbn [bind]. specialize (IH (hist ++ [ev]) (mkTDPks (N.of_nat (presses ki (hist ++ [ev])))) eq_refl (Hnone eq_refl)).
    assert (A : forall t, dance_timers (tdc_timeout (tdx_config (cx_tap_dance c))) ki (presses ki hist) (ev :: t)
      = dance_timers (tdc_timeout (tdx_config (cx_tap_dance c))) ki (presses ki hist) [ev]
        ++ dance_timers (tdc_timeout (tdx_config (cx_tap_dance c))) ki (presses ki (hist ++ [ev])) t).
    { intros t. change (ev :: t) with ([ev] ++ t). rewrite dance_timers_app. f_equal. f_equal.
      rewrite presses_app. cbn. destruct ev as [[]| |]; try reflexivity. }
    destruct (first_decision _ _ _) as [[x rest]|].
    + destruct IH as (r & used & H1 & H2 & H3). rewrite H3. exists r, (ev :: used). split; [exact H1|].
      split; [now rewrite H2|]. cbn [bind]. rewrite (A used). reflexivity.
    + destruct IH as [p' IH]. rewrite IH. exists p'. cbn [bind]. rewrite (A (map snd evs)). reflexivity.
Qed.
