(** Proofs about the event scheduler (C09-C11). *)
From Coq Require Import Sorted.
From Verif Require Import BaseFacts Output Types Scheduler SpecScheduler.
Local Open Scope N_scope.

(** ** Lists *)
Lemma last_opt_spec {A} (l : list A) x : last_opt l = Some x -> l = removelast l ++ [x].
Proof.
  induction l as [|y l IH]; intros H; [discriminate|].
  destruct l as [|z l]; [cbn in *; congruence|].
  change (last_opt (y :: z :: l)) with (last_opt (z :: l)) in H.
  change (removelast (y :: z :: l)) with (y :: removelast (z :: l)).
  cbn [app]. f_equal. now apply IH.
Qed.
Lemma last_opt_none {A} (l : list A) : last_opt l = None -> l = [].
Proof.
  induction l as [|y l IH]; intros H; [reflexivity|]. destruct l as [|z l]; [discriminate|].
  apply IH in H. discriminate.
Qed.
Lemma last_opt_app {A} (l : list A) x : last_opt (l ++ [x]) = Some x.
Proof.
  induction l as [|y l IH]; [reflexivity|]. cbn [app last_opt].
  destruct (l ++ [x]) eqn:E; [now apply app_eq_nil in E as [_ ?]|exact IH].
Qed.

Lemma insert_at_perm {A} p (x : A) l : Permutation (insert_at p x l) (x :: l).
Proof.
  unfold insert_at. rewrite <- Permutation_middle. now rewrite firstn_skipn.
Qed.
Lemma insert_at_In {A} p (x y : A) l : In y (insert_at p x l) <-> y = x \/ In y l.
Proof.
  split; intros H.
  - apply (Permutation_in _ (insert_at_perm p x l)) in H. destruct H; auto.
  - apply (Permutation_in _ (Permutation_sym (insert_at_perm p x l))). destruct H; [left|right]; auto.
Qed.

Lemma SSorted_app {A} (P : A -> A -> Prop) l1 l2 :
  StronglySorted P (l1 ++ l2) <->
  StronglySorted P l1 /\ StronglySorted P l2 /\ (forall x y, In x l1 -> In y l2 -> P x y).
Proof.
  induction l1 as [|a l1 IH]; cbn.
  - split; [intros H; repeat split; [constructor|exact H|intros x y []]|intros (_ & H & _); exact H].
  - split.
    + intros H. inversion H; subst. apply IH in H2 as (H4 & H5 & H6).
      rewrite Forall_forall in H3. repeat split.
      * constructor; [exact H4|]. apply Forall_forall. intros y Hy. apply H3, in_or_app; auto.
      * exact H5.
      * intros x y [->|Hx] Hy; [apply H3, in_or_app; auto|auto].
    + intros (H1 & H2 & H3). inversion H1; subst. constructor.
      * apply IH. auto.
      * rewrite Forall_forall in *. intros y Hy. apply in_app_or in Hy as [Hy|Hy]; auto.
Qed.

Lemma In_length {A} (x : A) l : In x l -> (1 <= length l)%nat.
Proof. destruct l; [intros []|cbn; lia]. Qed.

Lemma map_insert_at {A B} (f : A -> B) p x l : map f (insert_at p x l) = insert_at p (f x) (map f l).
Proof. unfold insert_at. rewrite map_app. cbn. now rewrite firstn_map, skipn_map. Qed.

Lemma insert_decreasing bs l t :
  position_ok bs -> decreasing l -> decreasing (insert_at (bs l t) t l).
Proof.
  intros Hb Hl. destruct (Hb l t Hl) as (_ & H1 & H2). unfold insert_at, decreasing in *.
  rewrite <- (firstn_skipn (bs l t) l) in Hl. apply SSorted_app in Hl as (Ha & Hc & Hx).
  rewrite Forall_forall in H1. apply SSorted_app. repeat split.
  - exact Ha.
  - constructor; [exact Hc|exact H2].
  - intros x y Hi [<-|Hy]; [apply H1, Hi|now apply Hx].
Qed.

(** ** Inversion of the scheduler's operations *)
Section Facts.
Context {E : Type}.
Implicit Type s : scheduler E.

Lemma u32_add_ok a b c : u32_add a b = Ok c -> c = a + b /\ a + b <= u32_max.
Proof. unfold u32_add. destruct (N.leb_spec (a + b) u32_max); intros H0; inversion H0; auto. Qed.
Lemma u32_sub_ok a b c : u32_sub a b = Ok c -> c = a - b /\ b <= a.
Proof. unfold u32_sub. destruct (N.leb_spec b a); intros H0; inversion H0; auto. Qed.

Lemma sched_after_ok bs s d e s' :
  sched_after bs s d e = Ok s' ->
  sc_pending s' = sc_pending s /\ sc_counter s' = sc_counter s
  /\ sc_scheduled s' = insert_at (bs (map en_time (sc_scheduled s)) (sc_counter s + d))
                                 (mkEntry (sc_counter s + d) e true) (sc_scheduled s)
  /\ (length (sc_scheduled s) < MAX_SCHEDULED_EVENTS)%nat
  /\ (bs (map en_time (sc_scheduled s)) (sc_counter s + d)%N <= length (sc_scheduled s))%nat.
Proof.
  unfold sched_after. intros H. inv_bind H. apply u32_add_ok in E0 as [-> _].
  destruct (Nat.ltb_spec (length (sc_scheduled s)) MAX_SCHEDULED_EVENTS); [|discriminate].
  destruct (Nat.leb_spec (bs (map en_time (sc_scheduled s)) (sc_counter s + d)) (length (sc_scheduled s)));
    [|discriminate].
  inv_ok H. cbn. auto.
Qed.

Lemma sched_enqueue_ok s e s' :
  sched_enqueue s e = Ok s' ->
  sc_pending s' = sc_pending s ++ [Some e] /\ sc_counter s' = sc_counter s
  /\ sc_scheduled s' = sc_scheduled s /\ (length (sc_pending s) < PENDING_CAPACITY)%nat.
Proof.
  unfold sched_enqueue. intros H. inv_bind H. apply push_cap_ok in E0 as [-> Hl].
  inv_ok H. cbn. auto.
Qed.

Lemma sched_tick_ok s ms s' :
  sched_tick s ms = Ok s' ->
  sc_counter s' = sc_counter s + ms
  /\ ((sc_pending s' = sc_pending s /\ sc_scheduled s' = sc_scheduled s
       /\ (forall en, last_opt (sc_scheduled s) = Some en -> sc_counter s + ms < en_time en))
      \/ exists en, sc_scheduled s = sc_scheduled s' ++ [en] /\ en_time en <= sc_counter s + ms
                    /\ sc_pending s' = sc_pending s ++ [if en_live en then Some (en_event en) else None]).
Proof.
  unfold sched_tick. intros H. inv_bind H. apply u32_add_ok in E0 as [-> _].
  destruct (last_opt (sc_scheduled s)) as [en|] eqn:El.
  - destruct (N.leb_spec (en_time en) (sc_counter s + ms)).
    + inv_bind H. apply push_cap_ok in E0 as [-> _]. inv_ok H. cbn. split; [reflexivity|].
      right. exists en. split; [now apply last_opt_spec|]. auto.
    + inv_ok H. cbn. split; [reflexivity|]. left. repeat split. intros en' E0. inversion E0; subst. exact H0.
  - inv_ok H. cbn. split; [reflexivity|]. left. repeat split. discriminate.
Qed.

Lemma sched_dequeue_eq s s' x :
  sched_dequeue s = (s', x) ->
  sc_counter s' = sc_counter s /\ sc_scheduled s' = sc_scheduled s
  /\ ((sc_pending s = [] /\ sc_pending s' = [] /\ x = None) \/ sc_pending s = x :: sc_pending s').
Proof.
  unfold sched_dequeue. destruct (sc_pending s) as [|o t] eqn:Ep; intros H; inversion H; subst; cbn; repeat split; auto 8.
Qed.

(** ** Invariants over histories *)
Lemma so_run_snoc bs ops o st :
  so_run bs (ops ++ [o]) = Ok st ->
  exists s tr, so_run bs ops = Ok (s, tr) /\ so_step bs (s, tr) o = Ok st.
Proof.
  unfold so_run, so_run_from. rewrite fold_res_app. intros H. inv_bind H. destruct a as [s tr].
  exists s, tr. split; [exact E0|]. cbn [fold_res] in H. inv_bind H. cbn in H. inv_ok H. exact E1.
Qed.

Lemma so_run_app bs ops1 ops2 s tr :
  so_run bs ops1 = Ok (s, tr) ->
  so_run bs (ops1 ++ ops2) = fold_res (so_step bs) ops2 (s, tr).
Proof. unfold so_run, so_run_from. rewrite fold_res_app. now intros ->. Qed.

Ltac so_cases H :=
  match type of H with
  | so_step _ _ ?o = Ok _ =>
      destruct o as [e|d e|i|ms|]; cbn [so_step] in H;
      [ inv_bind H; inv_ok H; match goal with E0 : sched_enqueue _ _ = Ok _ |- _ => apply sched_enqueue_ok in E0 end
      | inv_bind H; inv_ok H; match goal with E0 : sched_after _ _ _ _ = Ok _ |- _ => apply sched_after_ok in E0 end
      | inv_ok H
      | inv_bind H; inv_ok H; match goal with E0 : sched_tick _ _ = Ok _ |- _ => apply sched_tick_ok in E0 end
      | match type of H with context [sched_dequeue ?s0] =>
          let s1 := fresh "s1" in let x := fresh "x" in let Ed := fresh "Ed" in
          destruct (sched_dequeue s0) as [s1 x] eqn:Ed; apply sched_dequeue_eq in Ed; inv_ok H end ]
  end.

Lemma elapsed_app (a b : list (so E)) : elapsed (a ++ b) = elapsed a + elapsed b.
Proof. induction a as [|o a IH]; cbn; [reflexivity|]. destruct o; rewrite ?IH; lia. Qed.
Lemma due_times_app c (a b : list (so E)) :
  due_times c (a ++ b) = due_times c a ++ due_times (c + elapsed a) b.
Proof.
  revert c. induction a as [|o a IH]; intros c; cbn.
  - now rewrite N.add_0_r.
  - destruct o; rewrite IH; cbn; try reflexivity. now rewrite N.add_assoc.
Qed.
Lemma requested_app (a b : list (so E)) : requested (a ++ b) = requested a ++ requested b.
Proof. induction a as [|o a IH]; cbn; [reflexivity|]. destruct o; rewrite ?IH; reflexivity. Qed.

(** Clock. *)
Lemma so_step_clock bs s tr o s' tr' :
  so_step bs (s, tr) o = Ok (s', tr') -> sc_counter s' = sc_counter s + elapsed [o].
Proof.
  intros H. so_cases H; cbn; [destruct E0 as (_ & -> & _)|destruct E0 as (_ & -> & _)|
                              |destruct E0 as (-> & _)|destruct Ed as (-> & _)]; cbn; lia.
Qed.
Lemma so_run_clock bs ops s tr : so_run bs ops = Ok (s, tr) -> sc_counter s = elapsed ops.
Proof.
  revert s tr. induction ops as [|o ops IH] using rev_ind; intros s tr H.
  - inversion H; subst. reflexivity.
  - apply so_run_snoc in H as (s0 & tr0 & H0 & H1). apply so_step_clock in H1.
    rewrite elapsed_app, H1. erewrite IH by exact H0. reflexivity.
Qed.

(** The queue is in decreasing order. *)
Definition sorted s : Prop := decreasing (map en_time (sc_scheduled s)).

Lemma decreasing_prefix a b : decreasing (a ++ b) -> decreasing a.
Proof. intros H. apply SSorted_app in H. apply H. Qed.

Lemma cancel_times i (l : list (sch_entry E)) : map en_time (map (cancel_entry i) l) = map en_time l.
Proof.
  rewrite map_map. apply map_ext. intros en. unfold cancel_entry.
  destruct (en_event en); try reflexivity. destruct (_ =? _); reflexivity.
Qed.

Lemma sched_after_sorted bs s d e s' :
  position_ok bs -> sorted s -> sched_after bs s d e = Ok s' -> sorted s'.
Proof.
  intros Hb Hs H. apply sched_after_ok in H as (_ & _ & H & _). unfold sorted. rewrite H, map_insert_at.
  cbn [en_time]. now apply insert_decreasing.
Qed.
Lemma sched_tick_sorted s ms s' : sorted s -> sched_tick s ms = Ok s' -> sorted s'.
Proof.
  intros Hs H. apply sched_tick_ok in H as (_ & [(_ & H & _)|(en & H & _)]).
  - unfold sorted. now rewrite H.
  - unfold sorted in *. rewrite H, map_app in Hs. now apply decreasing_prefix in Hs.
Qed.
Lemma so_step_sorted bs s tr o s' tr' :
  position_ok bs -> sorted s -> so_step bs (s, tr) o = Ok (s', tr') -> sorted s'.
Proof.
  intros Hb Hs H. destruct o; cbn [so_step] in H.
  - inv_bind H. inv_ok H. apply sched_enqueue_ok in E0 as (_ & _ & E0 & _). unfold sorted. now rewrite E0.
  - inv_bind H. inv_ok H. eapply sched_after_sorted; eauto.
  - inv_ok H. unfold sorted. cbn. now rewrite cancel_times.
  - inv_bind H. inv_ok H. eapply sched_tick_sorted; eauto.
  - destruct (sched_dequeue s) as [s1 x] eqn:Ed. apply sched_dequeue_eq in Ed as (_ & Ed & _). inv_ok H.
    unfold sorted. now rewrite Ed.
Qed.
Lemma so_run_sorted bs ops s tr : position_ok bs -> so_run bs ops = Ok (s, tr) -> sorted s.
Proof.
  intros Hb. revert s tr. induction ops as [|o ops IH] using rev_ind; intros s tr H.
  - inversion H; subst. constructor.
  - apply so_run_snoc in H as (s0 & tr0 & H0 & H1). eapply so_step_sorted; eauto.
Qed.

(** The entry popped by a tick is a minimal one. *)
Lemma popped_minimal s l en en' :
  sorted s -> sc_scheduled s = l ++ [en] -> In en' (sc_scheduled s) -> en_time en <= en_time en'.
Proof.
  unfold sorted. intros Hs Hl Hi. rewrite Hl in Hs, Hi. rewrite map_app in Hs.
  apply SSorted_app in Hs as (_ & _ & Hs). apply in_app_or in Hi as [Hi|[<-|[]]]; [|lia].
  apply Hs; [now apply in_map|left; reflexivity].
Qed.

(** ** C09: never early.  Every scheduled or pending or delivered event is
    accounted for by a request of the history. *)
Definition asked_now (ops : list (so E)) e : Prop := exists a b, ops = a ++ SoNow e :: b.
Definition asked_at (ops : list (so E)) e t : Prop := In (e, t) (due_times 0 ops).

Definition accounted (ops : list (so E)) (now : N) (o : option (event E)) : Prop :=
  match o with
  | None => True
  | Some e => In (SoNow e) ops \/ exists t, In (e, t) (due_times 0 ops) /\ t <= now
  end.

Lemma accounted_mono ops o now now' x :
  now <= now' -> accounted ops now x -> accounted (ops ++ [o]) now' x.
Proof.
  intros Hn. destruct x as [e|]; cbn; [|auto]. intros [H|(t & H & Ht)].
  - left. apply in_or_app; auto.
  - right. exists t. rewrite due_times_app. split; [apply in_or_app; auto|lia].
Qed.

Lemma so_run_accounted bs ops s tr :
  so_run bs ops = Ok (s, tr) ->
  Forall (accounted ops (elapsed ops)) tr
  /\ Forall (accounted ops (elapsed ops)) (sc_pending s)
  /\ Forall (fun en => In (en_event en, en_time en) (due_times 0 ops)) (sc_scheduled s).
Proof.
  revert s tr. induction ops as [|o ops IH] using rev_ind; intros s tr H.
  - inversion H; subst. repeat split; constructor.
  - apply so_run_snoc in H as (s0 & tr0 & H0 & H1).
    destruct (IH _ _ H0) as (IT & IP & IS). pose proof (so_run_clock _ _ _ _ H0) as Hc.
    assert (Hle : elapsed ops <= elapsed (ops ++ [o])) by (rewrite elapsed_app; lia).
    assert (IT' : Forall (accounted (ops ++ [o]) (elapsed (ops ++ [o]))) tr0)
      by (eapply Forall_impl; [|exact IT]; intros x; now apply accounted_mono).
    assert (IP' : Forall (accounted (ops ++ [o]) (elapsed (ops ++ [o]))) (sc_pending s0))
      by (eapply Forall_impl; [|exact IP]; intros x; now apply accounted_mono).
    assert (IS' : Forall (fun en => In (en_event en, en_time en) (due_times 0 (ops ++ [o]))) (sc_scheduled s0))
      by (eapply Forall_impl; [|exact IS]; intros x Hx; rewrite due_times_app; apply in_or_app; auto).
    so_cases H1.
    + destruct E0 as (-> & _ & -> & _). repeat split; auto.
      apply Forall_app. split; [exact IP'|]. constructor; [|constructor].
      left. apply in_or_app. right. left. reflexivity.
    + destruct E0 as (-> & _ & -> & _ & _). repeat split; auto.
      apply Forall_forall. intros en Hen. apply insert_at_In in Hen as [->|Hen].
      * cbn. rewrite due_times_app, Hc. apply in_or_app. right. left. reflexivity.
      * rewrite Forall_forall in IS'. now apply IS'.
    + cbn. repeat split; auto. apply Forall_forall. intros en Hen. apply in_map_iff in Hen as (en0 & <- & Hen).
      rewrite Forall_forall in IS'. specialize (IS' _ Hen). unfold cancel_entry.
      destruct (en_event en0) eqn:Ee; [congruence| |congruence].
      destruct (_ =? _); cbn; congruence.
    + destruct E0 as (_ & [(-> & -> & _)|(en & Hs & Ht & ->)]); [repeat split; auto|].
      rewrite Hs in IS'. apply Forall_app in IS' as [IS1 IS2]. repeat split; auto.
      apply Forall_app. split; [exact IP'|]. constructor; [|constructor].
      destruct (en_live en); cbn; [|exact I]. right. exists (en_time en).
      inversion IS2; subst. split; [assumption|]. rewrite elapsed_app, <- Hc. cbn. lia.
    + destruct Ed as (_ & -> & [(Ep & -> & ->)|Ep]).
      * repeat split; auto. apply Forall_app. split; [exact IT'|]. constructor; [exact I|constructor].
      * rewrite Ep in IP'. inversion IP'; subst. repeat split; auto.
        apply Forall_app. split; [exact IT'|]. constructor; [assumption|constructor].
Qed.

Lemma delivered_In (tr : list (option (event E))) e : In e (delivered tr) <-> In (Some e) tr.
Proof.
  unfold delivered. rewrite filter_map_In. split.
  - intros (x & Hx & ->). exact Hx.
  - intros H. exists (Some e). auto.
Qed.

Lemma due_times_split c (ops : list (so E)) e t :
  In (e, t) (due_times c ops) ->
  exists a d b, ops = a ++ SoAfter d e :: b /\ t = c + elapsed a + d.
Proof.
  revert c. induction ops as [|o ops IH]; intros c H; [destruct H|].
  destruct o; cbn in H.
  - apply IH in H as (a & d & b & -> & ->). exists (SoNow e0 :: a), d, b. cbn. auto.
  - destruct H as [H|H].
    + inversion H; subst. exists [], d, ops. cbn. split; [reflexivity|lia].
    + apply IH in H as (a & d' & b & -> & ->). exists (SoAfter d e0 :: a), d', b. cbn. auto.
  - apply IH in H as (a & d & b & -> & ->). exists (SoCancel i :: a), d, b. cbn. auto.
  - apply IH in H as (a & d & b & -> & ->). exists (SoTick ms :: a), d, b. cbn. split; [reflexivity|lia].
  - apply IH in H as (a & d & b & -> & ->). exists (SoDequeue :: a), d, b. cbn. auto.
Qed.

Lemma never_early bs ops s tr e :
  so_run bs ops = Ok (s, tr) -> In e (delivered tr) ->
  (exists a b, ops = a ++ SoNow e :: b)
  \/ (exists a d b, ops = a ++ SoAfter d e :: b /\ d <= elapsed b).
Proof.
  intros H Hin. apply so_run_accounted in H as (HT & _). rewrite Forall_forall in HT.
  apply delivered_In in Hin. specialize (HT _ Hin). cbn in HT. destruct HT as [HT|(t & HT & Hle)].
  - left. apply in_split in HT as (a & b & ->). eauto.
  - right. apply due_times_split in HT as (a & d & b & -> & ->). exists a, d, b.
    split; [reflexivity|]. rewrite elapsed_app in Hle. cbn in Hle. lia.
Qed.

(** ** C10: conservation *)
Definition cancelled_in (ops : list (so E)) (e : event E) : Prop :=
  exists a i k b, e = EvKey i k /\ ops = a ++ SoCancel i :: b /\ In e (requested a).

Lemma cancelled_in_mono ops o e : cancelled_in ops e -> cancelled_in (ops ++ [o]) e.
Proof.
  intros (a & i & k & b & -> & -> & H). exists a, i, k, (b ++ [o]). rewrite <- app_assoc. auto.
Qed.

Lemma live_cancel i (l : list (sch_entry E)) :
  exists dropped,
    Permutation (map en_event (filter en_live l))
                (dropped ++ map en_event (filter en_live (map (cancel_entry i) l)))
    /\ Forall (fun e => exists k, e = EvKey i k) dropped.
Proof.
  induction l as [|en l (dr & IH & Hd)]; cbn [map filter].
  - exists []. split; constructor.
  - destruct (is_key_of i (en_event en)) eqn:Ek.
    + assert (Hc : cancel_entry i en = mkEntry (en_time en) (en_event en) false).
      { unfold cancel_entry. destruct (en_event en); try discriminate. cbn in Ek. now rewrite Ek. }
      rewrite Hc. cbn [en_live]. destruct (en_live en); [|exists dr; auto].
      exists (en_event en :: dr). cbn. split; [now constructor|]. constructor; [|exact Hd].
      destruct (en_event en); try discriminate. cbn in Ek. apply N.eqb_eq in Ek. subst. eauto.
    + assert (Hc : cancel_entry i en = en).
      { unfold cancel_entry. destruct (en_event en); try reflexivity. cbn in Ek. now rewrite Ek. }
      rewrite Hc. exists dr. destruct (en_live en); cbn; [|auto]. split; [|exact Hd].
      rewrite IH. apply Permutation_middle.
Qed.

Lemma delivered_app (a b : list (option (event E))) : delivered (a ++ b) = delivered a ++ delivered b.
Proof. apply filter_map_app. Qed.

Lemma filter_perm {A} (f : A -> bool) l l' : Permutation l l' -> Permutation (filter f l) (filter f l').
Proof.
  induction 1; cbn.
  - constructor.
  - destruct (f x); [now constructor|assumption].
  - destruct (f x), (f y); try reflexivity. constructor.
  - etransitivity; eassumption.
Qed.

Lemma so_run_conserved bs ops s tr :
  so_run bs ops = Ok (s, tr) ->
  exists dropped,
    Permutation (requested ops) (delivered tr ++ dropped ++ waiting s)
    /\ Forall (cancelled_in ops) dropped.
Proof.
  revert s tr. induction ops as [|o ops IH] using rev_ind; intros s tr H.
  - inversion H; subst. exists []. split; constructor.
  - apply so_run_snoc in H as (s0 & tr0 & H0 & H1).
    destruct (IH _ _ H0) as (dr & HP & HD).
    assert (HD' : Forall (cancelled_in (ops ++ [o])) dr)
      by (eapply Forall_impl; [|exact HD]; intros; now apply cancelled_in_mono).
    rewrite requested_app. unfold waiting in *. so_cases H1.
    + destruct E0 as (-> & _ & -> & _). exists dr. split; [|exact HD']. cbn [requested].
      rewrite delivered_app. cbn [delivered filter_map]. rewrite HP. rewrite <- !app_assoc.
      do 2 apply Permutation_app_head. rewrite !app_assoc. rewrite <- Permutation_app_comm at 1.
      cbn. rewrite <- app_assoc. apply Permutation_middle.
    + destruct E0 as (-> & _ & -> & _ & _). exists dr. split; [|exact HD']. cbn [requested].
      rewrite HP. rewrite <- !app_assoc. do 3 apply Permutation_app_head.
      rewrite Permutation_app_comm. cbn [app].
      rewrite (filter_perm _ _ _ (insert_at_perm _ _ _)). cbn. reflexivity.
    + destruct (live_cancel i (sc_scheduled s0)) as (d2 & HP2 & HD2). exists (dr ++ d2). cbn. split.
      * rewrite app_nil_r, HP. rewrite <- !app_assoc. do 2 apply Permutation_app_head.
        rewrite HP2. rewrite !app_assoc. apply Permutation_app_tail. apply Permutation_app_comm.
      * apply Forall_app. split; [exact HD'|]. apply Forall_forall. intros e He.
        rewrite Forall_forall in HD2. destruct (HD2 _ He) as (k & ->).
        exists ops, i, k, []. repeat split. 
        apply (Permutation_in (EvKey i k) (Permutation_sym HP)).
        apply in_or_app. right. apply in_or_app. right. apply in_or_app. right.
        apply (Permutation_in (EvKey i k) (Permutation_sym HP2)). apply in_or_app. left. exact He.
    + cbn [requested]. rewrite app_nil_r.
      destruct E0 as (_ & [(-> & -> & _)|(en & Hs & Ht & ->)]); [exists dr; auto|].
      rewrite Hs, filter_app, map_app in HP. cbn [filter] in HP. exists dr. split; [|exact HD'].
      rewrite HP, delivered_app. rewrite <- !app_assoc. do 3 apply Permutation_app_head.
      destruct (en_live en); cbn; [|now rewrite app_nil_r]. 
      rewrite Permutation_app_comm. reflexivity.
    + cbn [requested]. rewrite app_nil_r. exists dr. split; [|exact HD'].
      destruct Ed as (_ & -> & [(Ep & -> & ->)|Ep]).
      * rewrite delivered_app. cbn. rewrite Ep in HP. cbn in HP. now rewrite app_nil_r.
      * rewrite HP, Ep, delivered_app. rewrite <- !app_assoc. apply Permutation_app_head.
        destruct x as [e|]; cbn; [|reflexivity].
        rewrite (Permutation_app_comm dr (e :: _)). cbn. constructor.
        rewrite (Permutation_app_comm dr (delivered (sc_pending s) ++ _)). reflexivity.
Qed.

(** ** C10: due-time order.  Ghost due times for what was popped. *)
Local Notation timed := (option (event E) * option N)%type.   (* [None] : immediate *)
Fixpoint nondecreasing (l : list timed) : Prop :=
  match l with
  | [] => True
  | (_, None) :: t => nondecreasing t
  | (_, Some a) :: t => Forall (fun y => match snd y with Some b => a <= b | None => True end) t
                        /\ nondecreasing t
  end.
Lemma nondecreasing_app l1 l2 :
  nondecreasing (l1 ++ l2) <->
  nondecreasing l1 /\ nondecreasing l2
  /\ (forall x y a b, In x l1 -> In y l2 -> snd x = Some a -> snd y = Some b -> a <= b).
Proof.
  induction l1 as [|[x [t|]] l1 IH]; cbn.
  - split; [intros H; repeat split; auto; intros ? ? ? ? []|tauto].
  - rewrite Forall_app, IH, !Forall_forall. split.
    + intros ((H1 & H2) & H3 & H4 & H5). repeat split; auto.
      intros z y a b [<-|Hz] Hy E1 E2; [|eauto]. cbn in E1. inversion E1; subst.
      specialize (H2 _ Hy). now rewrite E2 in H2.
    + intros ((H1 & H2) & H3 & H4). repeat split; auto.
      * intros y Hy. destruct (snd y) eqn:Ey; [|exact I]. eapply H4; [left; reflexivity|exact Hy|reflexivity|exact Ey].
      * intros; eapply H4; eauto.
  - rewrite IH. split; intros (H1 & H2 & H3); repeat split; auto.
    + intros z y a b [<-|Hz] Hy E1 E2; [discriminate|eauto].
    + intros; eapply H3; eauto.
Qed.

Definition explains (ops : list (so E)) (x : timed) : Prop :=
  match x with
  | (Some e, Some t) => In (e, t) (due_times 0 ops)
  | (Some e, None) => In (SoNow e) ops
  | (None, _) => True
  end.
Lemma explains_mono ops o x : explains ops x -> explains (ops ++ [o]) x.
Proof.
  destruct x as [[e|] [t|]]; cbn; auto; intros; rewrite ?due_times_app; apply in_or_app; auto.
Qed.

Lemma so_run_ordered bs ops s tr :
  position_ok bs -> so_run bs ops = Ok (s, tr) ->
  exists g : list timed,
    map fst g = tr ++ sc_pending s /\ nondecreasing g /\ Forall (explains ops) g
    /\ (forall x t, In x g -> snd x = Some t ->
          t <= elapsed ops /\ forall en, In en (sc_scheduled s) -> t <= en_time en).
Proof.
  intros Hb. revert s tr. induction ops as [|o ops IH] using rev_ind; intros s tr H.
  - inversion H; subst. exists []. cbn. split; [reflexivity|]. split; [exact I|]. split; [constructor|].
    intros x t [].
  - apply so_run_snoc in H as (s0 & tr0 & H0 & H1).
    destruct (IH _ _ H0) as (g & HM & HN & HX & HT). pose proof (so_run_clock _ _ _ _ H0) as Hc.
    pose proof (so_run_sorted _ _ _ _ Hb H0) as Hsort.
    pose proof (so_run_accounted _ _ _ _ H0) as (_ & _ & HS).
    assert (HX' : Forall (explains (ops ++ [o])) g)
      by (eapply Forall_impl; [|exact HX]; intros; now apply explains_mono).
    assert (Hle : elapsed ops <= elapsed (ops ++ [o])) by (rewrite elapsed_app; lia).
    so_cases H1.
    + destruct E0 as (-> & _ & -> & _). exists (g ++ [(Some e, None)]).
      rewrite map_app, HM. cbn. split; [now rewrite app_assoc|]. split; [|split].
      * apply nondecreasing_app. cbn. repeat split; auto.
        intros x y a0 b _ [<-|[]] _ Ey. discriminate.
      * apply Forall_app. split; [exact HX'|]. constructor; [|constructor]. cbn.
        apply in_or_app. right; left; reflexivity.
      * intros x t Hx Ex. apply in_app_or in Hx as [Hx|[<-|[]]]; [|discriminate].
        destruct (HT _ _ Hx Ex) as (H1 & H2). split; [lia|]. intros en Hen. now apply H2.
    + destruct E0 as (Ep & _ & Es & _). exists g. rewrite Ep. split; [exact HM|]. split; [exact HN|].
      split; [exact HX'|].
      intros x t Hx Ex. destruct (HT _ _ Hx Ex) as (H1 & H2). split; [lia|].
      rewrite Es. intros en Hen. apply insert_at_In in Hen as [->|Hen]; [|auto]. cbn. lia.
    + exists g. cbn. split; [exact HM|]. split; [exact HN|]. split; [exact HX'|].
      intros x t H H1. split.
      * destruct (HT _ _ H H1). lia.
      * intros en Hen. apply in_map_iff in Hen as (en0 & <- & Hen). destruct (HT _ _ H H1) as (_ & H2).
        specialize (H2 _ Hen). unfold cancel_entry. destruct (en_event en0); try exact H2.
        destruct (_ =? _); exact H2.
    + destruct E0 as (_ & [(Ep & Es & _)|(en & Hs & Ht & Ep)]).
      * exists g. rewrite Ep, Es. split; [exact HM|]. split; [exact HN|]. split; [exact HX'|].
        intros x t H H1. split.
        -- destruct (HT _ _ H H1). lia.
        -- intros en Hen. destruct (HT _ _ H H1) as (_ & H2). now apply H2.
      * exists (g ++ [(if en_live en then Some (en_event en) else None, Some (en_time en))]).
        assert (Hin : In en (sc_scheduled s0)) by (rewrite Hs; apply in_or_app; right; left; reflexivity).
        rewrite map_app, HM, Ep. cbn. split; [now rewrite app_assoc|]. split; [|split].
        -- apply nondecreasing_app. cbn. repeat split; auto.
           intros x y a0 b Hx [<-|[]] Ex Ey. cbn in Ey. inversion Ey; subst.
           destruct (HT _ _ Hx Ex) as (_ & H2). now apply H2.
        -- apply Forall_app. split; [exact HX'|]. constructor; [|constructor].
           destruct (en_live en); cbn; [|exact I]. rewrite due_times_app. apply in_or_app. left.
           rewrite Forall_forall in HS. now apply HS.
        -- intros x t Hx Ex. apply in_app_or in Hx as [Hx|[<-|[]]].
           ++ destruct (HT _ _ Hx Ex) as (H1 & H2). split; [lia|]. intros en' Hen'. apply H2.
              rewrite Hs. apply in_or_app. auto.
           ++ cbn in Ex. inversion Ex; subst. split; [rewrite elapsed_app; cbn; lia|].
              intros en' Hen'. eapply popped_minimal; [exact Hsort|exact Hs|].
              rewrite Hs. apply in_or_app. auto.
    + destruct Ed as (_ & Es & [(Ep & Ep' & ->)|Ep]).
      * rewrite Ep in HM. rewrite app_nil_r in HM. exists (g ++ [(None, None)]). rewrite map_app, HM, Ep', Es.
        cbn. rewrite app_nil_r. split; [reflexivity|]. split; [|split].
        -- apply nondecreasing_app. cbn. repeat split; auto.
           intros x y a0 b _ [<-|[]] _ Ey. discriminate.
        -- apply Forall_app. split; [exact HX'|]. constructor; [exact I|constructor].
        -- intros x t Hx Ex. apply in_app_or in Hx as [Hx|[<-|[]]]; [|discriminate].
           destruct (HT _ _ Hx Ex) as (H1 & H2). split; [lia|exact H2].
      * exists g. rewrite Ep in HM. rewrite Es, <- app_assoc. cbn. split; [exact HM|]. split; [exact HN|]. split; [exact HX'|].
        intros x0 t H H1. split.
        -- destruct (HT _ _ H H1). lia.
        -- intros en Hen. destruct (HT _ _ H H1) as (_ & H2). now apply H2.
Qed.

Lemma nondecreasing_split g g1 x g2 y g3 a b :
  nondecreasing g -> g = g1 ++ x :: g2 ++ y :: g3 -> snd x = Some a -> snd y = Some b -> a <= b.
Proof.
  intros Hn -> Ex Ey. apply nondecreasing_app in Hn as (_ & Hn & _). 
  change (x :: g2 ++ y :: g3) with ([x] ++ g2 ++ y :: g3) in Hn.
  apply nondecreasing_app in Hn as (_ & _ & Hn). eapply Hn; [left; reflexivity| |exact Ex|exact Ey].
  apply in_or_app. right. left. reflexivity.
Qed.

Lemma due_order bs ops s tr tr1 e1 tr2 e2 tr3 t1 t2 :
  position_ok bs -> so_run bs ops = Ok (s, tr) ->
  tr = tr1 ++ Some e1 :: tr2 ++ Some e2 :: tr3 ->
  (forall t, In (e1, t) (due_times 0 ops) -> t = t1) -> ~ In (SoNow e1) ops ->
  (forall t, In (e2, t) (due_times 0 ops) -> t = t2) -> ~ In (SoNow e2) ops ->
  t1 <= t2.
Proof.
  intros Hb H -> Hu1 Hn1 Hu2 Hn2. destruct (so_run_ordered _ _ _ _ Hb H) as (g & HM & HN & HX & _).
  rewrite <- app_assoc in HM. cbn in HM. rewrite <- app_assoc in HM. cbn in HM.
  apply map_eq_app in HM as (g1 & g' & -> & <- & HM).
  destruct g' as [|x g']; [discriminate|]. cbn in HM. inversion HM as [[Hx HM']].
  apply map_eq_app in HM' as (g2 & g'' & -> & <- & HM').
  destruct g'' as [|y g3]; [discriminate|]. cbn in HM'. inversion HM' as [[Hy HM'']].
  assert (Xx : explains ops x) by (rewrite Forall_forall in HX; apply HX, in_or_app; right; left; reflexivity).
  assert (Xy : explains ops y) by (rewrite Forall_forall in HX; apply HX, in_or_app; right; right;
                                    apply in_or_app; right; left; reflexivity).
  destruct x as [x1 [tx|]], y as [y1 [ty|]]; cbn in Hx, Hy; subst x1 y1; cbn in Xx, Xy; try tauto.
  apply Hu1 in Xx. apply Hu2 in Xy. subst.
  eapply (nondecreasing_split _ g1 (Some e1, Some t1) g2 (Some e2, Some t2) g3 t1 t2 HN); reflexivity.
Qed.

(** ** C10: progress *)
Definition q_by (t : N) (s : scheduler E) : nat :=
  length (filter (fun en => en_time en <=? t) (sc_scheduled s)).

Lemma filter_length_perm {A} (f : A -> bool) l l' :
  Permutation l l' -> length (filter f l) = length (filter f l').
Proof. intros H. apply Permutation_length, filter_perm, H. Qed.

Lemma q_by_due bs ops s tr t :
  so_run bs ops = Ok (s, tr) -> (q_by t s <= due_by t ops)%nat.
Proof.
  revert s tr. induction ops as [|o ops IH] using rev_ind; intros s tr H.
  - inversion H; subst. cbn. lia.
  - apply so_run_snoc in H as (s0 & tr0 & H0 & H1). pose proof (so_run_clock _ _ _ _ H0) as Hc.
    specialize (IH _ _ H0). unfold q_by, due_by in *. rewrite due_times_app, filter_app, app_length.
    so_cases H1.
    + destruct E0 as (_ & _ & -> & _). lia.
    + destruct E0 as (_ & _ & -> & _). rewrite (filter_length_perm _ _ _ (insert_at_perm _ _ _)).
      cbn [filter en_time due_times]. rewrite Hc. cbn [snd].
      destruct (_ <=? t); cbn [length]; lia.
    + cbn. assert (E0 : length (filter (fun en => en_time en <=? t) (map (cancel_entry i) (sc_scheduled s0)))
                     = length (filter (fun en => en_time en <=? t) (sc_scheduled s0))).
      { generalize (sc_scheduled s0). intros l. induction l as [|en l IHl]; cbn; [reflexivity|].
        replace (en_time (cancel_entry i en)) with (en_time en)
          by (unfold cancel_entry; destruct (en_event en); try reflexivity; destruct (_ =? _); reflexivity).
        destruct (_ <=? t); cbn; lia. }
      lia.
    + destruct E0 as (_ & [(_ & -> & _)|(en & Hs & _)]); [lia|].
      rewrite Hs, filter_app, app_length in IH. lia.
    + destruct Ed as (_ & -> & _). lia.
Qed.

Lemma popped_stays bs b : forall s1 tr1 s' tr' ev,
  fold_res (so_step bs) b (s1, tr1) = Ok (s', tr') ->
  In (Some ev) (sc_pending s1) \/ In ev (delivered tr1) ->
  In (Some ev) (sc_pending s') \/ In ev (delivered tr').
Proof.
  induction b as [|o b IHb]; intros s1 tr1 s' tr' ev H Hi; cbn [fold_res] in H.
  - inv_ok H. exact Hi.
  - inv_bind H. destruct a as [s2 tr2]. eapply IHb; [exact H|].
    destruct Hi as [Hi|Hi].
    + so_cases E0.
      * destruct E1 as (-> & _). left. apply in_or_app; auto.
      * destruct E1 as (-> & _). auto.
      * cbn. auto.
      * destruct E1 as (_ & [(-> & _)|(en & _ & _ & ->)]); [auto|]. left. apply in_or_app; auto.
      * destruct Ed as (_ & _ & [(Ep & -> & _)|Ep]).
        -- rewrite Ep in Hi. destruct Hi.
        -- rewrite Ep in Hi. destruct Hi as [->|Hi]; [|auto]. right. rewrite delivered_app.
           apply in_or_app. right. left. reflexivity.
    + right. so_cases E0; auto. rewrite delivered_app. apply in_or_app; auto.
Qed.

Lemma progress_from bs b : forall a s tr t e s' tr',
  position_ok bs ->
  so_run bs a = Ok (s, tr) -> fold_res (so_step bs) b (s, tr) = Ok (s', tr') ->
  (forall i k, e = EvKey i k -> ~ In (SoCancel i) b) ->
  In (mkEntry t e true) (sc_scheduled s) ->
  forall K, (q_by t s + length (filter (fun p => (snd p <=? t)%N) (due_times (sc_counter s) b)) <= K)%nat ->
  (In (mkEntry t e true) (sc_scheduled s') /\ (ticks_from t (sc_counter s) b + 1 <= K)%nat)
  \/ In (Some e) (sc_pending s') \/ In e (delivered tr').
Proof.
  induction b as [|o b IH]; intros a s tr t e s' tr' Hb Ha H Hc Hin K HK.
  - cbn in H. inv_ok H. left. split; [exact Hin|]. cbn.
    assert (1 <= q_by t s')%nat; [|cbn in HK; lia].
    unfold q_by. assert (Hf : In (mkEntry t e true) (filter (fun en => en_time en <=? t) (sc_scheduled s'))).
    { apply filter_In. split; [exact Hin|]. cbn. apply N.leb_refl. }
    apply In_length in Hf. exact Hf.
  - cbn [fold_res] in H. inv_bind H. destruct a0 as [s1 tr1].
    pose proof (so_run_sorted _ _ _ _ Hb Ha) as Hsort.
    assert (Ha1 : so_run bs (a ++ [o]) = Ok (s1, tr1)).
    { rewrite (so_run_app _ _ _ _ _ Ha). cbn [fold_res]. rewrite E0. reflexivity. }
    assert (Hc' : forall i k, e = EvKey i k -> ~ In (SoCancel i) b).
    { intros i k Ee Hi. apply (Hc i k Ee). right. exact Hi. }
    assert (Hclk := so_step_clock _ _ _ _ _ _ E0).
    destruct o as [e0|d e0|i|ms|]; cbn [so_step] in E0.
    + inv_bind E0. inv_ok E0. apply sched_enqueue_ok in E1 as (Ep & Ecn & Es & _).
      rewrite <- Es in Hin. cbn [ticks_from due_times] in *.
      unfold q_by in HK. rewrite <- Es, <- Ecn in HK. rewrite <- Ecn.
      eapply IH; eauto.
    + inv_bind E0. inv_ok E0. apply sched_after_ok in E1 as (Ep & Ecn & Es & _).
      cbn [ticks_from due_times] in *. rewrite <- Ecn.
      assert (Hin1 : In (mkEntry t e true) (sc_scheduled s1)) by (rewrite Es; apply insert_at_In; auto).
      eapply IH; eauto. unfold q_by in *. rewrite Es, (filter_length_perm _ _ _ (insert_at_perm _ _ _)).
      cbn [filter en_time length snd] in *. rewrite Ecn. destruct (_ <=? t); cbn [length] in *; lia.
    + inv_ok E0. cbn [ticks_from due_times sc_counter sched_cancel] in *.
      assert (Hin1 : In (mkEntry t e true) (sc_scheduled (sched_cancel s i))).
      { cbn. apply in_map_iff. exists (mkEntry t e true). split; [|exact Hin].
        unfold cancel_entry. cbn. destruct e as [ie|j k|kk]; try reflexivity.
        destruct (N.eqb_spec j i) as [->|]; [|reflexivity]. exfalso. apply (Hc i k eq_refl). left. reflexivity. }
      assert (Eq : q_by t (sched_cancel s i) = q_by t s).
      { unfold q_by. cbn. generalize (sc_scheduled s). intros l. induction l as [|en l IHl]; cbn; [reflexivity|].
        replace (en_time (cancel_entry i en)) with (en_time en)
          by (unfold cancel_entry; destruct (en_event en); try reflexivity; destruct (_ =? _); reflexivity).
        destruct (_ <=? t); cbn; lia. }
      change (sc_counter s) with (sc_counter (sched_cancel s i)).
      eapply IH; eauto. rewrite Eq. exact HK.
    + inv_bind E0. inv_ok E0. apply sched_tick_ok in E1 as (Ecn & Hd).
      cbn [ticks_from due_times] in *. rewrite <- Ecn in *.
      destruct Hd as [(Ep & Es & Hl)|(en & Hs & Ht & Ep)].
      * assert (Hlt : sc_counter s1 < t).
        { destruct (last_opt (sc_scheduled s)) as [en|] eqn:El.
          - specialize (Hl _ eq_refl). apply last_opt_spec in El.
            pose proof (popped_minimal _ _ _ _ Hsort El Hin) as Hm. cbn in Hm. lia.
          - apply last_opt_none in El. rewrite El in Hin. destruct Hin. }
        destruct (N.leb_spec t (sc_counter s1)); [lia|]. cbn [Nat.add].
        rewrite <- Es in Hin. eapply IH; eauto. unfold q_by in *. rewrite Es. exact HK.
      * assert (Hmin : en_time en <= t).
        { pose proof (popped_minimal _ _ _ _ Hsort Hs Hin) as Hm. exact Hm. }
        assert (Hq : (q_by t s = S (q_by t s1))%nat).
        { unfold q_by. rewrite Hs, filter_app, app_length. cbn [filter].
          apply N.leb_le in Hmin. rewrite Hmin. cbn. lia. }
        pose proof Hin as Hin'. rewrite Hs in Hin'. apply in_app_or in Hin' as [Hin'|[Hin'|[]]].
        -- destruct K as [|K]; [lia|].
           assert (HK' : (q_by t s1 + length (filter (fun p => (snd p <=? t)%N) (due_times (sc_counter s1) b)) <= K)%nat) by lia.
           destruct (IH _ _ _ _ _ _ _ Hb Ha1 H Hc' Hin' K HK') as [[A1 A2]|A]; [|auto].
           left. split; [exact A1|]. destruct (t <=? sc_counter s1); lia.
        -- right. eapply popped_stays; [exact H|]. left. rewrite Ep, Hin'. cbn.
           apply in_or_app. right. left. reflexivity.
    + destruct (sched_dequeue s) as [s2 x] eqn:Ed. inv_ok E0.
      apply sched_dequeue_eq in Ed as (Ecn & Es & _). rewrite <- Es in Hin. cbn [ticks_from due_times] in *.
      unfold q_by in HK. rewrite <- Es, <- Ecn in HK. rewrite <- Ecn. eapply IH; eauto.
Qed.

Lemma due_by_after t a d e b :
  due_by t (a ++ SoAfter d e :: b)
  = (due_by t a + (if (elapsed a + d <=? t)%N then 1 else 0)
     + length (filter (fun p : event E * N => (snd p <=? t)%N) (due_times (elapsed a) b)))%nat.
Proof.
  unfold due_by. rewrite due_times_app, filter_app, app_length. cbn [due_times filter snd].
  rewrite N.add_0_l. destruct (_ <=? t); cbn [length]; lia.
Qed.

Lemma progress bs a d e b s tr :
  position_ok bs ->
  so_run bs (a ++ SoAfter d e :: b) = Ok (s, tr) ->
  (forall i k, e = EvKey i k -> ~ In (SoCancel i) b) ->
  let t := elapsed a + d in
  (due_by t (a ++ SoAfter d e :: b) <= ticks_from t (elapsed a) b)%nat ->
  In (Some e) (sc_pending s) \/ In e (delivered tr).
Proof.
  intros Hb H Hc t Ht.
  change (a ++ SoAfter d e :: b) with (a ++ [SoAfter d e] ++ b) in H. rewrite app_assoc in H.
  unfold so_run, so_run_from in H. rewrite fold_res_app in H. inv_bind H. destruct a0 as [s1 tr1].
  fold (so_run_from bs (a ++ [SoAfter d e]) sched_new) in E0.
  fold (so_run bs (a ++ [SoAfter d e])) in E0.
  pose proof (so_run_clock _ _ _ _ E0) as Hclk. rewrite elapsed_app in Hclk. cbn in Hclk. rewrite N.add_0_r in Hclk.
  pose proof (q_by_due _ _ _ _ t E0) as Hq.
  rewrite due_by_after in Ht. rewrite due_by_after in Hq. cbn [due_times filter length] in Hq.
  assert (Hin : In (mkEntry t e true) (sc_scheduled s1)).
  { pose proof E0 as E1. apply so_run_snoc in E1 as (s0 & tr0 & E1 & E2). cbn [so_step] in E2.
    inv_bind E2. inv_ok E2. apply sched_after_ok in E3 as (_ & _ & -> & _).
    rewrite (so_run_clock _ _ _ _ E1). apply insert_at_In. left. reflexivity. }
  rewrite <- Hclk in Ht.
  edestruct (progress_from bs b _ _ _ _ _ _ _ Hb E0 H Hc Hin) as [[_ A]|A]; [reflexivity| |exact A].
  rewrite <- Hclk in Hq. exfalso. lia.
Qed.

(** ** C11 *)
(** (a) nothing of the cancelled index is delivered afterwards. *)
Definition no_key (i : u16) (o : option (event E)) : Prop :=
  match o with Some e => is_key_of i e = false | None => True end.
Lemma cancelled_not_delivered bs b : forall s tr s' tr' ki,
  fold_res (so_step bs) b (s, tr) = Ok (s', tr') ->
  (forall e, In e (requested b) -> is_key_of ki e = false) ->
  Forall (no_key ki) (sc_pending s) ->
  (forall en, In en (sc_scheduled s) -> en_live en = true -> is_key_of ki (en_event en) = false) ->
  exists new, tr' = tr ++ new /\ Forall (no_key ki) new /\ Forall (no_key ki) (sc_pending s').
Proof.
  induction b as [|o b IH]; intros s tr s' tr' ki H Hr Hp Hs.
  - cbn in H. inv_ok H. exists []. rewrite app_nil_r. repeat split; auto; constructor.
  - cbn [fold_res] in H. inv_bind H. destruct a as [s1 tr1].
    assert (Hr' : forall e, In e (requested b) -> is_key_of ki e = false).
    { intros e He. apply Hr. destruct o; cbn; auto. }
    assert (G : exists n1, tr1 = tr ++ n1 /\ Forall (no_key ki) n1 /\ Forall (no_key ki) (sc_pending s1) /\
       (forall en, In en (sc_scheduled s1) -> en_live en = true -> is_key_of ki (en_event en) = false)).
    { so_cases E0.
      - destruct E1 as (-> & _ & -> & _). exists []. rewrite app_nil_r. repeat split; auto.
        apply Forall_app. split; [exact Hp|]. constructor; [|constructor]. cbn. apply Hr. left. reflexivity.
      - destruct E1 as (-> & _ & -> & _). exists []. rewrite app_nil_r. repeat split; auto.
        intros en Hen Hl. apply insert_at_In in Hen as [->|Hen]; [|auto]. cbn. apply Hr. left. reflexivity.
      - exists []. rewrite app_nil_r. cbn. repeat split; auto.
        intros en Hen Hl. apply in_map_iff in Hen as (en0 & <- & Hen). 
        unfold cancel_entry in *. destruct (en_event en0) eqn:Ee; try (rewrite <- Ee; apply Hs; assumption).
        + now rewrite Ee.
        + destruct (_ =? _); [discriminate|]. apply Hs; assumption.
        + now rewrite Ee.
      - destruct E1 as (_ & [(-> & -> & _)|(en & Hse & _ & ->)]); exists []; rewrite app_nil_r; repeat split; auto.
        + apply Forall_app. split; [exact Hp|]. constructor; [|constructor].
          destruct (en_live en) eqn:El; cbn; [|exact I]. apply Hs; [|exact El]. rewrite Hse.
          apply in_or_app. right. left. reflexivity.
        + intros en' Hen'. apply Hs. rewrite Hse. apply in_or_app. auto.
      - destruct Ed as (_ & -> & [(Ep & -> & ->)|Ep]).
        + exists [None]. repeat split; auto; constructor; [exact I|constructor].
        + rewrite Ep in Hp. inversion Hp; subst. exists [x]. repeat split; auto. }
    destruct G as (n1 & -> & G1 & G2 & G3). destruct (IH _ _ _ _ _ H Hr' G2 G3) as (n2 & -> & G4 & G5).
    exists (n1 ++ n2). rewrite app_assoc. repeat split; auto. apply Forall_app; auto.
Qed.

Lemma sched_cancel_clean s i en :
  In en (sc_scheduled (sched_cancel s i)) -> en_live en = true -> is_key_of i (en_event en) = false.
Proof.
  cbn. intros Hen Hl. apply in_map_iff in Hen as (en0 & <- & Hen). unfold cancel_entry in *.
  destruct (en_event en0) as [|j k|] eqn:Ee; cbn in *; try (rewrite Ee; reflexivity).
  destruct (N.eqb_spec j i); [discriminate|]. rewrite Ee. cbn. now apply N.eqb_neq.
Qed.

(** (b) everything else happens exactly as without the cancellation. *)
Definition dimmed_entry (i : u16) (x y : sch_entry E) : Prop :=
  en_time x = en_time y /\ en_event x = en_event y
  /\ (en_live x = en_live y \/ (is_key_of i (en_event x) = true /\ en_live y = false)).
Definition dimmed (i : u16) (x y : option (event E)) : Prop :=
  y = x \/ (exists k, x = Some (EvKey i k)) /\ y = None.
Definition dim_sched i (s s' : scheduler E) : Prop :=
  Forall2 (dimmed i) (sc_pending s) (sc_pending s')
  /\ Forall2 (dimmed_entry i) (sc_scheduled s) (sc_scheduled s')
  /\ sc_counter s = sc_counter s'.

Lemma Forall2_insert {A B} (P : A -> B -> Prop) n x y l l' :
  Forall2 P l l' -> P x y -> Forall2 P (insert_at n x l) (insert_at n y l').
Proof.
  intros H Hxy. unfold insert_at. apply Forall2_app.
  - revert l l' H. induction n; intros l l' H; cbn; [constructor|]. destruct H; cbn; constructor; auto.
  - constructor; [exact Hxy|]. revert l l' H. induction n; intros l l' H; cbn; [exact H|].
    destruct H; cbn; [constructor|]. auto.
Qed.
Lemma dim_times i l l' : Forall2 (dimmed_entry i) l l' -> map en_time l = map en_time l'.
Proof. induction 1 as [|x y l l' H H' IH]; cbn; [reflexivity|]. destruct H as (-> & _). now rewrite IH. Qed.

Lemma dim_removelast i l l' :
  Forall2 (dimmed_entry i) l l' -> Forall2 (dimmed_entry i) (removelast l) (removelast l').
Proof.
  induction 1 as [|x y l l' Hx Hl IH]; cbn; [constructor|].
  inversion Hl; subst; [constructor|]. constructor; [exact Hx|exact IH].
Qed.
Lemma dim_last i l l' :
  Forall2 (dimmed_entry i) l l' ->
  match last_opt l, last_opt l' with
  | Some x, Some y => dimmed_entry i x y
  | None, None => True
  | _, _ => False
  end.
Proof.
  induction 1 as [|x y l l' Hx Hl IH]; cbn; [exact I|].
  inversion Hl; subst; [exact Hx|exact IH].
Qed.
Lemma Forall2_len {A B} (P : A -> B -> Prop) l l' : Forall2 P l l' -> length l = length l'.
Proof. induction 1; cbn; congruence. Qed.

Lemma dim_step bs i o s s2 tr tr2 s' tr' :
  dim_sched i s s2 -> Forall2 (dimmed i) tr tr2 ->
  so_step bs (s, tr) o = Ok (s', tr') ->
  exists s2' tr2', so_step bs (s2, tr2) o = Ok (s2', tr2')
                   /\ dim_sched i s' s2' /\ Forall2 (dimmed i) tr' tr2'.
Proof.
  intros (HP & HS & HC) HT H. destruct o as [e|d e|j|ms|]; cbn [so_step] in *.
  - inv_bind H. inv_ok H. unfold sched_enqueue in *. inv_bind E0. inv_ok E0.
    apply push_cap_ok in E1 as [-> Hl]. rewrite (Forall2_len _ _ _ HP) in Hl.
    rewrite push_cap_ok_iff by exact Hl. cbn. eexists _, _. split; [reflexivity|]. 
    repeat split; cbn; auto. apply Forall2_app; [exact HP|]. constructor; [left; reflexivity|constructor].
  - inv_bind H. inv_ok H. unfold sched_after in *. rewrite <- HC.
    inv_bind E0. rewrite E1. cbn [bind]. rewrite <- (dim_times _ _ _ HS), <- (Forall2_len _ _ _ HS).
    destruct (_ <? _)%nat; [|discriminate]. destruct (_ <=? _)%nat; [|discriminate]. inv_ok E0. cbn [bind].
    eexists _, _. split; [reflexivity|]. repeat split; cbn; auto.
    apply Forall2_insert; [exact HS|]. repeat split; auto.
  - inv_ok H. eexists _, _. split; [reflexivity|]. repeat split; cbn; auto.
    revert HS. generalize (sc_scheduled s) (sc_scheduled s2). clear. intros l l' H.
    induction H as [|x y l l' H Hl IH]; cbn; constructor; [|exact IH].
    destruct H as (H1 & H2 & H3). unfold cancel_entry. rewrite <- H2.
    destruct (en_event x) as [|n k|] eqn:Ee; try (repeat split; auto; now rewrite Ee).
    destruct (n =? j) eqn:En; repeat split; cbn; auto. 
    + now rewrite Ee.
    + rewrite Ee in *. auto.
  - inv_bind H. inv_ok H. unfold sched_tick in *. rewrite <- HC. inv_bind E0. rewrite E1. cbn [bind].
    pose proof (dim_last _ _ _ HS) as HL.
    destruct (last_opt (sc_scheduled s)) as [x|], (last_opt (sc_scheduled s2)) as [y|]; try tauto.
    + destruct HL as (HL1 & HL2 & HL3). rewrite <- HL1. destruct (en_time x <=? a).
      * inv_bind E0. inv_ok E0. apply push_cap_ok in E2 as [-> Hl]. rewrite (Forall2_len _ _ _ HP) in Hl.
        rewrite push_cap_ok_iff by exact Hl. cbn. eexists _, _. split; [reflexivity|].
        repeat split; cbn; auto using dim_removelast.
        apply Forall2_app; [exact HP|]. constructor; [|constructor]. rewrite <- HL2.
        destruct HL3 as [<-|[HL3 ->]]; [left; reflexivity|].
        destruct (en_live x); [|left; reflexivity]. right. split; [|reflexivity].
        destruct (en_event x); cbn in HL3; try discriminate. apply N.eqb_eq in HL3. subst. eauto.
      * inv_ok E0. cbn. eexists _, _. split; [reflexivity|]. repeat split; cbn; auto.
    + inv_ok E0. cbn. eexists _, _. split; [reflexivity|]. repeat split; cbn; auto.
  - unfold sched_dequeue in *. inversion HP as [E1 E2|x y l l' Hx Hl E1 E2]; rewrite <- E1 in H.
    + inv_ok H. eexists _, _. split; [reflexivity|]. split.
      * split; [|auto]. rewrite <- E1, <- E2. constructor.
      * apply Forall2_app; [exact HT|]. constructor; [left; reflexivity|constructor].
    + inv_ok H. eexists _, _. split; [reflexivity|]. split.
      * repeat split; cbn; auto.
      * apply Forall2_app; [exact HT|]. constructor; [exact Hx|constructor].
Qed.

Lemma dim_run bs i b : forall s s2 tr tr2 s' tr',
  dim_sched i s s2 -> Forall2 (dimmed i) tr tr2 ->
  fold_res (so_step bs) b (s, tr) = Ok (s', tr') ->
  exists s2' tr2', fold_res (so_step bs) b (s2, tr2) = Ok (s2', tr2')
                   /\ dim_sched i s' s2' /\ Forall2 (dimmed i) tr' tr2'.
Proof.
  induction b as [|o b IH]; intros s s2 tr tr2 s' tr' HD HT H; cbn [fold_res] in *.
  - inv_ok H. eauto.
  - inv_bind H. destruct a as [s1 tr1]. destruct (dim_step _ _ _ _ _ _ _ _ _ HD HT E0) as (s3 & tr3 & E3 & HD3 & HT3).
    rewrite E3. cbn [bind]. eapply IH; eauto.
Qed.

Lemma dim_cancel i s : dim_sched i s (sched_cancel s i).
Proof.
  repeat split; cbn.
  - induction (sc_pending s); constructor; auto. left; reflexivity.
  - induction (sc_scheduled s) as [|x l IH]; cbn; constructor; auto.
    unfold cancel_entry, dimmed_entry. destruct (en_event x) as [|j k|] eqn:Ee; try (repeat split; auto; now rewrite Ee).
    destruct (j =? i) eqn:Ej; repeat split; cbn; auto.
Qed.

Lemma Forall2_dimmed_refl i tr : Forall2 (dimmed i) tr tr.
Proof. induction tr; constructor; auto. left; reflexivity. Qed.

Lemma cancel_others bs a i b s tr :
  so_run bs (a ++ b) = Ok (s, tr) ->
  exists s2 tr2, so_run bs (a ++ SoCancel i :: b) = Ok (s2, tr2) /\ Forall2 (dimmed i) tr tr2.
Proof.
  unfold so_run, so_run_from. rewrite !fold_res_app. intros H. inv_bind H. rewrite E0. cbn [bind fold_res].
  destruct a0 as [s0 tr0]. cbn [so_step bind].
  destruct (dim_run bs i b _ _ _ _ _ _ (dim_cancel i s0) (Forall2_dimmed_refl i tr0) H) as (s2 & tr2 & H2 & _ & HT).
  eauto.
Qed.

Lemma cancel_own bs a i b s tr s1 tr1 :
  so_run bs a = Ok (s1, tr1) -> Forall (no_key i) (sc_pending s1) ->
  (forall e, In e (requested b) -> is_key_of i e = false) ->
  so_run bs (a ++ SoCancel i :: b) = Ok (s, tr) ->
  exists new, tr = tr1 ++ new /\ forall e, In e (delivered new) -> is_key_of i e = false.
Proof.
  intros Ha Hp Hr H. rewrite (so_run_app _ _ _ _ _ Ha) in H. cbn [fold_res so_step bind] in H.
  destruct (cancelled_not_delivered bs b _ _ _ _ i H Hr Hp (sched_cancel_clean s1 i)) as (new & -> & Hn & _).
  exists new. split; [reflexivity|]. intros e He. apply delivered_In in He.
  rewrite Forall_forall in Hn. exact (Hn _ He).
Qed.
End Facts.

(** ** The standard library's binary search meets the contract *)
Lemma decreasing_nth l i j :
  decreasing l -> (i <= j < length l)%nat -> nth j l 0 <= nth i l 0.
Proof.
  intros H. revert i j. induction H as [|x l H IH Hx]; intros i j Hij; [cbn in Hij; lia|].
  destruct i, j; cbn in *; try lia.
  - rewrite Forall_forall in Hx. apply Hx. apply nth_In. lia.
  - apply IH. lia.
Qed.

Lemma bs_loop_inv fuel : forall l t size base,
  decreasing l -> (size <= fuel)%nat -> (1 <= size)%nat -> (base + size <= length l)%nat ->
  (base = 0%nat \/ t <= nth base l 0) ->
  (forall j, (base + size <= j < length l)%nat -> nth j l 0 < t) ->
  let b := bs_loop fuel l t size base in
  (b < length l)%nat /\ (b = 0%nat \/ t <= nth b l 0) /\ (forall j, (b < j < length l)%nat -> nth j l 0 < t).
Proof.
  induction fuel as [|f IH]; intros l t size base Hd Hf H1 Hb Hlo Hhi; [lia|]. cbn [bs_loop].
  destruct (Nat.leb_spec size 1).
  - cbn zeta. split; [lia|]. split; [exact Hlo|]. intros j Hj. apply Hhi. lia.
  - assert (Hh : (1 <= Nat.div2 size < size)%nat).
    { pose proof (Nat.div2_div size) as Ed. rewrite Ed. split; [apply Nat.div_le_lower_bound; lia|].
      apply Nat.div_lt; lia. }
    set (half := Nat.div2 size) in *.
    destruct (N.ltb_spec (nth (base + half) l 0) t).
    + apply IH; try lia; auto. intros j Hj.
      destruct (Nat.le_gt_cases (base + size) j) as [Hge|Hlt]; [apply Hhi; lia|].
      eapply N.le_lt_trans; [|exact H0]. apply decreasing_nth; [exact Hd|].
      assert (base + (size - half) >= base + half)%nat; [|lia].
      subst half. rewrite Nat.div2_div in *. pose proof (Nat.div_mod size 2). lia.
    + apply IH; try lia; auto. intros j Hj. apply Hhi. lia.
Qed.

Lemma In_firstn_nth n (l : list u32) x :
  In x (firstn n l) -> exists j, (j < n)%nat /\ (j < length l)%nat /\ nth j l 0 = x.
Proof.
  revert l. induction n as [|n IH]; intros [|y l] H; cbn in H; try tauto.
  destruct H as [->|H]; [exists 0%nat; cbn; repeat split; lia|].
  apply IH in H as (j & H1 & H2 & H3). exists (S j). cbn. repeat split; lia.
Qed.
Lemma In_skipn_nth n (l : list u32) x :
  In x (skipn n l) -> exists j, (n <= j)%nat /\ (j < length l)%nat /\ nth j l 0 = x.
Proof.
  revert l. induction n as [|n IH]; intros l H.
  - cbn in H. apply (In_nth _ _ 0) in H as (j & H1 & H2). exists j. split; [lia|]; split; assumption.
  - destruct l as [|y l]; [destruct H|]. cbn in H. apply IH in H as (j & H1 & H2 & H3).
    exists (S j). cbn. repeat split; lia.
Qed.

Lemma bs_std_position_ok : position_ok bs_std.
Proof.
  intros l t Hd. destruct l as [|x l'] eqn:El; [cbn; repeat split; constructor|].
  rewrite <- El in *. assert (Hl : (1 <= length l)%nat) by (subst; cbn; lia).
  assert (Eb : bs_std l t = let base := bs_loop (length l) l t (length l) 0 in
         let x := nth base l 0 in
         if x =? t then base else if t <? x then S base else base) by (subst; reflexivity).
  clear El x l'.
  destruct (bs_loop_inv (length l) l t (length l) 0) as (Hb & Hlo & Hhi); try lia; auto.
  cbn zeta in *. set (b := bs_loop (length l) l t (length l) 0) in *. rewrite Eb. clear Eb. clearbody b.
  destruct (N.eqb_spec (nth b l 0) t) as [Ex|Ex]; [|destruct (N.ltb_spec t (nth b l 0)) as [Hx|Hx]].
  - repeat split; [lia| |]; apply Forall_forall; intros y Hy.
    + apply In_firstn_nth in Hy as (j & H1 & H2 & <-). rewrite <- Ex. apply decreasing_nth; [exact Hd|lia].
    + apply In_skipn_nth in Hy as (j & H1 & H2 & <-). rewrite <- Ex. apply decreasing_nth; [exact Hd|lia].
  - repeat split; [lia| |]; apply Forall_forall; intros y Hy.
    + apply In_firstn_nth in Hy as (j & H1 & H2 & <-).
      assert (nth b l 0 <= nth j l 0) by (apply decreasing_nth; [exact Hd|lia]). lia.
    + apply In_skipn_nth in Hy as (j & H1 & H2 & <-). apply N.lt_le_incl, Hhi. lia.
  - assert (Hz : b = 0%nat) by lia. rewrite Hz in *. repeat split; [lia|constructor|].
    apply Forall_forall; intros y Hy. apply In_skipn_nth in Hy as (j & H1 & H2 & <-).
    assert (nth j l 0 <= nth 0 l 0) by (apply decreasing_nth; [exact Hd|lia]). lia.
Qed.
