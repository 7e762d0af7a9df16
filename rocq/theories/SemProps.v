(** C36: the user-level semaphore. *)
From Verif Require Import Base CntLib SemModel SemProofs.

(** The claim: the number of completed downs never exceeds the initial count plus the number
    of completed ups. *)
Definition admits_within (c0 : Z) (s : sst) : Prop :=
  (Z.of_nat (downs (s_tr s)) <= Z.max 0 c0 + Z.of_nat (ups (s_tr s)))%Z.
(** Thread [i] waits in a down and has not been woken. *)
Definition waits (s : sst) (i : nat) : Prop := s_th s !! i = Some SD4 /\ ~ i ∈ s_wk s.
Definition all_idle (s : sst) : Prop := forall j p, s_th s !! j = Some p -> p = SIdle.

Lemma s_run_app s l1 l2 : s_run s (l1 ++ l2) = match s_run s l1 with Some s' => s_run s' l2 | None => None end.
Proof. revert s. induction l1 as [|[i a] l IH]; intros s; simpl; [done|]. by destruct (s_step s i a). Qed.
Lemma s_run_cons s i a l s' : s_step s i a = Some s' -> s_run s ((i, a) :: l) = s_run s' l.
Proof. intros H. simpl. by rewrite H. Qed.

(** The claim is false: with an initial count of 1, used as a lock, two threads get in.
    Thread 1 holds it and thread 0 waits; thread 1 calls up, which makes thread 0 runnable,
    and calls down again before thread 0 runs: it finds count = 1 and gets in.  Thread 0 does
    not test the count again when it runs. *)
Theorem C36_bound_refuted : exists l s,
  s_run (s_init 1 2) l = Some s /\ downs (s_tr s) = 3 /\ ups (s_tr s) = 1 /\ all_idle s /\ ~ admits_within 1 s.
Proof.
  exists ((1, SDown) :: replicate 4 (1, SGo) ++ (0, SDown) :: replicate 4 (0, SGo) ++
    (1, SUp) :: replicate 5 (1, SGo) ++ (1, SDown) :: replicate 4 (1, SGo) ++ replicate 5 (0, SGo)).
  eexists. split; [vm_compute; reflexivity|]. split; [reflexivity|]. split; [reflexivity|]. split.
  - intros j p H. destruct j as [|[|j]]; simpl in H; [by injection H as <-|by injection H as <-|done].
  - unfold admits_within. vm_compute. intros H. by apply H.
Qed.

(** Permits are lost: down takes all of them.  With an initial count of 2, one down
    completes and the next one waits, although nobody else ever called down. *)
Theorem C36_permits_lost_refuted : exists l s,
  s_run (s_init 2 2) l = Some s /\ downs (s_tr s) = 1 /\ ups (s_tr s) = 0 /\ waits s 1 /\
  (forall a, s_step s 1 a = None).
Proof.
  exists ((0, SDown) :: replicate 4 (0, SGo) ++ (1, SDown) :: replicate 4 (1, SGo)).
  eexists. split; [vm_compute; reflexivity|]. split; [reflexivity|]. split; [reflexivity|].
  split; [split; [reflexivity|apply not_elem_of_nil]|]. by intros [].
Qed.

(** What holds, for every initial count, number of threads and interleaving: completed downs
    are bounded by twice the completed ups, plus one if the initial count is positive
    (plus what ups that have raised the count but not returned yet allow). *)
Theorem C36_bound_partial c0 n l s :
  s_run (s_init c0 n) l = Some s -> (forall j p, s_th s !! j = Some p -> raised p = false) ->
  downs (s_tr s) <= 2 * ups (s_tr s) + (if decide (0 < c0)%Z then 1 else 0).
Proof.
  intros E H. pose proof (s_reach _ _ _ _ E) as I. pose proof (si_bound _ _ I) as B.
  rewrite (cnt_zero raised _ H) in B. unfold ini in B. lia.
Qed.

(** The full claim, if only one thread ever calls down. *)
Theorem C36_bound_one_consumer_partial c0 n l s k :
  (forall j a, In (j, a) l -> a = SDown -> j = k) ->
  s_run (s_init c0 n) l = Some s -> (forall j p, s_th s !! j = Some p -> raised p = false) ->
  admits_within c0 s.
Proof.
  intros Hk E H.
  assert (O : one c0 k s).
  { assert (G : forall l s s', (forall j a, In (j, a) l -> a = SDown -> j = k) -> sinv c0 s -> one c0 k s ->
                  s_run s l = Some s' -> one c0 k s').
    { clear. induction l as [|[i a] l IH]; intros s s' H I O E; simpl in E; [by injection E as <-|].
      destruct (s_step s i a) as [s1|] eqn:E1; [|done].
      eapply (IH s1); [intros; by eapply H; [right|]|by eapply sinv_step| |done].
      eapply one_step; [done|done| |done]. intros. by eapply H; [left|]. }
    eapply G; [done|apply sinv_init| |done]. split.
    - intros i p Hi _. simpl in Hi. by apply lookup_replicate in Hi as [-> _].
    - unfold avail, ini, ups, downs. cbn [s_init s_cnt s_th s_tr s_wk cnt length]. rewrite !cnt_replicate. simpl.
      repeat case_decide; lia. }
  pose proof (o_bound _ _ _ O) as B. rewrite (cnt_zero raised _ H) in B. unfold admits_within, ini in *.
  destruct (decide (0 < c0)%Z); lia.
Qed.

(** No wake-up is lost: if a thread waits while the count is positive, then the thread that
    an up woke is still on its way (and will set the count to zero), or an up is about to
    wake one.  So once all is quiet, threads wait only if the count is not positive. *)
Theorem C36_no_lost_wakeup c0 n l s i :
  s_run (s_init c0 n) l = Some s -> waits s i ->
  (forall j p, s_th s !! j = Some p -> p = SIdle \/ (p = SD4 /\ ~ j ∈ s_wk s)) ->
  (s_cnt s <= 0)%Z.
Proof.
  intros E [Hi Hn] H. pose proof (s_reach _ _ _ _ E) as I. destruct (decide (0 < s_cnt s)%Z) as [Hc|]; [|lia]. exfalso.
  assert (Z : forall P, P SIdle = false -> P SD4 = false -> cnt P (s_th s) = 0).
  { intros P H1 H2. apply cnt_zero. intros j p Hj. by destruct (H _ _ Hj) as [-> |[-> _]]. }
  assert (W : s_wk s = []).
  { destruct (s_wk s) as [|x t] eqn:Ew; [done|exfalso]. pose proof (si_place _ _ I x) as P.
    assert (O : 0 < occ x (s_wk s)) by (apply occ_in; rewrite Ew; left).
    unfold blk_at in P. destruct (s_th s !! x) as [q|] eqn:Ex; [|lia].
    destruct (H _ _ Ex) as [-> |[-> Hx]]; [simpl in P; lia|]. apply Hx. left. }
  pose proof (si_place _ _ I i) as P. unfold blk_at in P. rewrite Hi, W in P. rewrite Z in P by done. simpl in P.
  unfold occ at 2 in P. simpl in P. pose proof (si_wake _ _ I Hc) as X. rewrite Z, W in X by done. simpl in X.
  assert (0 < length (s_wt s)); [|lia]. destruct (s_wt s); [|simpl; lia]. unfold occ in P. simpl in P. lia.
Qed.

(** A down does not block if the count is positive: it completes in five steps of its own. *)
Lemma down_completes s i : s_mtx s = None -> (0 < s_cnt s)%Z -> s_th s !! i = Some SIdle ->
  exists s', s_run s ((i, SDown) :: replicate 4 (i, SGo)) = Some s' /\
    s_th s' = <[i := SIdle]> (s_th s) /\ downs (s_tr s') = S (downs (s_tr s)).
Proof.
  intros Hm Hc Hi. assert (Hl : i < length (s_th s)) by (by eapply lookup_lt_Some).
  destruct s as [m c wt wk th tr]. cbn [s_mtx s_cnt s_th] in *. subst m. cbn [replicate].
  erewrite s_run_cons by (unfold s_step; cbn [s_th]; rewrite Hi; cbn [s_exec]; reflexivity).
  erewrite s_run_cons by (unfold s_step; cbn [s_th]; rewrite list_lookup_insert by done; cbn [s_exec]; reflexivity).
  rewrite list_insert_insert.
  erewrite s_run_cons by (unfold s_step; cbn [s_th]; rewrite list_lookup_insert by done; cbn [s_exec];
    rewrite decide_False by lia; reflexivity).
  rewrite list_insert_insert.
  do 2 (erewrite s_run_cons by (unfold s_step; cbn [s_th]; rewrite list_lookup_insert by done; cbn [s_exec]; reflexivity);
        rewrite list_insert_insert).
  cbn [s_run]. eexists. split; [reflexivity|]. cbn [s_th s_tr]. split; [done|].
  unfold downs. rewrite !cnt_app. simpl. lia.
Qed.

(** In terms of the API: the first down after [u] ups does not block if the initial count
    plus [u] is positive; and the first down after an up that itself follows all other
    operations does not block, if the count was not negative, whatever happened before. *)
Theorem C36_first_down_never_blocks_partial c0 n l s i :
  (forall j a, In (j, a) l -> a <> SDown) ->
  s_run (s_init c0 n) l = Some s -> all_idle s -> (0 < c0 + Z.of_nat (ups (s_tr s)))%Z ->
  i < n -> exists s', s_run s ((i, SDown) :: replicate 4 (i, SGo)) = Some s' /\
     all_idle s' /\ downs (s_tr s') = S (downs (s_tr s)).
Proof.
  intros H E AI Hc Hn. pose proof (s_reach _ _ _ _ E) as I.
  assert (G : forall l s s', (forall j a, In (j, a) l -> a <> SDown) -> s_run s l = Some s' ->
    (forall j p, s_th s !! j = Some p -> upper p = true) ->
    (forall j p, s_th s' !! j = Some p -> upper p = true) /\ length (s_th s') = length (s_th s) /\
    (s_cnt s' - Z.of_nat (ups (s_tr s') + cnt raised (s_th s')) = s_cnt s - Z.of_nat (ups (s_tr s) + cnt raised (s_th s)))%Z).
  { clear. induction l as [|[i a] l IH]; intros s s' H E U; simpl in E; [by injection E as <-|].
    destruct (s_step s i a) as [s1|] eqn:E1; [|done].
    assert (X : (forall j p, s_th s1 !! j = Some p -> upper p = true) /\ length (s_th s1) = length (s_th s) /\
      (s_cnt s1 - Z.of_nat (ups (s_tr s1) + cnt raised (s_th s1)) = s_cnt s - Z.of_nat (ups (s_tr s) + cnt raised (s_th s)))%Z).
    2: { destruct X as (X1 & X2 & X3). destruct (IH s1 s') as (Y1 & Y2 & Y3); [intros; eapply H; by right|done|done|].
         split; [done|]. split; [congruence|]. lia. }
    assert (Na : a <> SDown) by (eapply H; by left). clear IH E H. unfold s_step in E1.
    destruct (s_th s !! i) as [pc|] eqn:Ei; [|done]. pose proof (U _ _ Ei) as Up.
    assert (Hl : i < length (s_th s)) by (by eapply lookup_lt_Some).
    pose proof (fun q => cnt_insert raised (s_th s) i pc q Ei) as C.
    assert (L : forall q, upper q = true -> forall j p, <[i := q]> (s_th s) !! j = Some p -> upper p = true).
    { intros q Hq j p Hj. destruct (decide (j = i)) as [->|Hn].
      - rewrite list_lookup_insert in Hj by done. by injection Hj as <-.
      - rewrite list_lookup_insert_ne in Hj by done. by eapply U. }
    destruct s as [m c wt wk th tr]. cbn [s_mtx s_cnt s_wt s_wk s_th s_tr] in *.
    destruct pc, a; try discriminate Up; try done; cbn [s_exec] in E1; try discriminate E1.
    all: repeat match type of E1 with
       | context [match ?b with Some _ => _ | None => _ end] => destruct b as [[? ?]|] eqn:? || destruct b eqn:?
       end; try discriminate E1; injection E1 as <-; cbn [s_th s_tr s_cnt].
    all: repeat match goal with |- context [if decide ?b then _ else _] => destruct (decide b) end.
    all: split; [by apply L|]; split; [apply insert_length|].
    all: match goal with |- context [<[_ := ?q]> _] => specialize (C q) end; simpl in C.
    all: unfold ups; rewrite !cnt_app; cbn [cnt Nat.b2n]; lia. }
  destruct (G l _ _ H E) as (_ & G2 & G3).
  { intros j p Hj. simpl in Hj. by apply lookup_replicate in Hj as [-> _]. }
  assert (Hz : cnt raised (s_th s) = 0) by (apply cnt_zero; intros j p Hj; by rewrite (AI _ _ Hj)).
  rewrite Hz in G3. cbn [s_init s_cnt s_tr s_th ups cnt] in G3. rewrite cnt_replicate in G3. simpl in G2, G3.
  rewrite replicate_length in G2.
  assert (Hi : s_th s !! i = Some SIdle).
  { destruct (lookup_lt_is_Some_2 (s_th s) i ltac:(lia)) as [p Hp]. by rewrite Hp, (AI _ _ Hp). }
  assert (Hm : s_mtx s = None).
  { destruct (s_mtx s) as [k|] eqn:Em; [|done]. pose proof (si_lt _ _ I _ Em) as Hk.
    destruct (lookup_lt_is_Some_2 _ _ Hk) as [p Hp]. pose proof (proj2 (si_mtx _ _ I _ _ Hp) Em) as X.
    by rewrite (AI _ _ Hp) in X. }
  destruct (down_completes s i) as (s' & R & T & D); [done|lia|done|].
  exists s'. split; [done|]. split; [|done]. intros j p Hj. rewrite T in Hj. destruct (decide (j = i)) as [->|Hne].
  - rewrite list_lookup_insert in Hj by (by eapply lookup_lt_Some). by injection Hj as <-.
  - rewrite list_lookup_insert_ne in Hj by done. by apply (AI j).
Qed.

(** After an up, a semaphore that was idle with a count of at least 0 admits one down. *)
Theorem C36_up_then_down_partial c0 n l s i j :
  s_run (s_init c0 n) l = Some s -> all_idle s -> (0 <= s_cnt s)%Z -> i < length (s_th s) -> j < length (s_th s) ->
  exists s' k, s_run s ((i, SUp) :: replicate k (i, SGo) ++ (j, SDown) :: replicate 4 (j, SGo)) = Some s' /\
     downs (s_tr s') = S (downs (s_tr s)) /\ ups (s_tr s') = S (ups (s_tr s)) /\ all_idle s'.
Proof.
  intros E AI Hc Hi Hj. pose proof (s_reach _ _ _ _ E) as I.
  assert (Ti : forall x, x < length (s_th s) -> s_th s !! x = Some SIdle).
  { intros x Hx. destruct (lookup_lt_is_Some_2 (s_th s) x Hx) as [p Hp]. by rewrite Hp, (AI _ _ Hp). }
  assert (Hm : s_mtx s = None).
  { destruct (s_mtx s) as [k|] eqn:Em; [|done]. pose proof (si_lt _ _ I _ Em) as Hk.
    pose proof (proj2 (si_mtx _ _ I _ _ (Ti _ Hk)) Em) as X. done. }
  assert (Hw : s_wt s = []).
  { destruct (s_wt s) as [|x t] eqn:Ew; [done|exfalso]. pose proof (si_place _ _ I x) as P.
    assert (O : 0 < occ x (s_wt s)) by (apply occ_in; rewrite Ew; left).
    unfold blk_at in P. destruct (s_th s !! x) as [q|] eqn:Ex; [|lia]. rewrite (AI _ _ Ex) in P. simpl in P. lia. }
  assert (U : exists s1, s_run s ((i, SUp) :: replicate 4 (i, SGo)) = Some s1 /\ s_th s1 = s_th s /\ s_mtx s1 = None /\
            (0 < s_cnt s1)%Z /\ downs (s_tr s1) = downs (s_tr s) /\ ups (s_tr s1) = S (ups (s_tr s))).
  { pose proof (Ti _ Hi) as Xi. clear -Xi Hm Hc Hi Hw. destruct s as [m c wt wk th tr].
    cbn [s_mtx s_cnt s_th s_wt s_tr] in *. subst m wt. cbn [replicate].
    erewrite s_run_cons by (unfold s_step; cbn [s_th]; rewrite Xi; cbn [s_exec]; reflexivity).
    erewrite s_run_cons by (unfold s_step; cbn [s_th]; rewrite list_lookup_insert by done; cbn [s_exec]; reflexivity).
    rewrite list_insert_insert.
    erewrite s_run_cons by (unfold s_step; cbn [s_th]; rewrite list_lookup_insert by done; cbn [s_exec];
      rewrite decide_True by lia; reflexivity).
    rewrite list_insert_insert.
    do 2 (erewrite s_run_cons by (unfold s_step; cbn [s_th]; rewrite list_lookup_insert by done; cbn [s_exec]; reflexivity);
        rewrite list_insert_insert).
    cbn [s_run]. eexists. split; [reflexivity|]. cbn [s_th s_tr s_mtx s_cnt].
    split; [by apply list_insert_id|]. split; [done|]. split; [lia|]. unfold downs, ups. rewrite !cnt_app. simpl. lia. }
  destruct U as (s1 & R1 & T1 & M1 & C1 & D1 & U1).
  destruct (down_completes s1 j M1 C1) as (s2 & R2 & T2 & D2); [rewrite T1; by apply Ti|].
  exists s2, 4. split; [|].
  - change ((i, SUp) :: replicate 4 (i, SGo) ++ (j, SDown) :: replicate 4 (j, SGo))
      with (((i, SUp) :: replicate 4 (i, SGo)) ++ (j, SDown) :: replicate 4 (j, SGo)).
    rewrite s_run_app, R1. exact R2.
  - split; [congruence|]. split.
    + rewrite <- U1. pose proof (s_run_app s1 [] []) as _. clear -R2 M1 C1 T1 Ti Hj.
      assert (Xj : s_th s1 !! j = Some SIdle) by (rewrite T1; by apply Ti).
      assert (Hl : j < length (s_th s1)) by (by eapply lookup_lt_Some).
      destruct s1 as [m c wt wk th tr]. cbn [s_mtx s_cnt s_th s_tr] in *. subst m. cbn [replicate] in R2.
      erewrite s_run_cons in R2 by (unfold s_step; cbn [s_th]; rewrite Xj; cbn [s_exec]; reflexivity).
      erewrite s_run_cons in R2 by (unfold s_step; cbn [s_th]; rewrite list_lookup_insert by done; cbn [s_exec]; reflexivity).
      rewrite list_insert_insert in R2.
      erewrite s_run_cons in R2 by (unfold s_step; cbn [s_th]; rewrite list_lookup_insert by done; cbn [s_exec];
        rewrite decide_False by lia; reflexivity).
      rewrite list_insert_insert in R2.
      do 2 (erewrite s_run_cons in R2 by (unfold s_step; cbn [s_th]; rewrite list_lookup_insert by done; cbn [s_exec]; reflexivity);
        rewrite list_insert_insert in R2).
      cbn [s_run] in R2. injection R2 as <-. cbn [s_tr]. unfold ups. rewrite !cnt_app. simpl. lia.
    + intros x p Hx. rewrite T2, T1 in Hx. destruct (decide (x = j)) as [->|Hne].
      * rewrite list_lookup_insert in Hx by done. by injection Hx as <-.
      * rewrite list_lookup_insert_ne in Hx by done. by apply (AI x).
Qed.

(** The condition variable is used correctly: its debug assertion never fails. *)
Theorem C36_no_panic c0 n l s i : s_run (s_init c0 n) l = Some s -> s_th s !! i <> Some SPanic.
Proof. intros E. apply (si_panic c0), (s_reach _ _ _ _ E). Qed.

(** The hypotheses are met: one consumer, two producers; the consumer waits and is woken. *)
Example C36_hyps_met : exists l1 l2 s1 s2,
  s_run (s_init 0 3) l1 = Some s1 /\ waits s1 0 /\
  s_run s1 l2 = Some s2 /\ all_idle s2 /\ ups (s_tr s2) = 2 /\ downs (s_tr s2) = 1 /\
  (forall j a, In (j, a) (l1 ++ l2) -> a = SDown -> j = 0).
Proof.
  exists ((0, SDown) :: replicate 4 (0, SGo)),
    ((1, SUp) :: (2, SUp) :: replicate 5 (1, SGo) ++ (2, SGo) :: (0, SGo) :: replicate 3 (2, SGo) ++ replicate 4 (0, SGo)).
  eexists _, _. split; [vm_compute; reflexivity|]. split; [split; [reflexivity|apply not_elem_of_nil]|].
  split; [vm_compute; reflexivity|]. split; [intros [|[|[|j]]] p H; simpl in H; by (injection H as <-) || done|].
  split; [reflexivity|]. split; [reflexivity|].
  intros j a H ->. simpl in H. repeat destruct H as [H|H]; try done; by injection H as <-.
Qed.

Print Assumptions C36_bound_refuted.
Print Assumptions C36_permits_lost_refuted.
Print Assumptions C36_bound_partial.
Print Assumptions C36_bound_one_consumer_partial.
Print Assumptions C36_no_lost_wakeup.
Print Assumptions C36_first_down_never_blocks_partial.
Print Assumptions C36_up_then_down_partial.
Print Assumptions C36_no_panic.
