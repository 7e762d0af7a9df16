(** C16: replicas using the deterministic allocator see the same outcomes. *)
From Verif Require Import Base DetModel DetProofs.
From stdpp Require Import list.

(** Any number of replicas, any common request sequence, any interleaving of steps,
    any frees by the replicas, as long as the backing allocator does not fail:
    the k-th call has the k-th layout and succeeds on every replica.
    Partial: failures of the backing allocator are excluded, see the refutations. *)
Theorem C16_same_outcome_on_all_replicas_partial n cap reqs tr s i j k ei ej :
  Forall never_null tr -> d_run n cap reqs d_init tr = Some s ->
  i < n -> j < n -> d_done s i !! k = Some ei -> d_done s j !! k = Some ej ->
  ei.1 = reqs k /\ ej.1 = reqs k /\ ei.2 <> 0%N /\ ej.2 <> 0%N.
Proof.
  intros Hn E Hi Hj Hei Hej.
  assert (exists A s1, dinv n reqs A s1 /\ d_done s1 = d_done s) as (A & s1 & HI & Hd).
  { destruct (inv_run _ _ _ _ _ _ _ (dinv_init n reqs) Hn E) as (A & [[HI _]|(s1 & HI & -> & _)]); eauto. }
  assert (H : forall i e, i < n -> d_done s i !! k = Some e -> e.1 = reqs k /\ e.2 <> 0%N).
  { clear -HI Hd. intros i e Hi He. rewrite <- Hd in He.
    pose proof (iv_col _ _ _ _ HI i Hi) as Hc.
    assert (col i A !! k = Some e) as Hk.
    { rewrite <- Hc. by apply lookup_app_l_Some. }
    unfold col in Hk. rewrite list_lookup_fmap in Hk. destruct (A !! k) as [a|] eqn:Ea; [|done].
    cbn in Hk. injection Hk as <-. destruct (iv_A _ _ _ _ HI k a Ea) as (H1 & H2 & H3).
    split; [done|]. cbn. apply (Forall_lookup_1 (fun p => p <> 0%N) a.2 i); [done|].
    apply nth_lookup_lt. lia. }
  destruct (H i ei Hi Hei), (H j ej Hj Hej). done.
Qed.
Print Assumptions C16_same_outcome_on_all_replicas_partial.

(** No block is handed out twice: blocks held by replicas are pairwise different,
    and each is live, was allocated on the holder's own node and has the layout of
    the holder's request. *)
Theorem C16_blocks_exclusive_partial n cap reqs tr s :
  Forall never_null tr -> d_run n cap reqs d_init tr = Some s ->
  NoDup (map snd (d_held s)) /\
  (forall i l p, (i, l, p) ∈ d_held s -> d_live s !! p = Some (i, l)).
Proof.
  intros Hn E.
  assert (exists A s1, dinv n reqs A s1 /\ d_held s1 = d_held s /\ d_live s1 = d_live s) as (A & s1 & HI & Hd & Hl).
  { destruct (inv_run _ _ _ _ _ _ _ (dinv_init n reqs) Hn E) as (A & [[HI _]|(s1 & HI & -> & _)]); eauto. }
  rewrite <- Hd, <- Hl. split.
  - assert (Hc : forall p, p ∈ map snd (d_held s1) -> cH p (d_held s1) <= 1).
    { intros p Hp. change (map snd (d_held s1)) with (snd <$> d_held s1) in Hp.
      apply elem_of_list_fmap in Hp as ([[i l] q] & -> & Hin).
      destruct (iv_held _ _ _ _ HI i l q Hin) as [Hz _]. pose proof (iv_mem _ _ _ _ HI q Hz) as Hm.
      unfold DetProofs.total in Hm. cbn [snd]. change (@snd (nat * layout) N (i, l, q)) with q; destruct (d_live s1 !! q); lia. }
    clear -Hc. induction (d_held s1) as [|e l IH]; [constructor|]. cbn [map]. apply NoDup_cons. split.
    + intros Hin. change (map snd l) with (snd <$> l) in Hin.
      apply elem_of_list_fmap in Hin as (e' & He & Hin).
      specialize (Hc (snd e) ltac:(cbn; set_solver)). cbn in Hc. rewrite decide_True in Hc by done.
      pose proof (cH_elem (snd e) l e' Hin (eq_sym He)). lia.
    + apply IH. intros p Hp. specialize (Hc p ltac:(cbn; set_solver)). cbn in Hc. lia.
  - intros i l p Hin. by apply (iv_held _ _ _ _ HI i l p).
Qed.
Print Assumptions C16_blocks_exclusive_partial.

(** The allocator panics only if some replica has fallen behind so far that its
    queue of prepared blocks is full. *)
Theorem C16_panics_only_when_queue_full n cap reqs tr s :
  Forall never_null tr -> d_run n cap reqs d_init tr = Some s -> d_crash s = true ->
  exists k, k < n /\ cap <= length (d_qs s k).
Proof.
  intros Hn E Hc.
  destruct (inv_run _ _ _ _ _ _ _ (dinv_init n reqs) Hn E) as (A & [[HI H]|(s1 & HI & -> & k & Hk & Hl)]).
  - by rewrite Hc in H.
  - exists k. cbn. split; [done|lia].
Qed.
Print Assumptions C16_panics_only_when_queue_full.

(** No deadlock: as long as there was no panic, some replica can take a step. *)
Theorem C16_no_deadlock n cap reqs tr s :
  0 < n -> Forall never_null tr -> d_run n cap reqs d_init tr = Some s -> d_crash s = false ->
  exists i p s', i < n /\ p <> 0%N /\ d_step n cap reqs s i p = Some s'.
Proof.
  intros Hn0 Hn E Hc.
  destruct (inv_run _ _ _ _ _ _ _ (dinv_init n reqs) Hn E) as (A & [[HI _]|(s1 & HI & -> & _)]); [|done].
  set (p := fresh (dom (d_live s) ∪ {[0%N]} : gset N)).
  pose proof (is_fresh (dom (d_live s) ∪ {[0%N]} : gset N)) as Hf. fold p in Hf.
  assert (Hp : p <> 0%N) by set_solver.
  assert (Hl : d_live s !! p = None) by (apply not_elem_of_dom; set_solver).
  assert (forall i, d_lock s = None \/ d_lock s = Some i -> exists s', d_step n cap reqs s i p = Some s') as Hs.
  { intros i Hi. unfold d_step. rewrite Hc. pose proof (iv_pc _ _ _ _ HI i) as Hpc. unfold pc_ok in Hpc.
    destruct (d_pc s i) as [|l|l|l ps|l ps ok k].
    - destruct (d_qs s i) as [|[rl q] rest]; [by eexists|]. case_decide; by eexists.
    - destruct Hi as [Hi|Hi]; rewrite Hi in *; [by eexists|]. by destruct Hpc.
    - destruct (d_qs s i) as [|[rl q] rest]; [by eexists|]. case_decide; by eexists.
    - case_decide; [|by eexists]. rewrite decide_False by done. rewrite Hl. by eexists.
    - destruct (decide (k < n)); [|by eexists]. destruct ok; repeat case_decide; by eexists. }
  destruct (d_lock s) as [j|] eqn:Ej.
  - destruct (Hs j) as [s' Hs']; [auto|]. exists j, p, s'. split_and!; auto. by apply (iv_lock _ _ _ _ HI).
  - destruct (Hs 0) as [s' Hs']; [auto|]. by exists 0, p, s'.
Qed.
Print Assumptions C16_no_deadlock.

(** Two replicas, one ahead; the second then takes its prepared block. *)
Example C16_hyps_met :
  let tr := [DRun 0 9; DRun 0 9; DRun 0 9; DRun 0 4096; DRun 0 8192; DRun 0 9; DRun 0 9; DRun 0 9; DRun 0 9;
             DRun 1 9; DFree 0 (64, 8)%N 4096] in
  Forall never_null tr /\
  exists s, d_run 2 4 (fun _ => (64, 8)%N) d_init tr = Some s /\
    d_done s 0 = [((64, 8), 4096)]%N /\ d_done s 1 = [((64, 8), 8192)]%N /\ d_held s = [(1%nat, (64, 8)%N, 8192%N)].
Proof. split; [repeat constructor; done|]. eexists. split; [vm_compute; reflexivity|]. done. Qed.

(** When the backing allocator fails on one node, the leader gets an address that
    was freed already, while the other replica gets NULL for the same request. *)
Theorem C16_failure_differs_between_replicas_refuted :
  exists tr s p, d_run 2 4 (fun _ => (64, 8)%N) d_init tr = Some s /\
    d_done s 0 !! 0 = Some ((64, 8)%N, p) /\ p <> 0%N /\ d_live s !! p = None /\
    d_done s 1 !! 0 = Some ((64, 8)%N, 0%N).
Proof.
  exists [DRun 0 9; DRun 0 9; DRun 0 9; DRun 0 4096; DRun 0 0; DRun 0 9; DRun 0 9; DRun 0 9; DRun 0 9; DRun 1 9].
  eexists _, 4096%N. split; [vm_compute; reflexivity|]. done.
Qed.
Print Assumptions C16_failure_differs_between_replicas_refuted.
(** A failure also leaves a stale entry in the leader's own queue: the leader's next
    request fails although it succeeds on the other replica ... *)
Theorem C16_failure_shifts_leader_refuted :
  exists tr s p, d_run 2 4 (fun _ => (64, 8)%N) d_init tr = Some s /\
    d_done s 0 !! 1 = Some ((64, 8)%N, 0%N) /\ d_done s 1 !! 1 = Some ((64, 8)%N, p) /\ p <> 0%N.
Proof.
  exists ([DRun 0 9; DRun 0 9; DRun 0 9; DRun 0 4096; DRun 0 0; DRun 0 9; DRun 0 9; DRun 0 9; DRun 0 9; DRun 1 9; DRun 0 9]
     ++ [DRun 1 9; DRun 1 9; DRun 1 9; DRun 1 4096; DRun 1 8192; DRun 1 9; DRun 1 9; DRun 1 9; DRun 1 9]).
  eexists _, 8192%N. split; [vm_compute; reflexivity|]. done.
Qed.
Print Assumptions C16_failure_shifts_leader_refuted.
(** ... or panics, if the next request has another layout. *)
Theorem C16_failure_panics_refuted :
  exists reqs tr s, d_run 2 4 reqs d_init tr = Some s /\ d_crash s = true.
Proof.
  exists (fun k => match k with O => (64, 8)%N | _ => (32, 8)%N end).
  exists [DRun 0 9; DRun 0 9; DRun 0 9; DRun 0 4096; DRun 0 0; DRun 0 9; DRun 0 9; DRun 0 9; DRun 0 9; DRun 0 9].
  eexists. split; [vm_compute; reflexivity|]. done.
Qed.
Print Assumptions C16_failure_panics_refuted.
