(** C40: a hardware thread is claimed by at most one requester.

    Claiming a free hardware thread of a machine returns a thread of this machine that is
    registered and was not claimed before; claims fail exactly when none is free.  For all
    interleavings of registrations and claims in which each machine registers once.  A second
    registration of a machine makes claimed threads free again (refutation), and a core that is
    released is never free again: releasing it even claims another one (the message ReleaseCore
    is given to the handler of RequestCore). *)
From Verif Require Import Base TlbModel SysModel SysProps NodeModel ThmModel ThmSpec ThmProofs.

(** The result of a claim after any history. *)
Theorem C40_claim_partial dbg l mid : hist_ok [] l -> 1 <= mid <= MAX_MACHINES ->
  exists s outs s', ctl_run dbg ctl_new l = Ok (s, outs) /\
    ctl_claim s mid = Ok (if decide (length (claimed outs mid) < length (avail l mid))
                          then Some (thread_at mid (avail l mid) (length (claimed outs mid))) else None, s').
Proof.
  intros H Hm. destruct (run_spec dbg l [] ctl_new [] cinv_init H) as (s & outs & HR & I). simpl in I.
  destruct (claim_spec _ _ _ mid I Hm) as (s' & HC & _). by exists s, outs, s'.
Qed.

(** No thread is handed out twice. *)
Theorem C40_claims_distinct_partial dbg l s outs : hist_ok [] l -> ctl_run dbg ctl_new l = Ok (s, outs) ->
  NoDup (fst <$> omap snd outs).
Proof.
  revert s outs. induction l as [|a l IH] using rev_ind; intros s outs H HR; [simpl in HR; injection HR as <- <-; constructor|].
  apply hist_ok_app in H as [H1 [H2 _]]. cbn [app] in H2. unfold act_ok in H2. destruct (run_spec dbg l [] ctl_new [] cinv_init H1) as (s1 & o1 & HR1 & I). simpl in I.
  specialize (IH _ _ H1 HR1). rewrite (run_app _ _ _ _ _ _ HR1) in HR. destruct a as [mid ts|mid n|mid]; cbn [ctl_run] in HR.
  - destruct (ctl_reg_a s1 mid ts); [|done..]. cbn [rbind fst snd] in HR. injection HR as <- <-. by rewrite app_nil_r.
  - destruct (ctl_reg_b dbg s1 mid n); [|done..]. cbn [rbind fst snd] in HR. injection HR as <- <-. by rewrite app_nil_r.
  - destruct (claim_spec _ _ _ mid I H2) as (s' & HC & _). rewrite HC in HR. cbn [rbind fst snd] in HR. injection HR as <- <-.
    rewrite omap_app, fmap_app. unfold claim_result. cbn [omap list_omap snd]. case_decide as Hlt; [|by rewrite app_nil_r].
    apply NoDup_app. split; [done|]. split; [|apply NoDup_singleton]. intros g Hg Hg2. apply elem_of_list_singleton in Hg2.
    apply elem_of_list_fmap in Hg as ([g0 a0] & Eg & Hg). simpl in Eg. subst g0. apply claimed_elem in Hg as [m Hg].
    assert (Hmr : 1 <= m <= MAX_MACHINES).
    { clear -Hg HR1 H1. assert (HH : forall past s s' o, hist_ok past l -> ctl_run dbg s l = Ok (s', o) -> forall x, x ∈ o -> 1 <= x.1 <= MAX_MACHINES).
      { clear. induction l as [|[mid ts|mid n|mid] l IH]; intros past s s' o H HR x Hx; cbn [ctl_run] in HR.
        - injection HR as <- <-. by apply elem_of_nil in Hx.
        - destruct H as [_ H]. destruct (ctl_reg_a s mid ts); [|done..]. by eapply IH.
        - destruct H as [_ H]. destruct (ctl_reg_b dbg s mid n); [|done..]. by eapply IH.
        - destruct H as [H0 H]. destruct (ctl_claim s mid) as [p| |]; [|done..]. cbn [rbind] in HR. destruct (ctl_run dbg p.2 l) as [q| |] eqn:E; [|done..].
          cbn [rbind] in HR. injection HR as <- <-. apply elem_of_cons in Hx as [->|Hx]; [done|]. destruct q as [q1 q2]. by eapply IH. }
      apply elem_of_list_omap in Hg as ([m' o] & Hin & Ho). simpl in Ho. case_decide; [|done]. subst m'. by apply (HH [] ctl_new s1 o1 H1 HR1 _ Hin). }
    destruct (i_mach _ _ _ I m Hmr) as (_ & _ & _ & _ & HCM & HKM). rewrite HCM in Hg. apply elem_of_list_fmap in Hg as (j & Ej & Hj). apply elem_of_seq in Hj.
    pose proof (avail_len _ _ _ mid I) as L1. pose proof (avail_len _ _ _ m I) as L2. unfold THM_MAX_CORES, MAX_MACHINES in *.
    unfold thread_at in Ej, Hg2. simpl in Hg2. injection Ej as -> _.
    apply C33_gtid_injective in Hg2 as [E1 E2]; [|lia..]. assert (m = mid) as -> by lia. lia.
Qed.

(** Every thread handed out for a machine is one of those it registered, the lowest ones,
    each once, with the node it was registered with. *)
Theorem C40_claims_registered dbg l s outs mid : hist_ok [] l -> 1 <= mid <= MAX_MACHINES -> ctl_run dbg ctl_new l = Ok (s, outs) ->
  length (claimed outs mid) <= length (avail l mid) /\
  claimed outs mid = thread_at mid (avail l mid) <$> seq 0 (length (claimed outs mid)).
Proof.
  intros H Hm HR. destruct (run_spec dbg l [] ctl_new [] cinv_init H) as (s1 & o1 & HR1 & I). simpl in I. rewrite HR1 in HR. injection HR as <- <-.
  destruct (i_mach _ _ _ I mid Hm) as (_ & _ & _ & _ & HCM & HKM). done.
Qed.
(** When the clients number their threads as they do (registration.rs:51-59), the global ids and
    nodes handed out are those of threads the controller lists (get_hardware_threads). *)
Theorem C40_claims_listed dbg l s outs mid g a : hist_ok [] l -> 1 <= mid <= MAX_MACHINES -> ctl_run dbg ctl_new l = Ok (s, outs) ->
  (forall i t, avail l mid !! i = Some t -> ct_id t = new_gtid (N.of_nat i) (N.of_nat mid)) ->
  (g, a) ∈ claimed outs mid -> exists t, t ∈ c_hw s /\ ct_id t = g /\ ct_node t = a.
Proof.
  intros H Hm HR HI Hg. destruct (run_spec dbg l [] ctl_new [] cinv_init H) as (s1 & o1 & HR1 & I). simpl in I. rewrite HR1 in HR. injection HR as <- <-.
  destruct (i_mach _ _ _ I mid Hm) as (_ & _ & _ & _ & HCM & HKM). rewrite HCM in Hg. apply elem_of_list_fmap in Hg as (j & Ej & Hj). apply elem_of_seq in Hj.
  destruct (avail l mid !! j) as [t|] eqn:Et; [|apply lookup_ge_None in Et; lia]. unfold thread_at in Ej. rewrite Et in Ej. simpl in Ej. injection Ej as -> ->.
  exists t. split; [|split; [by apply HI|done]]. apply elem_of_list_lookup_2 in Et.
  unfold avail in Et. destruct (reg_done l mid); [|by apply elem_of_nil in Et]. destruct (reg_of l mid) as [ts|] eqn:E; [|by apply elem_of_nil in Et].
  by eapply i_in_hw.
Qed.
(** No panic. *)
Theorem C40_no_panic dbg l : hist_ok [] l -> is_ok (ctl_run dbg ctl_new l).
Proof. intros H. destruct (run_spec dbg l [] ctl_new [] cinv_init H) as (s & o & -> & _). done. Qed.

(** A machine that registers again: its claimed threads are handed out again. *)
Theorem C40_register_again_refuted : exists ts s outs,
  ctl_run false ctl_new [CRegA 1 ts; CRegB 1 (length ts); CClaim 1; CRegA 1 ts; CRegB 1 (length ts); CClaim 1] = Ok (s, outs) /\
  length ts = 2 /\ ~ NoDup (fst <$> omap snd outs).
Proof.
  exists [mkCpuT (new_gtid 0 1) 0; mkCpuT (new_gtid 1 1) 0].
  assert (E : rmap snd (ctl_run false ctl_new [CRegA 1 [mkCpuT (new_gtid 0 1) 0; mkCpuT (new_gtid 1 1) 0]; CRegB 1 2; CClaim 1; CRegA 1 [mkCpuT (new_gtid 0 1) 0; mkCpuT (new_gtid 1 1) 0]; CRegB 1 2; CClaim 1])
    = Ok [(1, Some (4294967296%N, 0%N)); (1, Some (4294967296%N, 0%N))]) by (by vm_compute).
  cbn [length]. destruct (ctl_run _ _ _) as [[s o]| |]; [|done..]. injection E as ->. exists s, [(1, Some (4294967296%N, 0%N)); (1, Some (4294967296%N, 0%N))]. split; [done|]. split; [done|].
  simpl. intros HN. apply stdpp.list.NoDup_cons in HN as [HN _]. apply HN. left.
Qed.
(** The machine number of the controller itself, 0, panics. *)
Theorem C40_machine_0_panics s : ctl_claim s 0 = Panic.
Proof. done. Qed.

(** ** The handlers *)

(** The cores the scheduler's replica knows are threads that were claimed: holds initially and
    after each request. *)
Definition rack_ok (l : list cact) (outs : list (nat * option (N * N))) (s : rack) : Prop :=
  hist_ok [] l /\ ctl_run true ctl_new l = Ok (k_ctl s, outs) /\ forall g ci, kn_sched (k_node s) !! g = Some ci -> g ∈ fst <$> omap snd outs.
Theorem C40_request_core l outs s oom pid entry mid : rack_ok l outs s -> 1 <= mid <= MAX_MACHINES ->
  (* no thread of the machine is left: the controller panics *)
  (length (claimed outs mid) = length (avail l mid) -> h_request_core oom s pid entry mid = Panic) /\
  (* otherwise: a thread that nobody ever had, which the process now owns *)
  (length (claimed outs mid) < length (avail l mid) ->
    let g := (thread_at mid (avail l mid) (length (claimed outs mid))).1 in
    exists s', h_request_core oom s pid entry mid = Ok (if oom then Err OutOfMemory else Ok g, s') /\
      g ∉ fst <$> omap snd outs /\ kn_sched (k_node s) !! g = None /\
      (oom = false -> kn_current (k_node s') g = Ok (mkCI pid entry)) /\
      rack_ok (l ++ [CClaim mid]) (outs ++ [(mid, Some (thread_at mid (avail l mid) (length (claimed outs mid))))]) s').
Proof.
  intros (H & HR & HK) Hm. destruct (run_spec true l [] ctl_new [] cinv_init H) as (s1 & o1 & HR1 & I). simpl in I. rewrite HR1 in HR. injection HR as -> ->.
  destruct (claim_spec _ _ _ mid I Hm) as (s' & HC & _). unfold h_request_core. rewrite HC. cbn [rbind fst snd]. unfold claim_result in *. split.
  - intros E. by rewrite decide_False by lia.
  - intros E. rewrite decide_True in * by done. cbv zeta. set (x := thread_at mid (avail l mid) (length (claimed outs mid))) in *.
    assert (HO2 : hist_ok [] (l ++ [CClaim mid])) by (apply hist_ok_app; split; [done|]; simpl; done).
    assert (HR2 : ctl_run true ctl_new (l ++ [CClaim mid]) = Ok (s', outs ++ [(mid, Some x)])).
    { rewrite (run_app _ _ _ _ _ _ HR1). cbn [ctl_run]. rewrite HC. done. }
    assert (HN : x.1 ∉ fst <$> omap snd outs).
    { pose proof (C40_claims_distinct_partial _ _ _ _ HO2 HR2) as ND. rewrite omap_app, fmap_app in ND. cbn [omap list_omap snd] in ND. simpl in ND.
      apply NoDup_app in ND as (_ & ND & _). intros Hin. apply (ND _ Hin). left. }
    assert (HNone : kn_sched (k_node s) !! x.1 = None).
    { destruct (kn_sched (k_node s) !! x.1) as [ci|] eqn:E2; [|done]. by apply HK in E2. }
    cbn [kn_step]. cbn [negb andb]. destruct x as [g a] eqn:Ex. cbn [fst] in *. rewrite HNone.
    assert (HK2 : forall (g' : N) ci, (if oom then kn_sched (k_node s) else <[g := mkCI pid entry]> (kn_sched (k_node s))) !! g' = Some ci -> g' ∈ fst <$> omap snd (outs ++ [(mid, Some (g, a))])).
    { intros g' ci Hg'. rewrite omap_app, fmap_app. apply elem_of_app. destruct oom; [left; by eapply HK|]. destruct (decide (g' = g)) as [->|Hne].
      - right. simpl. left.
      - left. rewrite lookup_insert_ne in Hg' by done. by eapply HK. }
    destruct oom; eexists; (split; [done|]; split; [done|]; split; [done|]; split; [|split; [done|]; split; [done|]; exact HK2]).
    + done.
    + intros _. unfold kn_current. cbn [k_node kn_sched]. by rewrite lookup_insert.
Qed.
(** Releasing a core claims another thread: the released one is not free afterwards, and one
    more thread of some machine is gone. *)
Theorem C40_release_claims_refuted l outs s oom pid g ci pid' entry' mid : rack_ok l outs s -> 1 <= mid <= MAX_MACHINES ->
  kn_sched (k_node s) !! g = Some ci -> ci_pid ci = pid -> length (claimed outs mid) < length (avail l mid) ->
  exists r s', rack_release oom s pid g pid' entry' mid = Ok (r, s') /\
    rack_ok (l ++ [CClaim mid]) (outs ++ [(mid, Some (thread_at mid (avail l mid) (length (claimed outs mid))))]) s' /\
    (r = Ok (thread_at mid (avail l mid) (length (claimed outs mid))).1 \/ r = Err OutOfMemory).
Proof.
  intros (H & HR & HK) Hm Hg <- Hlt. unfold rack_release. cbn [kn_step negb andb]. rewrite Hg, decide_True by done.
  set (s1 := mkRack (k_ctl s) _). assert (R1 : rack_ok l outs s1).
  { split; [done|]. split; [done|]. intros g' ci' Hg'. simpl in Hg'. apply lookup_delete_Some in Hg' as [_ Hg']. by eapply HK. }
  destruct (C40_request_core l outs s1 oom pid' entry' mid R1 Hm) as [_ C]. specialize (C Hlt). cbv zeta in C. destruct C as (s' & C1 & _ & _ & _ & C2).
  exists (if oom then Err OutOfMemory else Ok (thread_at mid (avail l mid) (length (claimed outs mid))).1), s'. split; [done|]. split; [done|]. destruct oom; [by right|by left].
Qed.
(** So a machine with n threads serves n requests and releases in total, then the controller
    panics, even if every core has been released. *)
Theorem C40_released_not_reusable_refuted : exists l outs s s1 r, rack_ok l outs s /\ length (avail l 1) = 2 /\
  h_request_core false (mkRack (k_ctl s) kn_init) 0 100 1 = Ok (Ok (new_gtid 0 1), s1) /\
  rack_release false s1 0 (new_gtid 0 1) 0 100 1 = Ok r /\ kn_sched (k_node r.2) !! new_gtid 0 1 = None /\
  h_request_core false r.2 0 100 1 = Panic.
Proof.
  set (ts := [mkCpuT (new_gtid 0 1) 0; mkCpuT (new_gtid 1 1) 0]). set (l := [CRegA 1 ts; CRegB 1 2]).
  assert (HO : hist_ok [] l). { simpl. unfold MAX_MACHINES, THM_MAX_CORES. split; [split; [lia|]; split; [lia|done]|]. split; [by exists ts|done]. }
  destruct (run_spec true l [] ctl_new [] cinv_init HO) as (c & o & HR & I).
  assert (o = []) as ->. { assert (E : rmap snd (ctl_run true ctl_new l) = Ok []) by (by vm_compute). rewrite HR in E. simpl in E. congruence. }
  assert (R0 : rack_ok l [] (mkRack c kn_init)). { split; [done|]. split; [done|]. intros g ci Hg. simpl in Hg. by rewrite lookup_empty in Hg. }
  assert (M1 : 1 <= 1 <= MAX_MACHINES) by (unfold MAX_MACHINES; lia).
  destruct (C40_request_core l [] (mkRack c kn_init) false 0 100 1 R0 M1) as [_ C]. specialize (C ltac:(simpl; lia)). cbv zeta in C. destruct C as (s1 & C1 & C2 & C3 & C4 & C5).
  specialize (C4 eq_refl). change ((thread_at 1 (avail l 1) (length (claimed [] 1))).1) with (new_gtid 0 1) in *.
  unfold kn_current in C4. destruct (kn_sched (k_node s1) !! new_gtid 0 1) as [ci|] eqn:E; [|done]. injection C4 as ->.
  destruct (C40_release_claims_refuted _ _ s1 false 0 (new_gtid 0 1) _ 0 100%N 1 C5 M1 E eq_refl ltac:(vm_compute; lia)) as (r & s2 & D1 & D2 & D3).
  exists l, [], (mkRack c kn_init), s1, (r, s2). split; [done|]. split; [done|]. split; [done|]. split; [done|]. split.
  - cbn [snd]. assert (E1 : forall ci, kn_sched (k_node s2) !! new_gtid 0 1 = Some ci -> False); [|destruct (kn_sched (k_node s2) !! new_gtid 0 1) as [ci|]; [by destruct (E1 ci)|done]].
    intros ci Hci. unfold rack_release in D1. cbn [kn_step negb andb] in D1. rewrite E, decide_True in D1 by done.
    unfold h_request_core in D1. cbn [k_ctl k_node] in D1. destruct (ctl_claim (k_ctl s1) 1) as [[[[g a]|] c2]| |] eqn:EC; cbn [rbind fst snd] in D1; [|done..].
    cbn [kn_step negb andb] in D1. destruct (kn_sched _ !! g) eqn:EG; [injection D1 as <- <-; simpl in Hci; by rewrite lookup_delete in Hci|].
    injection D1 as <- <-. simpl in Hci. destruct D3 as [D3|D3]; [|done]. injection D3 as ->. change (thread_at _ _ _).1 with (new_gtid 1 1) in Hci.
    rewrite lookup_insert_ne in Hci by done. by rewrite lookup_delete in Hci.
  - cbn [snd]. destruct (C40_request_core _ _ s2 false 0 100 1 D2 M1) as [P _]. apply P. by vm_compute.
Qed.

(** Concrete cases. *)
Definition thm_demo : list cact :=
  [CRegA 2 [mkCpuT (new_gtid 0 2) 0; mkCpuT (new_gtid 1 2) 1]; CClaim 2; CRegA 1 [mkCpuT (new_gtid 0 1) 7]; CRegB 2 2;
   CClaim 2; CRegB 1 1; CClaim 1; CClaim 2; CClaim 1].
Example C40_hyps_met : hist_ok [] thm_demo /\ rmap snd (ctl_run true ctl_new thm_demo) =
  Ok [(2, None); (2, Some (8589934592, 0)%N); (1, Some (4294967296, 7)%N); (2, Some (8589934593, 1)%N); (1, None)].
Proof.
  split; [|by vm_compute]. cbn. unfold MAX_MACHINES, THM_MAX_CORES. split_and!; try lia; try done; by eexists.
Qed.
Example C40_request_core_hyps_met : exists c outs, rack_ok (take 6 thm_demo) outs (mkRack c kn_init) /\
  length (claimed outs 2) = 1 /\ length (avail (take 6 thm_demo) 2) = 2.
Proof.
  assert (HO : hist_ok [] (take 6 thm_demo)). { pose proof (proj1 C40_hyps_met) as H. rewrite <- (take_drop 6 thm_demo) in H. by apply hist_ok_app in H as [? _]. }
  destruct (run_spec true _ [] ctl_new [] cinv_init HO) as (c & o & HR & I). exists c, o.
  assert (E : rmap snd (ctl_run true ctl_new (take 6 thm_demo)) = Ok [(2, None); (2, Some (8589934592, 0)%N)]) by (by vm_compute). rewrite HR in E. simpl in E. injection E as ->.
  split; [|done]. split; [done|]. split; [done|]. intros g ci Hg. simpl in Hg. by rewrite lookup_empty in Hg.
Qed.

Print Assumptions C40_claim_partial.
Print Assumptions C40_claims_distinct_partial.
Print Assumptions C40_claims_registered.
Print Assumptions C40_claims_listed.
Print Assumptions C40_no_panic.
Print Assumptions C40_register_again_refuted.
Print Assumptions C40_machine_0_panics.
Print Assumptions C40_request_core.
Print Assumptions C40_release_claims_refuted.
Print Assumptions C40_released_not_reusable_refuted.
