(** C72: every core is started once, with its own stack and arguments. *)
From Verif Require Import Base CbModel CbSpec CbProofs.
Local Open Scope N_scope.

(** Whatever the topology, however long each core takes and however the steps of the cores interleave: a core that enters the
    kernel is one of the cores to start, is in the kernel's address space at the entry function, has its own stack, aligned, and the
    argument made for it; no two cores share a stack or an argument. *)
Theorem C72_own_arguments_partial : forall g hp ls s,
  NoDup (map t_apic (g_todo g)) -> g_pml4 g < 2 ^ 32 -> stacks_given ls ->
  run g ls (init g hp) = Some s ->
  (forall c r, EStart c r ∈ log s ->
     exists t, t ∈ g_todo g /\ t_apic t = c /\
       r_rip r = g_entry g /\ r_cr3 r = g_pml4 g /\ good_stack (heap s) (r_rsp r) /\
       (exists v, lookup_arg (args s) (r_rdi r) = Some v /\ a_thread v = t_id t /\ a_node v = node_of t /\ a_rep v = node_of t)) /\
  (forall c1 r1 c2 r2, EStart c1 r1 ∈ log s -> EStart c2 r2 ∈ log s -> c1 <> c2 ->
     disjoint_blocks (r_rsp r1 - 2097152) 2097152 (r_rsp r2 - 2097152) 2097152 /\ r_rdi r1 <> r_rdi r2).
Proof.
  intros g hp ls s Hnd Hp Hs E. destruct (inv_run g Hnd Hp ls [] _ s (inv_init g hp) Hs E) as [dn I]. split.
  - intros c r H. destruct (i_ev _ _ _ I c r H) as (x & Hx & <- & ->).
    destruct (proj1 (stdpp.list.Forall_forall _ _) (i_prep _ _ _ I) x Hx) as [G A].
    exists (tt_ x). split.
    { rewrite (i_todo _ _ _ I). apply elem_of_app. left. apply elem_of_list_fmap. exists x. split; [reflexivity|exact Hx]. }
    split; [reflexivity|]. cbn [regsof r_rip r_cr3 r_rsp r_rdi]. split; [reflexivity|]. split; [reflexivity|]. split; [exact G|].
    eexists. split; [exact A|]. cbn. repeat split.
  - intros c1 r1 c2 r2 H1 H2 Hne. destruct (i_ev _ _ _ I c1 r1 H1) as (x & Hx & <- & ->). destruct (i_ev _ _ _ I c2 r2 H2) as (y & Hy & <- & ->).
    assert (Hxy : x <> y) by (intros ->; apply Hne; reflexivity). cbn [regsof r_rsp r_rdi].
    destruct (proj1 (stdpp.list.Forall_forall _ _) (i_prep _ _ _ I) x Hx) as [(a & _ & Ea & _) _].
    destruct (proj1 (stdpp.list.Forall_forall _ _) (i_prep _ _ _ I) y Hy) as [(b & _ & Eb & _) _].
    split.
    + assert (A : apart x y).
      { pose proof (i_pw _ _ _ I) as P. pose proof (ForallOrdPairs_In P x y (proj1 (elem_of_list_In _ _) Hx) (proj1 (elem_of_list_In _ _) Hy)) as [->|[A|A]];
          [destruct (Hxy eq_refl)|exact A|]. unfold apart in *. lia. }
      intros z. unfold apart in A. lia.
    + intros Eq. pose proof (i_args _ _ _ I) as ND. apply Hxy.
      apply elem_of_list_lookup_1 in Hx as [i Hi]. apply elem_of_list_lookup_1 in Hy as [j Hj].
      assert (i = j) as ->.
      { apply (NoDup_lookup _ i j (ar_ x) ND).
        - change (map ar_ (dn ++ cl s)) with (ar_ <$> (dn ++ cl s)). rewrite list_lookup_fmap, Hi. reflexivity.
        - change (map ar_ (dn ++ cl s)) with (ar_ <$> (dn ++ cl s)). rewrite list_lookup_fmap, Hj, Eq. reflexivity. }
      congruence.
Qed.
Print Assumptions C72_own_arguments_partial.

(** Cores enter the kernel in the order of the topology, each once, one at a time: the boot core turns to the next core only after
    the one before has said that it is up, and it leaves the loop only when every core is up. *)
Theorem C72_one_at_a_time_partial : forall g hp ls s,
  NoDup (map t_apic (g_todo g)) -> g_pml4 g < 2 ^ 32 -> stacks_given ls ->
  run g ls (init g hp) = Some s ->
  starts (log s) `prefix_of` map t_apic (g_todo g) /\ NoDup (starts (log s)) /\
  ups (log s) `prefix_of` starts (log s) /\ nexts (log s) `prefix_of` ups (log s) /\
  (length (starts (log s)) <= length (nexts (log s)) + 1)%nat /\
  (b_pc s = BDone -> starts (log s) = map t_apic (g_todo g) /\ ups (log s) = map t_apic (g_todo g)).
Proof.
  intros g hp ls s Hnd Hp Hs E. destruct (inv_run g Hnd Hp ls [] _ s (inv_init g hp) Hs E) as [dn I].
  assert (P1 : starts (log s) `prefix_of` map t_apic (g_todo g)).
  { rewrite (i_starts _ _ _ I), (i_todo _ _ _ I), map_app, map_map, map_app. change (fun x => t_apic (tt_ x)) with ap_.
    rewrite <- app_assoc. apply prefix_app. unfold cl. destruct (b_cur s) as [x|]; cbn; [|apply prefix_nil].
    destruct (started (aps s (ap_ x))); [|apply prefix_nil]. apply prefix_cons, prefix_nil. }
  split; [exact P1|]. split.
  { destruct P1 as [k Ek]. rewrite Ek in Hnd. apply NoDup_app in Hnd. apply Hnd. }
  rewrite (i_starts _ _ _ I), (i_ups _ _ _ I), (i_nexts _ _ _ I). split.
  { apply prefix_app. destruct (b_cur s) as [x|]; [|done]. destruct (aps s (ap_ x)); cbn; try apply prefix_nil. reflexivity. }
  split; [apply prefix_app_r; reflexivity|]. split.
  { rewrite app_length. destruct (b_cur s) as [x|]; cbn; [destruct (started _); cbn; lia|lia]. }
  intros Ed. pose proof (i_phase _ _ _ I) as Ph. unfold phase in Ph. rewrite Ed in Ph. rewrite (i_todo _ _ _ I). unfold cl.
  destruct (b_cur s) as [x|]; [destruct Ph|]. rewrite Ph, !app_nil_r, map_map. split; reflexivity.
Qed.
Print Assumptions C72_one_at_a_time_partial.

(** Every core registers with the replica of its own node, and gets a number no other thread of that replica has (the boot core has
    number 1 of replica 0). *)
Theorem C72_replica_partial : forall g hp ls s,
  NoDup (map t_apic (g_todo g)) -> g_pml4 g < 2 ^ 32 -> stacks_given ls ->
  run g ls (init g hp) = Some s ->
  (forall c rep tok, EReg c rep tok ∈ log s -> exists t, t ∈ g_todo g /\ t_apic t = c /\ rep = node_of t) /\
  NoDup ((0, 1) :: omap (fun e => match e with EReg _ rep tok => Some (rep, tok) | _ => None end) (log s)).
Proof.
  intros g hp ls s Hnd Hp Hs E. destruct (inv_run g Hnd Hp ls [] _ s (inv_init g hp) Hs E) as [dn I]. split.
  - intros c rep tok H. destruct (i_reg _ _ _ I _ _ _ H) as (x & Hx & <- & ->). exists (tt_ x). split; [|split; reflexivity].
    rewrite (i_todo _ _ _ I). apply elem_of_app. left. apply elem_of_list_fmap. exists x. split; [reflexivity|exact Hx].
  - apply (i_nd _ _ _ I).
Qed.
Print Assumptions C72_replica_partial.

(** Nothing blocks: while the boot core waits for a core that has accepted STARTUP and whose replica has room, that core's own steps,
    at most nine, bring it up, and the boot core goes on to the next. *)
Theorem C72_progress_partial : forall g hp ls s t sp ar,
  NoDup (map t_apic (g_todo g)) -> g_pml4 g < 2 ^ 32 -> stacks_given ls ->
  run g ls (init g hp) = Some s ->
  b_pc s = BLook -> b_cur s = Some (t, sp, ar) ->
  aps s (t_apic t) <> AReset -> aps s (t_apic t) <> AWait -> aps s (t_apic t) <> APanic ->
  toks s (node_of t) < g_max g ->
  exists n s', (n <= 9)%nat /\ run g (repeat (LAp (t_apic t)) n ++ [LBsp]) s = Some s' /\
    b_pc s' = BNext /\ b_rest s' = b_rest s.
Proof.
  intros g hp ls s t sp ar Hnd Hp Hs E Ep Ec N1 N2 N3 Ht. destruct (inv_run g Hnd Hp ls [] _ s (inv_init g hp) Hs E) as [dn I].
  pose proof (i_phase _ _ _ I) as Ph. unfold phase in Ph. rewrite Ep, Ec in Ph. destruct Ph as [Pb Pa].
  change (ap_ (t, sp, ar)) with (t_apic t) in Pa.
  assert (H0 : rank (aps s (t_apic t)) = 0%nat -> flag s = true).
  { destruct (aps s (t_apic t)); cbn in *; try congruence; try (destruct Pa; fail).
    - destruct Pa as [[K _] _]. intros. lia.
    - intros _. apply Pa. }
  destruct (run_rank g Hnd Hp _ dn s (t, sp, ar) I Ec Ep eq_refl (or_intror Ht) H0) as (s1 & R & R1 & R2 & R3 & R4).
  exists (rank (aps s (t_apic t))). eexists. split.
  { destruct (aps s (t_apic t)); cbn; lia. }
  change (ap_ (t, sp, ar)) with (t_apic t) in R. rewrite run_app, R. cbn [run step]. unfold bsp. rewrite R2, R1, R4. split; [reflexivity|].
  cbn. split; [reflexivity|exact R3].
Qed.
Print Assumptions C72_progress_partial.

(** The three kinds of stack: base and limit are aligned and the stack lies inside the memory it is made from, using all but fewer than
    32 bytes of it. *)
Theorem C72_stacks : forall p n,
  (p mod 16 = 0 -> forall k, owned_stack p n = k ->
     s_limit k mod 16 = 0 /\ s_base k mod 16 = 0 /\ p <= s_limit k <= s_base k /\ s_base k <= p + n /\ p + n < s_base k + 16) /\
  (forall k, slice_stack p n = Some k ->
     s_limit k mod 16 = 0 /\ s_base k mod 16 = 0 /\ p <= s_limit k <= s_base k /\ s_base k <= p + n /\ n < (s_base k - s_limit k) + 32) /\
  (16 <= n -> slice_stack p n <> None) /\
  (exists k, static_stack p = Some k /\
     s_limit k mod 16 = 0 /\ s_base k mod 16 = 0 /\ p <= s_limit k <= s_base k /\ s_base k <= p + 131072).
Proof.
  intros p n. pose proof (align_up_spec p) as (U1 & U2 & U3).
  assert (AM : forall a b, a mod 16 = 0 -> b mod 16 = 0 -> (a + b) mod 16 = 0).
  { intros a b Ha Hb. rewrite N.add_mod, Ha, Hb by lia. reflexivity. }
  split; [|split; [|split]].
  - intros Hp k <-. unfold owned_stack, s_base; cbn [s_limit s_len]. pose proof (align_down_spec n) as (D1 & D2 & D3).
    split; [exact Hp|]. split; [apply AM; assumption|]. lia.
  - intros k. unfold slice_stack. destruct (N.ltb_spec n (align_up p - p)); [discriminate|]. intros [= <-]. unfold s_base; cbn [s_limit s_len].
    pose proof (align_down_spec (n - (align_up p - p))) as (D1 & D2 & D3).
    replace (p + (align_up p - p)) with (align_up p) by lia. split; [exact U1|]. split; [apply AM; assumption|]. lia.
  - intros Hn. unfold slice_stack. destruct (N.ltb_spec n (align_up p - p)); [lia|discriminate].
  - unfold static_stack. change (32 * 4096) with 131072. destruct (N.ltb_spec 131072 (align_up p - p)); [lia|].
    eexists. split; [reflexivity|]. unfold s_base; cbn [s_limit s_len].
    pose proof (align_down_spec (131072 - (align_up p - p))) as (D1 & D2 & D3).
    split; [exact U1|]. split; [apply AM; assumption|]. lia.
Qed.
Print Assumptions C72_stacks.

(** * What does not hold *)
Definition ex_cfg (pml4 : N) : cfg := Cfg [Thr 1 1 (Some 0); Thr 2 2 (Some 1)] 2 pml4 8192 12288 256.
Definition one_core (c : N) (a ar : N) : list label :=
  [LTake (Some a) ar] ++ repeat LBsp 7 ++ [LHw c] ++ repeat LBsp 3 ++ repeat (LAp c) 9 ++ [LBsp].

Lemma nd_dec (l : list N) : bool_decide (NoDup l) = true -> NoDup l.
Proof. intros H. by apply bool_decide_eq_true in H. Qed.
Lemma given_dec ls : forallb (fun l => match l with LTake None _ => false | _ => true end) ls = true -> stacks_given ls.
Proof. rewrite forallb_forall. intros H ar Hin. apply elem_of_list_In in Hin. specialize (H _ Hin). discriminate H. Qed.

(** A page table above 4 GiB: the core loads the lower half of the address and does not reach the kernel. *)
Theorem C72_page_table_refuted :
  exists g hp ls s, NoDup (map t_apic (g_todo g)) /\ stacks_given ls /\ run g ls (init g hp) = Some s /\
    g_pml4 g < 2 ^ 52 /\ aps s 1 = AWild /\ starts (log s) = [].
Proof.
  set (g := ex_cfg (2 ^ 32 + 4096)).
  set (ls := [LTake (Some 16) 8] ++ repeat LBsp 7 ++ [LHw 1] ++ [LBsp] ++ repeat (LAp 1) 2).
  assert (C : match run g ls (init g []) with Some s => aps s 1 = AWild /\ starts (log s) = [] | None => False end) by (vm_compute; repeat split; reflexivity).
  destruct (run g ls (init g [])) as [s|] eqn:E; [|destruct C].
  exists g, [], ls, s. split; [apply nd_dec; vm_compute; reflexivity|]. split.
  { apply given_dec. vm_compute. reflexivity. }
  split; [exact E|]. split; [vm_compute; reflexivity|]. exact C.
Qed.
Print Assumptions C72_page_table_refuted.

(** No memory for stacks: OwnedStack::new does not look at the null pointer, and two cores run on the same addresses, which
    nobody allocated. *)
Theorem C72_null_stack_refuted :
  exists g hp ls s c1 r1 c2 r2, NoDup (map t_apic (g_todo g)) /\ g_pml4 g < 2 ^ 32 /\ run g ls (init g hp) = Some s /\
    EStart c1 r1 ∈ log s /\ EStart c2 r2 ∈ log s /\ c1 <> c2 /\ r_rsp r1 = r_rsp r2 /\ heap s = [] /\ b_pc s = BDone.
Proof.
  set (g := ex_cfg 4096).
  set (oc := fun c ar => [LTake None ar] ++ repeat LBsp 7 ++ [LHw c] ++ repeat LBsp 3 ++ repeat (LAp c) 9 ++ [LBsp]).
  set (ls := oc 1 8 ++ oc 2 16 ++ [LBsp]).
  assert (C : match run g ls (init g []) with Some s => (log s = [EStart 1 (Regs 4096 2097152 8 12288 8192); EReg 1 0 2; EUp 1; ENext 1; EStart 2 (Regs 4096 2097152 16 12288 8192); EReg 2 1 1; EUp 2; ENext 2] /\ heap s = [] /\ b_pc s = BDone) | None => False end) by (vm_compute; repeat split; reflexivity).
  destruct (run g ls (init g [])) as [s|] eqn:E; [|destruct C].
  exists g, [], ls, s, 1, (Regs 4096 2097152 8 12288 8192), 2, (Regs 4096 2097152 16 12288 8192).
  split; [apply nd_dec; vm_compute; reflexivity|]. split; [vm_compute; reflexivity|]. split; [exact E|].
  destruct C as (C1 & C2 & C3). rewrite C1.
  split; [left|]. split; [do 4 right; left|]. split; [discriminate|]. split; [reflexivity|]. split; assumption.
Qed.
Print Assumptions C72_null_stack_refuted.

(** The wait between INIT and STARTUP ends at once (its condition is the wrong way round): a core that is still being reset misses
    STARTUP, and the whole system panics although every core works. *)
Theorem C72_lost_startup_refuted :
  exists g hp ls s, NoDup (map t_apic (g_todo g)) /\ g_pml4 g < 2 ^ 32 /\ stacks_given ls /\ run g ls (init g hp) = Some s /\
    aps s 1 = AWait /\ b_pc s = BPanic /\ starts (log s) = [].
Proof.
  set (g := ex_cfg 4096).
  set (ls := [LTake (Some 16) 8] ++ repeat LBsp 8 ++ [LHw 1] ++ [LBsp; LTimeout]).
  assert (C : match run g ls (init g []) with Some s => aps s 1 = AWait /\ b_pc s = BPanic /\ starts (log s) = [] | None => False end) by (vm_compute; repeat split; reflexivity).
  destruct (run g ls (init g [])) as [s|] eqn:E; [|destruct C].
  exists g, [], ls, s. split; [apply nd_dec; vm_compute; reflexivity|]. split; [vm_compute; reflexivity|]. split.
  { apply given_dec. vm_compute. reflexivity. }
  split; [exact E|]. exact C.
Qed.
Print Assumptions C72_lost_startup_refuted.

(** A core that needs more than a second stops the system, even if it comes up between the look at the flag and the look at the
    clock. *)
Theorem C72_slow_core_refuted :
  exists g hp ls s, NoDup (map t_apic (g_todo g)) /\ g_pml4 g < 2 ^ 32 /\ stacks_given ls /\ run g ls (init g hp) = Some s /\
    ups (log s) = [1] /\ flag s = true /\ b_pc s = BPanic.
Proof.
  set (g := ex_cfg 4096).
  set (ls := [LTake (Some 16) 8] ++ repeat LBsp 7 ++ [LHw 1] ++ [LBsp; LBsp] ++ repeat (LAp 1) 9 ++ [LTimeout]).
  assert (C : match run g ls (init g []) with Some s => ups (log s) = [1] /\ flag s = true /\ b_pc s = BPanic | None => False end) by (vm_compute; repeat split; reflexivity).
  destruct (run g ls (init g [])) as [s|] eqn:E; [|destruct C].
  exists g, [], ls, s. split; [apply nd_dec; vm_compute; reflexivity|]. split; [vm_compute; reflexivity|]. split.
  { apply given_dec. vm_compute. reflexivity. }
  split; [exact E|]. exact C.
Qed.
Print Assumptions C72_slow_core_refuted.

(** Nodes that are not numbered from 0 without gaps: the boot core panics. *)
Theorem C72_node_numbers_refuted :
  exists g hp s, NoDup (map t_apic (g_todo g)) /\ g_pml4 g < 2 ^ 32 /\ g_nodes g = 2 /\
    (forall t, t ∈ g_todo g -> t_node t = Some 0 \/ t_node t = Some 2) /\
    run g [LTake (Some 16) 8] (init g hp) = Some s /\ b_pc s = BPanic.
Proof.
  set (g := Cfg [Thr 1 1 (Some 2); Thr 2 2 (Some 0)] 2 4096 8192 12288 256).
  assert (C : match run g [LTake (Some 16) 8] (init g []) with Some s => b_pc s = BPanic | None => False end) by (vm_compute; repeat split; reflexivity).
  destruct (run g [LTake (Some 16) 8] (init g [])) as [s|] eqn:E; [|destruct C].
  exists g, [], s. split; [apply nd_dec; vm_compute; reflexivity|]. split; [vm_compute; reflexivity|]. split; [reflexivity|]. split.
  { intros t Ht. cbn in Ht. apply elem_of_cons in Ht as [->|Ht]; [right; reflexivity|]. apply elem_of_list_singleton in Ht as ->. left; reflexivity. }
  split; [exact E|]. exact C.
Qed.
Print Assumptions C72_node_numbers_refuted.

(** The hypotheses are met: two cores on two nodes come up. *)
Example C72_hyps_met :
  let g := ex_cfg 4096 in
  let ls := one_core 1 16 8 ++ one_core 2 2097168 24 ++ [LBsp] in
  NoDup (map t_apic (g_todo g)) /\ g_pml4 g < 2 ^ 32 /\ stacks_given ls /\
  exists s, run g ls (init g []) = Some s /\ b_pc s = BDone /\ starts (log s) = [1; 2] /\ ups (log s) = [1; 2] /\
    EStart 2 (Regs 4096 4194320 24 12288 8192) ∈ log s /\ EReg 2 1 1 ∈ log s.
Proof.
  cbv zeta. split; [apply nd_dec; vm_compute; reflexivity|]. split; [vm_compute; reflexivity|]. split.
  { apply given_dec. vm_compute. reflexivity. }
  set (g := ex_cfg 4096). set (ls := one_core 1 16 8 ++ one_core 2 2097168 24 ++ [LBsp]).
  assert (C : match run g ls (init g []) with
              | Some s => b_pc s = BDone /\ log s = [EStart 1 (Regs 4096 2097168 8 12288 8192); EReg 1 0 2; EUp 1; ENext 1;
                            EStart 2 (Regs 4096 4194320 24 12288 8192); EReg 2 1 1; EUp 2; ENext 2]
              | None => False end) by (vm_compute; split; reflexivity).
  destruct (run g ls (init g [])) as [s|]; [|destruct C]. destruct C as [C1 C2].
  exists s. split; [reflexivity|]. split; [exact C1|]. rewrite C2. split; [reflexivity|]. split; [reflexivity|]. split.
  - do 4 right. left.
  - do 5 right. left.
Qed.
