(** C38: the address ranges of the user heap. *)
From Verif Require Import Base PgModel PgSpec PgProofs.
From stdpp Require Import functions.
Local Open Scope N_scope.

(** The ranges mapped in a history. *)
Definition ranges (st : pgs) : list (N * N) := (pg_log st).*2.

(** A granted request is covered, aligned, starts inside the core's region and adds exactly
    its range to the history; a failed one adds none. *)
Theorem C38_request st i size align kok r st' :
  layout_ok size align -> pg_allocate st i size align kok = (r, st') ->
  match r with
  | Ok b => exists s, pg_log st' = (i, (b, s)) :: pg_log st /\ size <= s /\ s mod 4096 = 0 /\
      b mod align = 0 /\ b mod 4096 = 0 /\ b < pg_limit i /\ pg_sbrk st i <= b /\ kok = true
  | _ => pg_log st' = pg_log st
  end.
Proof.
  intros (k & -> & Hk & HS) E.
  destruct (allocate_cases _ _ _ _ _ _ _ E) as [[-> ->]|(Hi & sb & sz & E1 & E2 & C)]; [done|].
  destruct C as [(P & O & -> & _)|(-> & -> & Hl & Ho & ->)]; [by destruct r|].
  pose proof (ru_spec _ PG_BASE _ ltac:(done) E1) as (S1 & S2 & S3 & _).
  assert (0 < N.max (2 ^ k) PG_BASE) as Hm by (unfold PG_BASE; lia).
  pose proof (ru_spec _ _ _ Hm E2) as (R1 & R2 & R3 & _).
  assert (P2 : 0 < 2 ^ k) by (apply N.neq_0_lt_0, N.pow_nonzero; lia).
  exists sz. split; [done|]. split; [done|]. split; [done|].
  assert (D : forall a b, a <= b -> (2 ^ b) mod (2 ^ a) = 0).
  { intros a b Hab. replace b with ((b - a) + a) by lia. rewrite N.pow_add_r. apply N.mod_mul. apply N.pow_nonzero. lia. }
  split; [|split; [|done]].
  - apply (mod_mul_trans _ (N.max (2 ^ k) PG_BASE)); [done|done| |done]. destruct (decide (12 <= k)) as [Hk12|Hk12].
    + rewrite N.max_l; [apply N.mod_same; lia|]. change PG_BASE with (2 ^ 12). by apply N.pow_le_mono_r.
    + rewrite N.max_r; [change PG_BASE with (2 ^ 12); apply D; lia|]. change PG_BASE with (2 ^ 12). apply N.pow_le_mono_r; lia.
  - apply (mod_mul_trans _ (N.max (2 ^ k) PG_BASE)); [done|done| |done]. destruct (decide (12 <= k)) as [Hk12|Hk12].
    + rewrite N.max_l; [change 4096 with (2 ^ 12); by apply D|]. change PG_BASE with (2 ^ 12). by apply N.pow_le_mono_r.
    + rewrite N.max_r; [done|]. change PG_BASE with (2 ^ 12). apply N.pow_le_mono_r; lia.
Qed.

(** In all histories, the ranges of one core's pager are pairwise disjoint and start inside
    the core's region ... *)
Theorem C38_one_pager_disjoint chk l m n i r1 r2 :
  let log := pg_log (pg_run chk pgs_init l).2 in
  log !! m = Some (i, r1) -> log !! n = Some (i, r2) -> m <> n -> apart r1 r2 /\ pg_start i <= r1.1 < pg_limit i.
Proof.
  cbv zeta. intros H1 H2 Hn. pose proof (pinv_run chk l) as I. split; [by eapply (p_apart _ I m n)|].
  destruct r1. apply elem_of_list_lookup_2, (p_log _ I) in H1 as (_ & ? & ? & _). done.
Qed.
(** ... and if none of them crosses its limit, all ranges of all pagers are. *)
Theorem C38_ranges_disjoint chk l :
  let st := (pg_run chk pgs_init l).2 in
  (forall i b s, (i, (b, s)) ∈ pg_log st -> b + s <= pg_limit i) -> all_apart (ranges st).
Proof.
  cbv zeta. intros NC m n r1 r2 H1 H2 Hn. pose proof (pinv_run chk l) as I. set (st := (pg_run chk pgs_init l).2) in *.
  unfold ranges in *. rewrite list_lookup_fmap in H1, H2.
  destruct (pg_log st !! m) as [[i x1]|] eqn:E1; [|done]. destruct (pg_log st !! n) as [[j x2]|] eqn:E2; [|done].
  simpl in *. injection H1 as ->. injection H2 as ->. destruct (decide (i = j)) as [->|Hij]; [by eapply (p_apart _ I m n)|].
  destruct r1 as [b1 s1], r2 as [b2 s2]. apply elem_of_list_lookup_2 in E1, E2.
  pose proof (NC _ _ _ E1). pose proof (NC _ _ _ E2). destruct (p_log _ I _ _ _ E1) as (_ & ? & _ & _). destruct (p_log _ I _ _ _ E2) as (_ & ? & _ & _).
  intros a [A1 A2]. simpl in *. unfold pg_start, pg_limit, HEAP_START, HEAP_REGION in *. set (R := 2 ^ 39) in *.
  assert (i < j \/ j < i)%nat as [|] by lia; nia.
Qed.
(** When only pages are requested (all that the zone allocator and big allocations do), no
    range crosses its limit, so all ranges are disjoint without a further condition; ... *)
Theorem C38_pages_disjoint chk l :
  Forall (op_layouts page_layout) l ->
  all_apart (ranges (pg_run chk pgs_init l).2) /\
  forall i b s, (i, (b, s)) ∈ pg_log (pg_run chk pgs_init l).2 -> pg_start i <= b /\ b + s <= pg_limit i.
Proof.
  intros H. pose proof (pinv2_run chk l H) as I2. pose proof (pinv_run chk l) as I.
  split; [apply C38_ranges_disjoint; apply I2|]. intros i b s Hi. split; [by apply (p_log _ I) in Hi as (_ & ? & _)|by apply I2].
Qed.
(** ... and a page request on any core but 0 never panics. *)
Theorem C38_pages_no_panic chk l me large ks :
  Forall (op_layouts page_layout) l -> (0 < me < PG_CORES)%nat ->
  is_panic (pg_try chk (pg_run chk pgs_init l).2 me large ks).1 = false.
Proof.
  intros H Hm. pose proof (pinv2_run chk l H) as I2. unfold pg_try.
  destruct (pg_stop chk me) as [stop| |] eqn:ES; [|by destruct me; [lia|]..].
  destruct (stop_dist chk me stop ltac:(lia) ES) as (D & HD & -> & _).
  pose proof (try_loop_no_panic chk me large ks D HD ES PG_CORES 0 (pg_run chk pgs_init l).2) as X.
  rewrite Nat.add_0_r, (Nat.mod_small me) in X by lia. apply X; [lia|unfold PG_CORES in *; lia|done].
Qed.

(** A page request on core [me] > 0 fails only if every pager, except possibly the one before
    it, has no aligned address left below its limit or was refused by the kernel. *)
Theorem C38_try_complete_partial chk st me large ks st' :
  (0 < me < PG_CORES)%nat -> pg_try chk st me large ks = (Ok None, st') ->
  pg_log st' = pg_log st /\
  forall k, (k < PG_CORES)%nat -> k <> (me - 1)%nat ->
    ks k = false \/ forall b, pg_sbrk st k <= b -> b mod pg_page_size large = 0 -> pg_limit k <= b.
Proof.
  intros Hm E. destruct (pg_stop chk me) as [stop| |] eqn:ES; [|by destruct me; [lia|]..].
  destruct (stop_dist chk me stop ltac:(lia) ES) as (D & HD & -> & _ & HD').
  assert (D = 95%nat) as -> by (apply HD'; lia). unfold pg_try in E.
  pose proof (try_loop_none chk me large ks st 95 HD ES PG_CORES 0 st st' ltac:(lia) ltac:(done)) as X.
  rewrite Nat.add_0_r, (Nat.mod_small me) in X by lia. destruct (X E) as [L F]. split; [done|].
  intros k Hk Hn. assert (exists m, (m < 95)%nat /\ ((me + m) mod PG_CORES = k)%nat) as (m & Hm1 & Hm2).
  { destruct (decide (me <= k)%nat).
    - exists (k - me)%nat. replace (me + (k - me))%nat with k by lia. split; [unfold PG_CORES in *; lia|by apply Nat.mod_small].
    - exists (k + PG_CORES - me)%nat. split; [unfold PG_CORES in *; lia|]. replace (me + (k + PG_CORES - me))%nat with (k + 1 * PG_CORES)%nat by (unfold PG_CORES in *; lia).
      rewrite Nat.mod_add by done. by apply Nat.mod_small. }
  destruct (F m ltac:(lia)) as [X1|X1]; rewrite Hm2 in X1; [right; exact X1|by left].
Qed.
(** The pager before it is not tried, although it has room, ... *)
Theorem C38_try_skips_pager_refuted :
  (pg_try true pgs_init 5 true (fun k => bool_decide (k = 4%nat))).1 = Ok None /\
  (pg_alloc_page pgs_init 4 true true).1 = Ok (pg_start 4).
Proof. split; vm_compute; reflexivity. Qed.
(** ... and on core 0 the search panics (or, without overflow checks, gives up while the
    pagers 63 to 95 have room). *)
Theorem C38_core_0_refuted :
  (pg_try true pgs_init 0 true (fun k => bool_decide (k <> 0%nat))).1 = Panic /\
  (pg_try false pgs_init 0 true (fun k => bool_decide (63 <= k)%nat)).1 = Ok None.
Proof. split; vm_compute; reflexivity. Qed.

(** mmap returns an address aligned to 2 MiB, from which [len] bytes are covered by ranges
    that were mapped for this call, by this core's pager. *)
Theorem C38_mmap st me len ks p st' :
  pg_mmap st me len ks = (Ok p, st') ->
  p mod 2097152 = 0 /\ exists new, pg_log st' = ((me,.) <$> new) ++ pg_log st /\ forall a, p <= a < p + len -> covered new a.
Proof.
  unfold pg_mmap. case_decide as Hlen; [|done].
  set (n := N.to_nat ((len + PG_CHUNK - 1) / PG_CHUNK)). assert (Hn : N.of_nat n = (len + PG_CHUNK - 1) / PG_CHUNK) by (unfold n; lia).
  clearbody n. destruct n as [|n]; cbn [pg_mmap_loop]; [done|].
  destruct (pg_allocate _ _ _ _ _) as [r1 st1] eqn:E. destruct r1 as [va|e|]; [|done..]. intros E'.
  destruct (allocate_cases _ _ _ _ _ _ _ E) as [[? _]|(Hi & sb & sz & E1 & E2 & C)]; [done|].
  destruct C as [(_ & ? & _)|([= <-] & _ & Hl & Ho & ->)]; [done|]. change (N.max PG_LARGE PG_BASE) with PG_LARGE in E2.
  pose proof (ru_spec _ PG_LARGE _ ltac:(done) E2) as (R1 & R2 & R3 & R4 & R5).
  pose proof (ru_spec _ PG_BASE _ ltac:(done) E1) as (S1 & S2 & S3 & _ & S5).
  destruct (decide (len <= PG_CHUNK)) as [Hc|Hc].
  - assert (n = O) as ->.
    { assert (X : (len + PG_CHUNK - 1) / PG_CHUNK < 2) by (apply N.div_lt_upper_bound; [done|unfold PG_CHUNK in *; lia]). lia. }
    cbn [pg_mmap_loop] in E'. case_decide; [|done]. injection E' as <- <-. split; [done|]. exists [(va, sz)]. split; [done|].
    intros a Ha. exists (va, sz). split; [left|]. simpl. lia.
  - rewrite N.min_l in * by lia. assert (sz = PG_CHUNK) as ->. { vm_compute in E1. by injection E1 as <-. }
    apply mmap_loop_spec in E'.
    + destruct E' as (-> & new & L & C). split; [done|]. exists (new ++ [(va, PG_CHUNK)]). cbn [pg_log pg_sbrk] in *. split.
      * rewrite L, fmap_app, <- app_assoc. done.
      * intros a Ha. destruct (decide (a < va + PG_CHUNK)).
        -- exists (va, PG_CHUNK). split; [set_solver|]. simpl. lia.
        -- destruct (C a) as (r & Hr1 & Hr2); [rewrite fn_lookup_insert; lia|]. exists r. split; [set_solver|done].
    + cbn [pg_sbrk]. intros _. rewrite fn_lookup_insert. rewrite N.add_mod, R3 by done. done.
    + assert (X : len + PG_CHUNK - 1 = (len - PG_CHUNK + PG_CHUNK - 1) + 1 * PG_CHUNK) by (unfold PG_CHUNK in *; lia).
      rewrite X, N.div_add in Hn by done. lia.
Qed.

(** An allocation above 2 MiB returns an address from which [size] bytes are covered by the
    pages mapped for it, if the core's own pager has room for all of them and the kernel maps
    them. *)
Theorem C38_big_allocation_partial chk st me size kss p :
  (me < PG_CORES)%nat -> 0 < size -> (forall k, kss k me = true) ->
  pg_round_up (pg_sbrk st me) PG_LARGE = Ok p -> p + size + PG_LARGE <= pg_limit me ->
  exists st' new, pg_big chk st me size kss = (Ok (Some p), st') /\ pg_log st' = ((me,.) <$> new) ++ pg_log st /\
    forall a, p <= a < p + size -> covered new a.
Proof.
  intros Hm Hs Hk E HL. unfold pg_big. pose proof (limit_bound me Hm) as LB.
  pose proof (ru_spec _ PG_LARGE _ ltac:(done) E) as (R1 & R2 & R3 & R4 & R5).
  set (n := N.to_nat ((size + PG_LARGE - 1) / PG_LARGE)). assert (Hn : N.of_nat n = (size + PG_LARGE - 1) / PG_LARGE) by (unfold n; lia).
  clearbody n. assert (Hn1 : size <= N.of_nat n * PG_LARGE < size + PG_LARGE).
  { rewrite Hn. pose proof (N.div_mod (size + PG_LARGE - 1) PG_LARGE ltac:(done)). pose proof (N.mod_lt (size + PG_LARGE - 1) PG_LARGE ltac:(done)).
    set (q := (size + PG_LARGE - 1) / PG_LARGE) in *. set (m := (size + PG_LARGE - 1) mod PG_LARGE) in *. clearbody q m. clear -H H0 Hs. unfold PG_LARGE in *. lia. }
  destruct n as [|n]; [lia|]. cbn [pg_big_loop]. rewrite (try_own _ _ _ true _ p Hm (Hk n)); [|done|unfold PG_LARGE in *; lia].
  change (pg_page_size true) with PG_LARGE. edestruct (big_loop_spec n chk (mkPgs (<[me := p + PG_LARGE]> (pg_sbrk st)) ((me, (p, PG_LARGE)) :: pg_log st)) me p kss)
    as (st' & new & E' & L & C); [done|done| | |].
  - cbn [pg_sbrk]. rewrite fn_lookup_insert. rewrite N.add_mod, R3 by done. done.
  - cbn [pg_sbrk]. rewrite fn_lookup_insert. unfold PG_LARGE in *. lia.
  - exists st', (new ++ [(p, PG_LARGE)]). split; [done|]. cbn [pg_log pg_sbrk] in *. rewrite fn_lookup_insert in C. split.
    + rewrite L, fmap_app, <- app_assoc. done.
    + intros a Ha. destruct (decide (a < p + PG_LARGE)).
      * exists (p, PG_LARGE). split; [set_solver|]. simpl. lia.
      * destruct (C a) as (r & Hr1 & Hr2); [unfold PG_LARGE in *; lia|]. exists r. split; [set_solver|done].
Qed.

(** ** What fails at the limits *)

(** A request that is larger than what its region has left is granted, across the limit; the
    next core's pager then asks for addresses that are already mapped. *)
Theorem C38_crossing_refuted : exists l r1 r2,
  (pg_run true pgs_init l).1 = true /\ l = [PReq 1 (2 ^ 39 + 4096) 4096 true; PReq 2 4096 4096 true] /\ layout_ok (2 ^ 39 + 4096) 4096 /\
  r1 ∈ ranges (pg_run true pgs_init l).2 /\ r2 ∈ ranges (pg_run true pgs_init l).2 /\ r1 <> r2 /\ ~ apart r1 r2.
Proof.
  exists [PReq 1 (2 ^ 39 + 4096) 4096 true; PReq 2 4096 4096 true].
  exists (pg_start 1, 2 ^ 39 + 4096), (pg_start 2, 4096). split; [vm_compute; reflexivity|]. split; [done|]. split; [by exists 12|].
  split; [vm_compute; by right; left|]. split; [vm_compute; by left|]. split; [done|].
  intros H. apply (H (pg_start 2)). vm_compute. split; split; congruence.
Qed.
(** A big allocation for which the own pager runs out in the middle takes its later pages
    from another core's region, and still returns the address of the first: the memory
    behind the first page was not mapped for it. *)
Theorem C38_big_allocation_refuted :
  let l := [PReq 1 (2 ^ 39 - 2097152) 4096 true; PPage 2 true (fun _ => true)] in
  let st := (pg_run true pgs_init l).2 in let big := pg_big true st 1 4194304 (fun _ _ => true) in
  (pg_run true pgs_init l).1 = true /\
  exists p, big.1 = Ok (Some p) /\ length (ranges big.2) = (2 + length (ranges st))%nat /\
    ~ covered (take 2 (ranges big.2)) (p + 2097152) /\ covered (ranges st) (p + 2097152).
Proof.
  cbv zeta. split; [vm_compute; reflexivity|]. exists (pg_limit 1 - 2097152). split; [vm_compute; reflexivity|]. split; [vm_compute; reflexivity|]. split.
  - intros (r & Hr & H). vm_compute in Hr. apply elem_of_cons in Hr as [->|Hr]; [|apply elem_of_cons in Hr as [->|Hr]; [|by apply elem_of_nil in Hr]];
      vm_compute in H; destruct H as [H1 H2]; (by apply H1) || (by apply H2) || discriminate.
  - exists (pg_start 2, 2097152). split; [vm_compute; by left|]. vm_compute. split; congruence.
Qed.
(** Alignments above 2 MiB are not honoured for such allocations: the layout's alignment is
    not an argument of the page search at all. *)
Theorem C38_big_alignment_refuted : exists p,
  (pg_big true (pg_run true pgs_init [PPage 1 true (fun _ => true)]).2 1 4194304 (fun _ _ => true)).1 = Ok (Some p) /\ p mod 4194304 <> 0.
Proof. exists (pg_start 1 + 2097152). split; vm_compute; [reflexivity|congruence]. Qed.

(** ** A history that meets the hypotheses *)
Definition pg_demo : list pgop :=
  [PPage 1 false (fun _ => true); PPage 1 true (fun k => bool_decide (k <> 1%nat)); PBig 2 5000000 (fun _ _ => true);
   PReq 0 4096 4096 true; PPage 3 false (fun _ => false)].
Example C38_hyps_met :
  Forall (op_layouts page_layout) pg_demo /\ (pg_run true pgs_init pg_demo).1 = true /\
  length (ranges (pg_run true pgs_init pg_demo).2) = 6%nat.
Proof.
  split; [|split; vm_compute; reflexivity]. repeat apply Forall_cons_2; try exact I; try apply Forall_nil_2. by exists false.
Qed.
Example C38_mmap_hyps_met : let r := pg_mmap pgs_init 7 (3 * 67108864 + 12345) (fun _ => true) in
  r.1 = Ok (pg_start 7) /\ length (pg_log r.2) = 4%nat.
Proof. cbv zeta. split; vm_compute; reflexivity. Qed.
Example C38_big_hyps_met : pg_round_up (pg_sbrk pgs_init 7) PG_LARGE = Ok (pg_start 7) /\ pg_start 7 + 100000000 + PG_LARGE <= pg_limit 7.
Proof. split; [vm_compute; reflexivity|vm_compute; congruence]. Qed.
Example C38_no_crossing_hyps_met : forall i b s,
  (i, (b, s)) ∈ pg_log (pg_run true pgs_init [PReq 1 100000 65536 true; PReq 2 4096 4096 true]).2 -> b + s <= pg_limit i.
Proof.
  intros i b s H. vm_compute in H. repeat (apply elem_of_cons in H as [[= -> -> ->]|H]; [vm_compute; congruence|]). by apply elem_of_nil in H.
Qed.

Print Assumptions C38_request.
Print Assumptions C38_one_pager_disjoint.
Print Assumptions C38_ranges_disjoint.
Print Assumptions C38_pages_disjoint.
Print Assumptions C38_pages_no_panic.
Print Assumptions C38_try_complete_partial.
Print Assumptions C38_try_skips_pager_refuted.
Print Assumptions C38_core_0_refuted.
Print Assumptions C38_mmap.
Print Assumptions C38_big_allocation_partial.
Print Assumptions C38_crossing_refuted.
Print Assumptions C38_big_allocation_refuted.
Print Assumptions C38_big_alignment_refuted.
