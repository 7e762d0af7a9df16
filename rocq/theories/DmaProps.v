(** C71: device drivers of a program get the addresses, DMA memory, device registers and interrupts they ask for. *)
From Verif Require Import Base PgModel PgProofs DmaModel DmaSpec DmaProofs.
Local Open Scope N_scope.

(** The bus address of an address of the program, however often asked and whatever was mapped in between.  Missing: unmapping. *)
Theorem C71_bus_address_partial : forall q st va pa,
  driver q st -> translate (d_map st) va = Some pa ->
  (virt_to_mach st va).1 = Ok pa /\ d_map (virt_to_mach st va).2 = d_map st.
Proof.
  intros q st va pa D H. apply dinv_ok in D. unfold translate in H. destruct (d_map st !! (va / 4096)) as [p|] eqn:E; [|done].
  injection H as <-. unfold virt_to_mach, identify. rewrite page_div, E. destruct (d_cache st) as [ht|] eqn:Eh; [|done].
  destruct (ht !! page_of va) as [pa|] eqn:Ec; [|done]. destruct (D ht _ _ Eh Ec) as (_ & _ & p' & E' & ->).
  rewrite page_div in E'. rewrite E in E'. injection E' as ->. done.
Qed.
Print Assumptions C71_bus_address_partial.

(** DMA memory: at least the size asked for, consecutive on the bus, aligned, at addresses unused before; nothing else moves. *)
Theorem C71_dma_memory_partial : forall q st core size align pa st' va pa',
  driver q st -> pa mod dma_size size = 0 -> dmalloc st core size align (Some pa) = (Ok (va, pa'), st') ->
  unused (d_map st) va (dma_size size) ->
  (exists k, align = 2 ^ k) -> (align <= 4096 \/ align <= 2097152 /\ 4096 < size) ->
  driver ({[va / 4096]} ∪ q) st' /\ size <= dma_size size /\ va mod align = 0 /\ pa' mod align = 0 /\
  (forall i, i < dma_size size -> translate (d_map st') (va + i) = Some (pa' + i)) /\
  (forall a, ~ (va <= a < va + dma_size size) -> translate (d_map st') a = translate (d_map st) a).
Proof.
  intros q st core size align pa st' va pa' D Hp E Hu [k ->] Ha.
  destruct (dmalloc_ok _ _ _ _ _ _ _ _ E) as (H1 & H2 & H3 & H4 & H5 & H6 & H7 & Em & Ec). injection H3 as ->.
  pose proof (size_pages size) as Sp. pose proof (mod_page _ _ H4) as M1. pose proof (mod_page _ _ Hp) as M2.
  pose proof (by_page _ M1) as V. pose proof (by_page _ M2) as P.
  split.
  { pose proof (dr_dma q st core size (2 ^ k) (Some pa') D) as X. rewrite E in X. cbn [fst snd] in X. apply X.
    intros va0 pa0 [= <- <-]. done. }
  assert (Hk : dma_size size mod 2 ^ k = 0 /\ 0 < 2 ^ k).
  { split; [|apply N.neq_0_lt_0, N.pow_nonzero; lia].
    assert (Hd : forall m, 2 ^ k <= 2 ^ m -> 2 ^ m mod 2 ^ k = 0).
    { intros m Hm. apply N.pow_le_mono_r_iff in Hm; [|lia]. replace m with (m - k + k) by lia. rewrite N.pow_add_r. apply N.mod_mul.
      apply N.pow_nonzero. lia. }
    unfold dma_size. destruct (N.ltb_spec 4096 size) as [L|L].
    - change 2097152 with (2 ^ 21). apply Hd. change (2 ^ 21) with 2097152. lia.
    - change 4096 with (2 ^ 12). apply Hd. change (2 ^ 12) with 4096. lia. }
  destruct Hk as [Hk Hk0].
  assert (Hs0 : 0 < dma_size size) by (destruct (dma_size_cases size) as [-> | ->]; lia).
  split. { unfold dma_size. destruct (N.ltb_spec 4096 size); lia. }
  split; [by apply (mod_mul_trans _ (dma_size size))|]. split; [by apply (mod_mul_trans _ (dma_size size))|].
  assert (T : forall a, translate (d_map st') a = if decide (va <= a < va + dma_size size) then Some (pa' + (a - va)) else translate (d_map st) a).
  { intros a. unfold translate. rewrite Em. pose proof (N.div_mod a 4096 ltac:(lia)) as Da. pose proof (mod4 a) as La.
    set (qa := a / 4096) in *. set (ra := a mod 4096) in *. set (qv := va / 4096) in *. set (qp := pa' / 4096) in *.
    set (qs := dma_size size / 4096) in *. set (sz := dma_size size) in *. case_decide as Hd.
    - rewrite map_pages_in by (rewrite N2Nat.id; lia). f_equal. lia.
    - rewrite map_pages_out; [done|]. rewrite N2Nat.id. lia. }
  split.
  - intros i Hi. rewrite T, decide_True by lia. f_equal. lia.
  - intros a Hn. by rewrite T, decide_False.
Qed.
Print Assumptions C71_dma_memory_partial.

(** Registers of devices: whatever the threads of one process do at the same time, all accesses happen one after the other on
    the registers that were asked for. *)
Theorem C71_config_partial : forall cfg p l,
  (forall x, In x l -> x.1.1 = p /\ pci_ok (cop_reg x.2)) -> in_order cfg (p_log (pci_run l (pci0 cfg))).
Proof.
  intros cfg p l H. destruct (pinv1_run cfg p l (pci0 cfg) H) as [I _]; [|done]. split; [done|]. split; [done|]. done.
Qed.
Print Assumptions C71_config_partial.

(** Interrupts of a program with one device: its handler runs, with its argument, each time. *)
Theorem C71_interrupt_partial : forall b d f line cookie h arg,
  let s := irq_establish cookie (Some h) arg (irq_map b d f line cookie irqs0) in
  irq_arrives (line + 32) s = Ok (Some (h, arg)) /\ forall v, v <> line + 32 -> irq_arrives v s = Ok None.
Proof.
  intros b d f line cookie h arg s. unfold irq_arrives. cbn [s irq_establish irq_map i_vecs i_fun i_arg irqs0]. split.
  - rewrite decide_True by (by left). done.
  - intros v Hv. rewrite decide_False; [done|]. intros H. apply elem_of_list_singleton in H. done.
Qed.
Print Assumptions C71_interrupt_partial.

(** The lines of the first I/O APIC below 16, without 1 and 2, arrive on core 0 with the vector the program expects. *)
Theorem C71_route_partial : forall n aps line,
  line < n -> line < 16 -> line <> 1 -> line <> 2 -> In (line, (32 + line, 0)) (establish_route ((0, n) :: aps) line 0).
Proof.
  intros n aps line Hn H16 H1 H2. unfold establish_route. cbn [flat_map]. apply in_app_iff. left. apply in_map_iff.
  exists line. split; [done|]. apply filter_In. split.
  - apply in_map_iff. exists (N.to_nat line). split; [apply N2Nat.id|]. apply in_seq. cbn [snd]. lia.
  - cbn [fst]. rewrite N.add_0_l. rewrite (proj2 (N.ltb_lt line 16)) by done.
    rewrite (proj2 (N.eqb_neq line 2)), (proj2 (N.eqb_neq line 1)) by done. done.
Qed.
Print Assumptions C71_route_partial.

(** ** Refuted *)
(** After unmapping and mapping again, the bus address of a page once asked for is the old one: the device is given memory
    that may be another program's. *)
Theorem C71_stale_refuted : forall st va ht p p' v,
  d_cache st = Some ht -> ht !! page_of va = None -> d_map st !! (va / 4096) = Some p -> v = va / 4096 -> p' <> p ->
  let st1 := (virt_to_mach st va).2 in
  let st2 := other_map (other_unmap st1 v 1) v p' 1 in
  translate (d_map st2) va = Some (p' * 4096 + va mod 4096) /\ (virt_to_mach st2 va).1 = Ok (p * 4096 + va mod 4096).
Proof.
  intros st va ht p p' v Hc Hn Hm -> Hp st1 st2. unfold st2, st1, virt_to_mach, identify. rewrite Hc, Hn, page_div, Hm.
  cbn [fst snd other_map other_unmap d_map d_cache map_pages unmap_pages]. split.
  - unfold translate. by rewrite lookup_insert.
  - rewrite lookup_insert. cbn [fst]. unfold off_of. by rewrite page_frame.
Qed.
Print Assumptions C71_stale_refuted.

(** An address without a mapping ends the program. *)
Theorem C71_unmapped_refuted : forall q st va,
  driver q st -> translate (d_map st) va = None -> (virt_to_mach st va).1 = Panic.
Proof.
  intros q st va D H. apply dinv_ok in D. unfold translate in H. destruct (d_map st !! (va / 4096)) as [p|] eqn:E; [done|].
  unfold virt_to_mach, identify. rewrite page_div, E. destruct (d_cache st) as [ht|] eqn:Eh; [|done].
  destruct (ht !! page_of va) as [pa|] eqn:Ec; [|done]. destruct (D ht _ _ Eh Ec) as (_ & _ & p' & E' & _).
  rewrite page_div in E'. congruence.
Qed.
Print Assumptions C71_unmapped_refuted.

(** The alignment asked for is ignored. *)
Theorem C71_alignment_refuted : exists st va pa,
  dmalloc (mkD pgs_init ∅ None) 0 4096 8192 (Some 12288) = (Ok (va, pa), st) /\ pa mod 8192 <> 0.
Proof.
  exists (dmalloc (mkD pgs_init ∅ None) 0 4096 8192 (Some 12288)).2, 549755813888, 12288. split; [|by vm_compute].
  apply injective_projections; [|done]. vm_compute. reflexivity.
Qed.
Print Assumptions C71_alignment_refuted.

(** Freed DMA memory cannot be used again: a program makes at most 2^27 allocations on a core, even if it frees each. *)
Fixpoint alloc_free (core : nat) (l : list (N * N * N)) (st : dst) : bool :=
  match l with
  | [] => true
  | (size, align, pa) :: l =>
      match dmalloc st core size align (Some pa) with
      | (Ok (va, _), st') => alloc_free core l (dmafree st' va size)
      | _ => false
      end
  end.
Theorem C71_free_refuted : forall core l,
  alloc_free core l (mkD pgs_init ∅ (Some ∅)) = true -> N.of_nat (length l) <= 2 ^ 27.
Proof.
  intros core l H.
  assert (G : forall l st, alloc_free core l st = true -> l <> [] ->
    pg_sbrk (d_pg st) core + N.of_nat (length l - 1) * 4096 < pg_limit core).
  { clear. induction l as [|[[size align] pa] l IH]; intros st H Hne; [done|]. cbn [alloc_free] in H.
    destruct (dmalloc st core size align (Some pa)) as [[[va pa']|e|] st'] eqn:E; try done. unfold dmafree in H.
    destruct (dmalloc_ok _ _ _ _ _ _ _ _ E) as (_ & _ & _ & _ & H5 & H6 & H7 & _).
    assert (4096 <= dma_size size) by (destruct (dma_size_cases size) as [-> | ->]; lia).
    destruct l as [|y l]; [cbn; lia|]. specialize (IH st' H ltac:(done)). rewrite H7 in IH. cbn [length] in *. lia. }
  destruct l as [|y l']; [cbn; lia|]. specialize (G _ _ H ltac:(done)). cbn [d_pg pgs_init pg_sbrk] in G.
  unfold pg_start, pg_limit in G. change HEAP_REGION with 549755813888 in G. change HEAP_START with 549755813888 in G.
  change (2 ^ 27) with 134217728. lia.
Qed.
Print Assumptions C71_free_refuted.

(** Two processes have a lock each: one reads the register the other selected. *)
Theorem C71_two_processes_refuted : exists l cfg,
  (forall x, In x l -> pci_ok (cop_reg x.2)) /\ ~ in_order cfg (p_log (pci_run l (pci0 cfg))).
Proof.
  exists (let a := CRead (0, 1, 0, 0) in let b := CRead (0, 2, 0, 0) in
          [(0, 0, a); (0, 0, a); (0, 0, a); (1, 0, b); (1, 0, b); (1, 0, b); (0, 0, a)]%nat),
    (fun t => let '(_, d, _, _) := t in d).
  split.
  - intros x Hx. cbn in Hx. repeat destruct Hx as [<-|Hx]; try done; repeat split; done.
  - vm_compute. intros [H _]. done.
Qed.
Print Assumptions C71_two_processes_refuted.

(** Two devices: the interrupt of the first runs the handler of the second. *)
Theorem C71_two_devices_refuted : forall b1 d1 f1 v1 c1 h1 a1 b2 d2 f2 v2 c2 h2 a2,
  irq_arrives (v1 + 32) (irq_establish c2 (Some h2) a2 (irq_map b2 d2 f2 v2 c2 (irq_establish c1 (Some h1) a1 (irq_map b1 d1 f1 v1 c1 irqs0)))) =
  Ok (Some (h2, a2)).
Proof. intros. unfold irq_arrives. rewrite decide_True; [done|]. cbn [irq_establish irq_map i_vecs irqs0]. set_solver. Qed.
Print Assumptions C71_two_devices_refuted.

(** An interrupt before the handler is there ends the program. *)
Theorem C71_early_interrupt_refuted : forall b d f v c, irq_arrives (v + 32) (irq_map b d f v c irqs0) = Panic.
Proof. intros. unfold irq_arrives. rewrite decide_True; [done|]. by left. Qed.
Print Assumptions C71_early_interrupt_refuted.

(** No interrupt arrives on another core than 0; lines 1, 2 and those above 15 are never enabled; those of a further I/O APIC
    arrive with the vector of another line. *)
Theorem C71_route_refuted : forall aps line core,
  (forall l v c, In (l, (v, c)) (establish_route aps line core) -> c = 0 /\ l < 16) /\
  (forall n v c l, In (l, (v, c)) (establish_route [(0, n)] line core) -> l <> 1 /\ l <> 2) /\
  In (11, (35, 0)) (establish_route [(8, 8)] 11 0).
Proof.
  intros aps line core. split; [|split].
  - intros l v c H. apply in_flat_map in H as (ap & _ & H). apply in_map_iff in H as (i & [= <- <- <-] & H).
    apply filter_In in H as [_ H]. split; [done|]. apply andb_prop in H as [H _]. apply andb_prop in H as [H _]. by apply N.ltb_lt in H.
  - intros n v c l H. apply in_flat_map in H as (ap & Hap & H). apply in_map_iff in H as (i & [= <- <- <-] & H).
    apply filter_In in H as [_ H]. destruct Hap as [<-|[]]. cbn [fst] in *. rewrite N.add_0_l in *.
    apply andb_prop in H as [H H1]. apply andb_prop in H as [_ H2].
    destruct (N.eqb_spec i 1); [done|]. destruct (N.eqb_spec i 2); [done|]. done.
  - vm_compute. tauto.
Qed.
Print Assumptions C71_route_refuted.

(** ** The hypotheses are met *)
Definition dex0 : dst := iospace_init (other_map (mkD pgs_init ∅ None) 1 77 1).
Example C71_hyps_met :
  driver ∅ dex0 /\ translate (d_map dex0) 4100 = Some 315396 /\
  (exists va st', dmalloc dex0 3 9000 4096 (Some 4194304) = (Ok (va, 4194304), st') /\ unused (d_map dex0) va (dma_size 9000)) /\
  let w := CWrite (0, 3, 0, 16) 5 in let r := CRead (0, 3, 0, 16) in
  p_log (pci_run [(0, 0, w); (0, 0, r); (0, 1, r); (0, 0, r); (0, 1, r); (0, 0, r); (0, 1, r); (0, 1, r); (0, 1, r)]%nat (pci0 (fun _ => 9))) =
    [(w, 5); (r, 5)].
Proof.
  split. { apply dr_init, dr_map; [apply dr_start|]. intros a Ha. unfold translate. cbn [d_map]. by rewrite lookup_empty. }
  split; [by vm_compute|]. split; [|by vm_compute].
  exists 2199023255552. exists (dmalloc dex0 3 9000 4096 (Some 4194304)).2. split; [apply injective_projections; [vm_compute; reflexivity|done]|].
  intros a Ha. unfold translate, dex0. cbn [iospace_init other_map d_map map_pages]. rewrite lookup_insert_ne; [by rewrite lookup_empty|].
  intros Hn. pose proof (N.div_mod a 4096 ltac:(lia)) as D. pose proof (mod4 a). rewrite <- Hn in D. lia.
Qed.
