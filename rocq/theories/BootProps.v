(** C45, C46: taking over physical memory at boot. *)
From Verif Require Import Base MemModel MemSpec MemProofs BootModel BootSpec BootProofs.
Open Scope N_scope.

Lemma boot_inv dbg rs topo early gm : boot dbg rs topo = Ok (early, gm) ->
  exists mem ann, process_uefi dbg rs = Ok (early, mem) /\ identify_numa topo mem = Ok ann /\ gm_new dbg ann = Ok gm.
Proof.
  unfold boot. destruct (process_uefi dbg rs) as [[e mem]|?|] eqn:E1; try done.
  destruct (identify_numa topo mem) as [ann|?|] eqn:E2; try done.
  destruct (gm_new dbg ann) as [g|?|] eqn:E3; try done. intros [= <- <-]. eauto 10.
Qed.

Lemma early_ok dbg f : aligned f -> f_size f = 33554432 ->
  exists c, mc_with_frame dbg EBP ELP 0 f = Ok c /\ mc_node c = 0 /\ forall a, cov (frames c) a = cov [f] a.
Proof.
  intros Hf Hs. destruct (mc_with_frame_spec dbg EBP ELP 0 f) as (c & Ec & _ & _ & Hn & _); [|done|].
  - right. right. unfold base_pages. rewrite Hs. done.
  - exists c. split; [done|]. split; [done|]. by apply (early_exact dbg).
Qed.

(** ** C45 *)
(** Whatever the firmware's memory map and the topology: if the machine boots, then
    all pages in the early cache, in the nodes' caches and in the pages that hold
    the caches are pairwise disjoint, and consist of memory the firmware offered.
    The map's regions do not overlap each other, nor do the topology's ranges. *)
Theorem C45_boot_gives_no_byte_twice dbg rs topo early gm :
  boot dbg rs topo = Ok (early, gm) ->
  pairwise_disjoint (usable rs) -> pairwise_disjoint (topo_frames topo) ->
  pairwise_disjoint (all_frames early gm) /\
  (forall f a, f ∈ all_frames early gm -> covers f a -> exists g, g ∈ usable rs /\ covers g a).
Proof.
  intros E Hu Ht. destruct (boot_inv _ _ _ _ _ E) as (mem & ann & E1 & E2 & E3).
  destruct (process_uefi_spec _ _ _ _ E1) as (Hal & H0 & _ & _ & _ & Hc).
  destruct (identify_spec _ _ _ E2 Hal H0 Ht) as (Hal2 & Hc2 & _).
  destruct (gm_new_spec _ _ _ E3 Hal2) as (_ & _ & _ & _ & _ & _ & Hc3 & _).
  assert (Hle : forall a, (cov (all_frames early gm) a <= cov (usable rs) a)%nat).
  { intros a. unfold all_frames. rewrite cov_app. specialize (Hc a). specialize (Hc2 a).
    specialize (Hc3 (fun _ => true) a). rewrite !covP_all in Hc3. lia. }
  split.
  - apply cov_disjoint. intros a. pose proof (proj2 (cov_disjoint _) Hu a). specialize (Hle a). lia.
  - intros f a Hf Hfa.
    destruct (decide (Exists (fun g => covers g a) (usable rs))) as [He|He].
    { apply Exists_exists in He as (g & Hg & Hga). eauto. }
    exfalso. assert (cov (usable rs) a = 0%nat) as Hz.
    { apply cov_zero_elem. intros g Hg Hga. apply He, Exists_exists. eauto. }
    specialize (Hle a). apply (proj1 (cov_zero_elem (all_frames early gm) a) ltac:(lia) f Hf Hfa).
Qed.
Print Assumptions C45_boot_gives_no_byte_twice.

(** There is one cache and one early cache per node, and every page in them lies in
    memory that the topology places on that node. *)
Theorem C45_node_memory_is_local dbg rs topo early gm i :
  boot dbg rs topo = Ok (early, gm) -> pairwise_disjoint (topo_frames topo) ->
  length (gm_emem gm) = length (gm_caches gm) /\ length (gm_self gm) = length (gm_caches gm) /\
  (forall c, gm_caches gm !! i = Some c \/ gm_emem gm !! i = Some c ->
     mc_node c = N.of_nat i /\ forall f a, f ∈ frames c -> covers f a -> on_node topo (N.of_nat i) a) /\
  (forall f, gm_self gm !! i = Some f -> f_size f = 2097152 /\ forall a, covers f a -> on_node topo (N.of_nat i) a).
Proof.
  intros E Ht. destruct (boot_inv _ _ _ _ _ E) as (mem & ann & E1 & E2 & E3).
  destruct (process_uefi_spec _ _ _ _ E1) as (Hal & H0 & _).
  destruct (identify_spec _ _ _ E2 Hal H0 Ht) as (Hal2 & _ & Hon).
  destruct (gm_new_spec _ _ _ E3 Hal2) as (L1 & L2 & L3 & N1 & N2 & N3 & Hc3 & _).
  assert (Hpos : forall f a, f ∈ node_frames gm -> f_aff f = N.of_nat i -> covers f a -> on_node topo (N.of_nat i) a).
  { intros f a Hf Hfi Hfa. apply Hon. specialize (Hc3 (isn (N.of_nat i)) a).
    change (fun m : N => bool_decide (m = N.of_nat i)) with (isn (N.of_nat i)).
    assert (0 < covP (isn (N.of_nat i)) (node_frames gm) a)%nat; [|lia].
    unfold covP. destruct (cov (fl (isn (N.of_nat i)) (node_frames gm)) a) eqn:Hz; [|lia].
    exfalso. apply (proj1 (cov_zero_elem _ _) Hz f); [|done].
    apply elem_of_list_filter. split; [|done]. by apply bool_decide_eq_true. }
  split; [lia|]. split; [lia|]. split.
  - intros c Hc.
    assert (Hn : mc_node c = N.of_nat i) by (destruct Hc as [Hc|Hc]; [by apply N2|by apply N1]).
    split; [done|]. intros f a Hf Hfa. apply (Hpos f a); [| |done].
    + unfold node_frames. rewrite !elem_of_app.
      destruct Hc as [Hc|Hc]; [right; right|left]; apply elem_of_list_In, in_concat;
        exists (frames c); (split; [|by apply elem_of_list_In]); apply in_map, elem_of_list_In; by eapply elem_of_list_lookup_2.
    + pose proof (frames_uniform c) as Hu. rewrite stdpp.list.Forall_forall in Hu. by rewrite (Hu f Hf).
  - intros f Hf. destruct (N3 _ _ Hf) as [Ha Hs]. split; [done|]. intros a Hfa. apply (Hpos f a); [|done|done].
    unfold node_frames. rewrite !elem_of_app. right. left. by eapply elem_of_list_lookup_2.
Qed.
Print Assumptions C45_node_memory_is_local.

(** A machine with two nodes of 64 MiB, the second below a reserved region. *)
Definition ex_map : list region :=
  [mkRegion true 4096 150; mkRegion true 1048576 16384; mkRegion false 68157440 100; mkRegion true 134217728 16384].
Definition ex_topo : list node :=
  [mkNode 0 [(0, 134217728, false)]; mkNode 1 [(134217728, 268435456, false); (4294967296, 8589934592, true)]].
Lemma ex_uefi dbg : exists early, mc_node early = 0 /\
  process_uefi dbg ex_map = Ok (early, [mkFrame 34603008 33554432 0; mkFrame 134217728 67108864 0]) /\
  forall a, cov (frames early) a = cov [mkFrame 1048576 33554432 0] a.
Proof.
  destruct (early_ok dbg (mkFrame 1048576 33554432 0)) as (c & Ec & Hn & Hc); [split; done|done|].
  exists c. split; [done|]. split; [|done]. cbv -[mc_with_frame EBP ELP]. rewrite Ec. reflexivity.
Qed.
Lemma ex_usable : usable ex_map = [mkFrame 1048576 67108864 0; mkFrame 134217728 67108864 0].
Proof. vm_compute. reflexivity. Qed.
Lemma ex_numa : identify_numa ex_topo [mkFrame 34603008 33554432 0; mkFrame 134217728 67108864 0] =
  Ok [mkFrame 34603008 33554432 0; mkFrame 134217728 67108864 1].
Proof. vm_compute. reflexivity. Qed.
Lemma ex_gm dbg : exists gm, gm_new dbg [mkFrame 34603008 33554432 0; mkFrame 134217728 67108864 1] = Ok gm /\
  length (gm_caches gm) = 2%nat.
Proof.
  assert (Hal : Forall aligned [mkFrame 34603008 33554432 0; mkFrame 134217728 67108864 1]) by (repeat constructor).
  destruct (gm_new_ok dbg [mkFrame 34603008 33554432 0; mkFrame 134217728 67108864 1]) as [gm E]; [done|done|done|done| | |].
  - intros i Hi. change (i <= 1) in Hi. assert (i = 0 \/ i = 1) as [-> | ->] by lia.
    + eexists. split; [by left|done].
    + eexists. split; [by right; left|done].
  - repeat constructor; done.
  - exists gm. split; [done|]. destruct (gm_new_spec _ _ _ E Hal) as (_ & L & _).
    change (N.of_nat (length (gm_caches gm)) = 2) in L. lia.
Qed.
Example C45_hyps_met :
  pairwise_disjoint (usable ex_map) /\ pairwise_disjoint (topo_frames ex_topo) /\
  exists early gm, boot true ex_map ex_topo = Ok (early, gm) /\ length (gm_caches gm) = 2%nat.
Proof.
  split; [|split].
  - rewrite ex_usable. apply cov_disjoint. intros a. cbn. unfold covers. cbn. repeat case_decide; lia.
  - apply cov_disjoint. intros a. cbn. unfold covers. cbn. repeat case_decide; lia.
  - destruct (ex_uefi true) as (early & _ & E1 & _). destruct (ex_gm true) as (gm & E2 & L).
    exists early, gm. split; [|done]. unfold boot. by rewrite E1, ex_numa, E2.
Qed.

(** ** C46 *)
(** Setting up the boot core's early memory and assigning NUMA nodes is lossless:
    what the early cache holds and what is passed on is exactly what the firmware
    offered, each byte as often as in the firmware's map. *)
Theorem C46_early_stages_lossless dbg rs topo early mem ann :
  process_uefi dbg rs = Ok (early, mem) -> identify_numa topo mem = Ok ann ->
  pairwise_disjoint (topo_frames topo) ->
  forall a, cov (frames early ++ ann) a = cov (usable rs) a.
Proof.
  intros E1 E2 Ht a. destruct (process_uefi_spec _ _ _ _ E1) as (Hal & H0 & _ & _ & _ & Hc).
  destruct (identify_spec _ _ _ E2 Hal H0 Ht) as (_ & Hc2 & _).
  rewrite cov_app, Hc2. apply Hc.
Qed.
Print Assumptions C46_early_stages_lossless.

(** If the usable memory is at most 131071 base pages (just under 512 MiB), boot
    loses no more than 195 base pages per node.  Missing: memory beyond that, see
    [C46_large_machine_loses_refuted], and the 195 pages, see
    [C46_boot_loses_memory_refuted]. *)
Theorem C46_boot_loss_bounded_partial dbg rs topo early gm :
  boot dbg rs topo = Ok (early, gm) -> pairwise_disjoint (topo_frames topo) ->
  total_size (usable rs) <= 131071 * 4096 ->
  total_size (usable rs) <= total_size (all_frames early gm) + N.of_nat (length (gm_caches gm)) * (195 * 4096).
Proof.
  intros E Ht Hs. destruct (boot_inv _ _ _ _ _ E) as (mem & ann & E1 & E2 & E3).
  destruct (process_uefi_spec _ _ _ _ E1) as (Hal & H0 & _ & _ & _ & Hc).
  destruct (identify_spec _ _ _ E2 Hal H0 Ht) as (Hal2 & Hc2 & _).
  destruct (gm_new_spec _ _ _ E3 Hal2) as (_ & L2 & _ & _ & _ & _ & _ & _ & _ & _ & _ & Hb).
  assert (Hann : total_size (frames early) + total_size ann = total_size (usable rs)).
  { rewrite <- total_size_app. apply total_size_eq. intros a. rewrite cov_app, Hc2. apply Hc. }
  rewrite <- Hann. unfold all_frames. rewrite total_size_app, L2.
  assert (total_size ann <= total_size (node_frames gm) + (max_aff ann + 1) * (195 * 4096)); [|lia].
  apply Hb. intros m. rewrite node_bytes_fl. transitivity (total_size ann); [|unfold NODE_MAX; lia].
  apply total_size_le. intros a. change (covP (isn m) ann a <= cov ann a)%nat.
  rewrite <- covP_all. rewrite (covP_split (fun _ => true) (isn m) ann a). cbn.
  change (fun n : N => isn m n) with (isn m). lia.
Qed.
Print Assumptions C46_boot_loss_bounded_partial.

(** The same for one global memory with any number of nodes, when every node has at
    most 131071 base pages. *)
Theorem C46_node_loss_bounded_partial dbg mem gm :
  gm_new dbg mem = Ok gm -> Forall aligned mem ->
  (forall n, node_bytes n mem <= 131071 * 4096) ->
  total_size mem <= total_size (node_frames gm) + N.of_nat (length (gm_caches gm)) * (195 * 4096).
Proof.
  intros E Hal Hn. destruct (gm_new_spec _ _ _ E Hal) as (_ & L2 & _ & _ & _ & _ & _ & _ & _ & _ & _ & Hb).
  rewrite L2. by apply Hb.
Qed.
Print Assumptions C46_node_loss_bounded_partial.

(** A machine without NUMA information boots if its map is page aligned, lists at
    most 64 usable regions, and one of them is larger than 36.25 MiB. *)
Theorem C46_boot_succeeds_partial dbg rs :
  Forall (fun r => rg_conv r = true -> rg_start r mod 4096 = 0) rs ->
  (length (usable rs) <= 64)%nat ->
  (exists f, f ∈ usable rs /\ 38010880 < f_size f) ->
  exists early gm, boot dbg rs [] = Ok (early, gm).
Proof.
  intros H1 H2 H3. destruct (boot_ok_no_topology dbg rs H1 H2 H3) as (early & gm & mem & E & _). eauto.
Qed.
Print Assumptions C46_boot_succeeds_partial.

(** A machine with NUMA nodes: the global memory is set up if the frames are sorted
    by node, there are at most 12 nodes, and every node has a frame larger than
    4.25 MiB. *)
Theorem C46_global_memory_succeeds_partial dbg mem :
  mem <> [] -> Forall aligned mem -> sorted_aff mem = true ->
  (forall i, i <= max_aff mem -> exists f, f ∈ mem /\ f_aff f = i /\ 4456448 < f_size f) ->
  max_aff mem < 12 -> Forall (fun f => f_base f <> 0) mem ->
  exists gm, gm_new dbg mem = Ok gm /\ N.of_nat (length (gm_caches gm)) = max_aff mem + 1.
Proof.
  intros Hne Hal Hs Hb Hm H0. destruct (gm_new_ok dbg mem Hne Hal Hs Hm Hb H0) as [gm E].
  exists gm. split; [done|]. by destruct (gm_new_spec _ _ _ E Hal) as (_ & L2 & _).
Qed.
Print Assumptions C46_global_memory_succeeds_partial.

Example C46_partial_hyps_met :
  pairwise_disjoint (topo_frames ex_topo) /\ total_size (usable ex_map) = 134217728 /\
  Forall (fun r => rg_conv r = true -> rg_start r mod 4096 = 0) ex_map /\
  (exists f, f ∈ usable ex_map /\ 38010880 < f_size f) /\
  exists early mem ann, process_uefi true ex_map = Ok (early, mem) /\ identify_numa ex_topo mem = Ok ann /\
    ann = [mkFrame 34603008 33554432 0; mkFrame 134217728 67108864 1] /\ sorted_aff ann = true /\ max_aff ann = 1.
Proof.
  split; [apply C45_hyps_met|]. split; [rewrite ex_usable; done|]. split; [repeat constructor|].
  split; [rewrite ex_usable; eexists; split; [left|done]|].
  destruct (ex_uefi true) as (early & _ & E1 & _). eexists early, _, _. split; [exact E1|].
  split; [apply ex_numa|]. split; [reflexivity|]. split; vm_compute; reflexivity.
Qed.

(** Every machine loses memory: of the 4.25 MiB set aside for a node's early cache,
    195 base pages fit nowhere.  Here all machines with a single usable region that
    starts at a multiple of 2 MiB. *)
Theorem C46_boot_loses_memory_refuted dbg start pages :
  1048576 <= start -> start mod 2097152 = 0 -> 9280 < pages <= 131071 ->
  exists early gm, boot dbg [mkRegion true start pages] [] = Ok (early, gm) /\
    pages * 4096 = total_size (all_frames early gm) + 195 * 4096 /\
    ~ (forall a, start <= a < start + pages * 4096 -> exists f, f ∈ all_frames early gm /\ covers f a).
Proof.
  intros H1 Hb Hp. set (rs := [mkRegion true start pages]).
  assert (Hu : usable rs = [mkFrame start (pages * 4096) 0]).
  { unfold usable, rs. cbn [flat_map rg_conv rg_start rg_pages]. by rewrite decide_True. }
  assert (Hst : start mod 4096 = 0).
  { rewrite (N.div_mod start 2097152), Hb by done. replace (2097152 * (start / 2097152) + 0) with ((start / 2097152 * 512) * 4096) by lia.
    by apply N.mod_mul. }
  destruct (boot_ok_no_topology dbg rs) as (early & gm & mem & E & E1 & E3 & _).
  { constructor; [by intros _|constructor]. }
  { rewrite Hu. cbn. lia. }
  { rewrite Hu. eexists. split; [by left|]. cbn [f_size]. lia. }
  assert (Ht : total_size (usable rs) = pages * 4096) by (rewrite Hu; cbn [total_size foldr f_size]; lia).
  destruct (process_uefi_spec _ _ _ _ E1) as (Hal & H0 & _ & _ & _ & Hc).
  assert (Hsum : total_size (frames early) + total_size mem = total_size (usable rs)).
  { rewrite <- total_size_app. apply total_size_eq. intros a. rewrite cov_app. apply Hc. }
  (* the region minus 32 MiB *)
  destruct (early_ok dbg (mkFrame start 33554432 0)) as (c & Ec & _ & _); [by split|done|].
  assert (Em : process_uefi dbg rs = Ok (c, [mkFrame (start + 33554432) (pages * 4096 - 33554432) 0])).
  { unfold process_uefi, rs. cbn [uefi_loop rg_conv rg_start rg_pages]. unfold frame_new at 1.
    rewrite decide_True by (split; [done|by apply N.mod_mul]). unfold ONE_MIB. rewrite decide_True by done. cbn [f_size].
    change BASE_PAGE with 4096. change EARLY_CAPACITY with 33554432.
    rewrite bool_decide_eq_true_2 by lia. cbn [andb]. rewrite bool_decide_eq_false_2 by (by intros [? ?]). cbn [negb].
    unfold split_at. rewrite decide_True by done. cbn [f_size f_base f_aff]. rewrite decide_False by lia.
    unfold frame_new. rewrite decide_True by done.
    rewrite decide_True; [|change BASE_PAGE with 4096].
    2:{ split; [rewrite N.add_mod by done; by rewrite Hst|].
        replace (pages * 4096 - 33554432) with ((pages - 8192) * 4096) by lia. by apply N.mod_mul. }
    rewrite Ec. rewrite decide_False by (unfold frame_empty; intros [= Hx _]; lia). done. }
  rewrite E1 in Em. injection Em as -> ->.
  set (f := mkFrame (start + 33554432) (pages * 4096 - 33554432) 0) in *.
  inversion Hal as [|? ? Hf _]; subst.
  assert (Hfs : f_size f + 33554432 = pages * 4096) by (cbn [f f_size]; lia).
  assert (Hup : total_size (node_frames gm) + 195 * 4096 <= f_size f).
  { apply (gm_new_loses dbg f gm E3); [done| |done|].
    - cbn [f f_base]. rewrite N.add_mod by done. by rewrite Hb.
    - lia. }
  destruct (gm_new_spec _ _ _ E3 Hal) as (_ & L2 & _ & _ & _ & _ & Hcc & _ & _ & _ & _ & Hl).
  change (max_aff [f]) with 0 in *.
  assert (Hdn : total_size [f] <= total_size (node_frames gm) + (0 + 1) * (195 * 4096)).
  { apply Hl. intros m. unfold node_bytes. rewrite filter_cons, filter_nil. unfold NODE_MAX.
    case_decide; rewrite ?total_size_cons; change (total_size []) with 0; lia. }
  rewrite total_size_cons in *. change (total_size []) with 0 in *.
  exists c, gm. split; [done|].
  assert (Heq : pages * 4096 = total_size (all_frames c gm) + 195 * 4096).
  { unfold all_frames. rewrite total_size_app. lia. }
  split; [done|]. intros Hall.
  assert (total_size (usable rs) <= total_size (all_frames c gm)); [|lia].
  apply total_size_le. intros a. rewrite Hu. cbn [cov]. destruct (decide _) as [Ha|]; [|lia].
  destruct (Hall a Ha) as (g & Hg & Hga).
  destruct (cov (all_frames c gm) a) eqn:Hz; [|lia]. exfalso. by eapply (proj1 (cov_zero_elem _ _) Hz).
Qed.
Print Assumptions C46_boot_loses_memory_refuted.

(** A machine without NUMA information keeps at most 87% of its memory plus a
    constant (549 MiB, and 2 MiB per region): a node's cache turns 87% of a region
    into large pages and has room for 131071 base pages only. *)
Theorem C46_one_node_upper_bound dbg rs early gm :
  boot dbg rs [] = Ok (early, gm) ->
  100 * total_size (all_frames early gm) <=
    87 * total_size (usable rs) + 100 * (575656960 + 2097152 * N.of_nat (length (usable rs))).
Proof.
  intros E. destruct (boot_inv _ _ _ _ _ E) as (mem & ann & E1 & E2 & E3). cbn in E2. injection E2 as <-.
  destruct (process_uefi_spec _ _ _ _ E1) as (Hal & H0 & _ & Hfit & _ & Hc).
  destruct (zero_aff_max _ H0) as [Hm _].
  pose proof (gm_new_one_node _ _ _ E3 Hal Hm) as Hb.
  assert (Hsum : total_size (frames early) + total_size mem = total_size (usable rs)).
  { rewrite <- total_size_app. apply total_size_eq. intros a. rewrite cov_app. apply Hc. }
  assert (Hlen : (length mem <= length (usable rs))%nat).
  { clear -E1. unfold process_uefi in E1. destruct (uefi_loop dbg rs None []) as [[[em|] acc]| |] eqn:E; try done.
    injection E1 as <- <-. apply uefi_loop_len in E. cbn [length] in E. lia. }
  unfold all_frames. rewrite total_size_app. destruct Hfit as [F1 F2].
  assert (total_size (frames early) <= 33554432).
  { rewrite total_frames. unfold EBP, ELP in *. lia. }
  unfold NODE_MAX in *. lia.
Qed.
Print Assumptions C46_one_node_upper_bound.

(** A machine with one usable region of 64 GiB boots, and 7.7 GiB of it are gone. *)
Theorem C46_large_machine_loses_refuted :
  exists rs early gm, boot true rs [] = Ok (early, gm) /\
    total_size (usable rs) = 64 * 1073741824 /\
    total_size (all_frames early gm) + 8300000000 <= total_size (usable rs).
Proof.
  set (rs := [mkRegion true 4294967296 16777216]).
  assert (Hu : usable rs = [mkFrame 4294967296 68719476736 0]) by (vm_compute; reflexivity).
  destruct (C46_boot_succeeds_partial true rs) as (early & gm & E).
  - repeat constructor.
  - rewrite Hu. cbn. lia.
  - rewrite Hu. eexists. split; [by left|done].
  - exists rs, early, gm. split; [done|]. split; [rewrite Hu; done|].
    pose proof (C46_one_node_upper_bound _ _ _ _ E) as Hb. rewrite Hu in *. cbn [length] in Hb.
    change (total_size [mkFrame 4294967296 68719476736 0]) with 68719476736 in *. lia.
Qed.
Print Assumptions C46_large_machine_loses_refuted.

(** Two nodes of 64 MiB each, but node 1 is the one at lower addresses: the kernel
    panics, since the frames come in address order and nothing sorts them by node. *)
Theorem C46_nodes_out_of_order_panics_refuted :
  exists rs topo, pairwise_disjoint (usable rs) /\ pairwise_disjoint (topo_frames topo) /\
    (forall f a, f ∈ usable rs -> covers f a -> exists n, on_node topo n a) /\
    boot true rs topo = Panic /\ boot false rs topo = Panic /\
    is_ok (boot true rs (reverse (map (fun nd => mkNode (1 - nd_id nd) (nd_mem nd)) topo))) = true.
Proof.
  exists [mkRegion true 1048576 16384; mkRegion true 134217728 16384],
    [mkNode 0 [(134217728, 268435456, false)]; mkNode 1 [(0, 134217728, false)]].
  assert (Hu : usable [mkRegion true 1048576 16384; mkRegion true 134217728 16384]
    = [mkFrame 1048576 67108864 0; mkFrame 134217728 67108864 0]) by (vm_compute; reflexivity).
  rewrite Hu.
  split; [apply cov_disjoint; intros a; cbn; unfold covers; cbn; repeat case_decide; lia|].
  split; [apply cov_disjoint; intros a; cbn; unfold covers; cbn; repeat case_decide; lia|].
  split.
  { intros f a Hf Ha. cbn [on_node topo_frames flat_map nd_mem nd_id app].
    repeat (apply elem_of_cons in Hf as [->|Hf]); [| |by apply elem_of_nil in Hf]; unfold covers in Ha; cbn in Ha.
    - exists 1, (mkFrame 0 134217728 1). split; [by right; left|]. split; [done|]. unfold covers. cbn. lia.
    - exists 0, (mkFrame 134217728 134217728 0). split; [by left|]. split; [done|]. unfold covers. cbn. lia. }
  assert (Hp : forall dbg, exists early,
    process_uefi dbg [mkRegion true 1048576 16384; mkRegion true 134217728 16384] =
    Ok (early, [mkFrame 34603008 33554432 0; mkFrame 134217728 67108864 0])).
  { intros dbg. destruct (early_ok dbg (mkFrame 1048576 33554432 0)) as (c & Ec & _ & _); [split; done|done|].
    exists c. cbv -[mc_with_frame EBP ELP]. rewrite Ec. reflexivity. }
  assert (Hn : identify_numa [mkNode 0 [(134217728, 268435456, false)]; mkNode 1 [(0, 134217728, false)]]
    [mkFrame 34603008 33554432 0; mkFrame 134217728 67108864 0] =
    Ok [mkFrame 34603008 33554432 1; mkFrame 134217728 67108864 0]) by (vm_compute; reflexivity).
  destruct (Hp true) as [e1 E1], (Hp false) as [e2 E2].
  split; [unfold boot; rewrite E1, Hn; done|]. split; [unfold boot; rewrite E2, Hn; done|].
  unfold boot. rewrite E1. destruct (ex_gm true) as (gm & E3 & _).
  assert (identify_numa (reverse (map (fun nd => mkNode (1 - nd_id nd) (nd_mem nd))
    [mkNode 0 [(134217728, 268435456, false)]; mkNode 1 [(0, 134217728, false)]]))
    [mkFrame 34603008 33554432 0; mkFrame 134217728 67108864 0] =
    Ok [mkFrame 34603008 33554432 0; mkFrame 134217728 67108864 1]) as -> by (vm_compute; reflexivity).
  by rewrite E3.
Qed.
Print Assumptions C46_nodes_out_of_order_panics_refuted.

(** The boot core's early memory is labelled node 0 wherever it is: here node 0 has
    20 MiB, so the early memory is cut from node 1. *)
Theorem C46_early_memory_mislabelled_refuted :
  exists rs topo early gm, pairwise_disjoint (usable rs) /\ pairwise_disjoint (topo_frames topo) /\
    boot true rs topo = Ok (early, gm) /\ mc_node early = 0 /\ frames early <> [] /\
    forall f a, f ∈ frames early -> covers f a -> on_node topo 1 a /\ ~ on_node topo 0 a.
Proof.
  set (rs := [mkRegion true 1048576 5120; mkRegion true 134217728 16384]).
  set (topo := [mkNode 0 [(0, 134217728, false)]; mkNode 1 [(134217728, 268435456, false)]]).
  destruct (early_ok true (mkFrame 134217728 33554432 0)) as (c & Ec & Hn & Hc); [split; done|done|].
  assert (Hp : process_uefi true rs = Ok (c, [mkFrame 1048576 20971520 0; mkFrame 167772160 33554432 0])).
  { unfold rs. cbv -[mc_with_frame EBP ELP]. rewrite Ec. reflexivity. }
  set (ann := [mkFrame 1048576 20971520 0; mkFrame 167772160 33554432 1]).
  assert (Hi : identify_numa topo [mkFrame 1048576 20971520 0; mkFrame 167772160 33554432 0] = Ok ann) by (vm_compute; reflexivity).
  destruct (gm_new_ok true ann) as [gm E]; [done|repeat constructor|done|done| | |].
  { intros i Hle. change (i <= 1) in Hle. assert (i = 0 \/ i = 1) as [-> | ->] by lia.
    - exists (mkFrame 1048576 20971520 0). split; [left|]. split; [reflexivity|]. vm_compute. reflexivity.
    - exists (mkFrame 167772160 33554432 1). split; [right; left|]. split; [reflexivity|]. vm_compute. reflexivity. }
  { repeat constructor; discriminate. }
  exists rs, topo, c, gm.
  split.
  { assert (Hu : usable rs = [mkFrame 1048576 20971520 0; mkFrame 134217728 67108864 0]) by (vm_compute; reflexivity).
    rewrite Hu. apply cov_disjoint; intros a; cbn; unfold covers; cbn; repeat case_decide; lia. }
  split; [apply cov_disjoint; intros a; cbn; unfold covers; cbn; repeat case_decide; lia|].
  split; [unfold boot; by rewrite Hp, Hi, E|]. split; [done|].
  split.
  { intros Hz. specialize (Hc 134217728). rewrite Hz in Hc. cbn [cov] in Hc.
    rewrite decide_True in Hc by (unfold covers; cbn [f_base f_size]; lia). lia. }
  intros f a Hin Ha.
  assert (Hr : 134217728 <= a < 167772160).
  { specialize (Hc a). cbn [cov] in Hc. destruct (decide _) as [Hd|_] in Hc.
    - unfold covers in Hd. cbn [f_base f_size] in Hd. lia.
    - exfalso. assert (cov (frames c) a = 0%nat) as Hz by lia. by apply (proj1 (cov_zero_elem _ _) Hz f). }
  unfold topo. cbn [on_node topo_frames flat_map nd_mem nd_id app].
  split.
  - exists (mkFrame 134217728 134217728 1). split; [by right; left|]. split; [done|]. unfold covers. cbn. lia.
  - intros (g & Hg & Hg0 & Hga). repeat (apply elem_of_cons in Hg as [->|Hg]); [|done|by apply elem_of_nil in Hg].
    unfold covers in Hga. cbn in Hga. lia.
Qed.
Print Assumptions C46_early_memory_mislabelled_refuted.
