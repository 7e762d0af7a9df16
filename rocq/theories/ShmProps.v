(** C61: the machines of a rack agree on who owns which part of the shared memory. *)
From Verif Require Import Base QueueModel ShmModel ShmSpec ShmProofs.
From Coq Require Import Sorting.Sorted Sorting.Permutation.

(** Machines that find the same devices, in whatever order, give them the same numbers, if no two devices
    have the same device number. *)
Theorem C61_numbering_partial found found' devs : Permutation found found' -> NoDup (map sd_dev found) ->
  s_new found = Some devs -> s_new found' = Some devs /\ Permutation found devs.
Proof.
  intros P ND E. assert (E' : devs = foldr s_insert [] found) by (destruct found; [discriminate|by injection E]).
  assert (NE : found <> []) by (by destruct found). clear E. subst devs. split.
  - destruct found' as [|d l] eqn:Q; [by apply Permutation_sym, Permutation_nil in P|]. rewrite <- Q in *.
    unfold s_new. rewrite Q at 1. f_equal. symmetry. apply sorted_unique; try apply sort_sorted.
    + rewrite !sort_perm. done.
    + rewrite sort_perm. done.
  - by rewrite sort_perm.
Qed.
Print Assumptions C61_numbering_partial.
(** Otherwise (the same slot of two buses) the numbers depend on the order in which a machine finds them. *)
Theorem C61_numbering_refuted : exists found found' devs devs', Permutation found found' /\
  NoDup found /\ s_new found = Some devs /\ s_new found' = Some devs' /\
  option_map sd_base (devs !! 0) <> option_map sd_base (devs' !! 0).
Proof.
  set (a := Sd 0 4 4294967296 4194304). set (b := Sd 1 4 8589934592 4194304).
  exists [a; b], [b; a], [a; b], [b; a]. split; [apply perm_swap|]. split.
  { apply stdpp.list.NoDup_cons. split; [|apply stdpp.list.NoDup_singleton].
    intros H. apply elem_of_list_singleton in H. apply (f_equal sd_bus) in H. unfold a, b in H. cbn in H. discriminate H. }
  split; [vm_compute; reflexivity|]. split; [vm_compute; reflexivity|].
  vm_compute. intros H. discriminate H.
Qed.
Print Assumptions C61_numbering_refuted.

(** The memory of different machines does not overlap; asking for the owner of an address of machine [mid]'s
    memory gives [mid], unless a machine with a smaller number has a device that ends right there; the owner
    given is always the machine that has the address or one whose device ends there; no owner is given only
    for addresses that are no machine's memory. *)
Theorem C61_owner_partial s k x : shm_ok s ->
  (forall m m', mem_of s m x -> mem_of s m' x -> m = m') /\
  (forall mid, machine s mid -> mem_of s mid x -> (forall m, m < mid -> ~ ends_at s m x) ->
     s_index s (x + s_off k) k = Some (Some mid)) /\
  (forall mid, s_index s (x + s_off k) k = Some (Some mid) -> machine s mid /\ (mem_of s mid x \/ ends_at s mid x)) /\
  (s_index s (x + s_off k) k = Some None -> forall mid, machine s mid -> ~ mem_of s mid x) /\
  s_index s (x + s_off k) k <> None.
Proof.
  intros OK. pose proof (index_spec s k x OK) as H. split; [intros m m'; by apply mem_apart|].
  destruct (s_index s (x + s_off k) k) as [[o|]|]; [| |done].
  - destruct H as (H1 & H2 & H3). split.
    + intros mid M I E. do 2 f_equal. destruct (Nat.lt_trichotomy o mid) as [L|[L|L]]; [|done|].
      * destruct H2 as [A|A]; [by eapply mem_apart|]. by destruct (E o L).
      * by destruct (H3 mid L) as [? _].
    + split; [intros mid Q; injection Q as <-; done|]. done.
  - split; [intros mid M I; by destruct (H mid M)|]. split; [done|]. split; [|done].
    intros _ mid M. apply (H mid M).
Qed.
Print Assumptions C61_owner_partial.
(** Whether an address has the affinity of a given machine is answered exactly. *)
Theorem C61_affinity s k x mid : shm_ok s -> machine s mid ->
  s_is_addr_aff s (x + s_off k) (mid_to_shmem_affinity mid) k = Some true <-> mem_of s mid x.
Proof.
  intros OK M. destruct (aff_spec s k mid x OK M) as (b & E & H). unfold mid_to_shmem_affinity. rewrite E.
  rewrite <- H. split; [intros Q; by injection Q as ->|by intros ->].
Qed.
Print Assumptions C61_affinity.
(** Two devices next to one another: the first address of machine 1's memory is said to be machine 0's. *)
Theorem C61_owner_refuted : exists s x, shm_ok s /\ machine s 1 /\ mem_of s 1 x /\
  s_index s x false = Some (Some 0).
Proof.
  exists (Shm [Sd 0 4 4294967296 4194304; Sd 0 5 4299161600 4194304] 2 false), 4299161600%N.
  split; [|split; [unfold machine; cbn; lia|split; [|vm_compute; reflexivity]]].
  - split; cbn [sh_devs sh_machines].
    + intros i j d d' x Hi Hj. unfold in_dev.
      destruct i as [|[|i]]; destruct j as [|[|j]]; cbn in Hi, Hj; try done;
        injection Hi as <-; injection Hj as <-; cbn [sd_base sd_size]; try lia; done.
    + repeat constructor; cbn; lia.
    + cbn. lia.
  - eexists. split; [reflexivity|]. unfold in_dev. cbn [sd_base sd_size]. split; [lia|]. intros H. discriminate H.
Qed.
Print Assumptions C61_owner_refuted.

(** Freeing a block at kernel address [x + 2^46].  While the allocator of machine [mid]'s memory is selected,
    the block goes there exactly if it is machine [mid]'s memory, and is dropped otherwise.  While an allocator
    of the machine's own memory is selected, shared memory never gets there, and other memory does unless it
    starts where a shared device ends. *)
Theorem C61_free_partial s aff x : shm_ok s ->
  (forall mid, machine s mid -> aff = mid_to_shmem_affinity mid ->
     (mem_of s mid x /\ s_dealloc s aff (x + 2 ^ 46) = FTo aff) \/
     (~ mem_of s mid x /\ s_dealloc s aff (x + 2 ^ 46) = FLost)) /\
  (aff < 12 ->
     (s_dealloc s aff (x + 2 ^ 46) = FTo aff /\ forall mid, machine s mid -> ~ mem_of s mid x) \/
     (s_dealloc s aff (x + 2 ^ 46) = FLost /\ exists mid, machine s mid /\ (mem_of s mid x \/ ends_at s mid x))).
Proof.
  intros OK. change (2 ^ 46)%N with (s_off true).
  assert (P : s_is_addr s (x + s_off true) None false = Some false).
  { unfold s_is_addr. pose proof (index_spec s false (x + s_off true) OK) as H.
    replace (x + s_off true + s_off false)%N with (x + s_off true)%N in H by (cbn [s_off]; lia).
    destruct (s_index s (x + s_off true) false) as [[o|]|]; [|done|done]. exfalso.
    destruct H as (M & [A|A] & _).
    - destruct (mem_dev _ _ _ A) as (d & D & I).
      pose proof (proj1 (stdpp.list.Forall_lookup _ _) (so_low s OK) _ _ D) as [L1 L2]. unfold in_dev in I.
      cbn [s_off] in I. unfold SKB in I. lia.
    - destruct A as (d & D & I).
      pose proof (proj1 (stdpp.list.Forall_lookup _ _) (so_low s OK) _ _ D) as [L1 L2].
      cbn [s_off] in I. unfold SKB in I. lia. }
  unfold s_dealloc. rewrite P. split.
  - intros mid M ->. unfold is_shmem_affinity, mid_to_shmem_affinity.
    destruct (Nat.leb_spec MAXN (MAXN + mid)) as [C|C]; [|lia].
    destruct (aff_spec s true mid x OK M) as ([|] & E & H); rewrite E.
    + left. split; [by apply H|done].
    + right. split; [|done]. intros I. apply H in I. discriminate I.
  - intros L. unfold is_shmem_affinity. destruct (Nat.leb_spec MAXN aff) as [C|C]; [unfold MAXN in C; lia|].
    unfold s_is_addr. pose proof (index_spec s true x OK) as H.
    destruct (s_index s (x + s_off true) true) as [[o|]|]; [| |done].
    + right. split; [done|]. exists o. destruct H as (H1 & H2 & _). done.
    + left. split; [done|]. intros mid M. apply (H mid M).
Qed.
Print Assumptions C61_free_partial.
(** Memory of the machine itself that starts where the last shared device ends is lost when freed. *)
Theorem C61_free_refuted : exists s x, shm_ok s /\ (forall mid, ~ mem_of s mid x) /\
  s_dealloc s 0 (x + 2 ^ 46) = FLost.
Proof.
  exists (Shm [Sd 0 4 4294967296 4194304] 1 false), 4299161600%N.
  split; [|split; [|vm_compute; reflexivity]].
  - split; cbn [sh_devs sh_machines].
    + intros i j d d' x Hi Hj. destruct i; destruct j; cbn in Hi, Hj; done.
    + repeat constructor; cbn; lia.
    + cbn. lia.
  - intros mid (d & D & I & _). destruct mid; cbn in D; [|done]. injection D as <-. unfold in_dev in I. cbn [sd_base sd_size] in I. lia.
Qed.
Print Assumptions C61_free_refuted.

(** The allocator of the transport: whatever threads allocate from it, in whatever interleaving, the blocks
    handed out lie in its memory and do not overlap. *)
Theorem C61_blocks base size n l s bs : al_run (al_new base size n) l = Some (s, bs) ->
  (forall b x, b ∈ bs -> in_block b x -> in_block (base, size) x) /\
  (forall i j b b' x, bs !! i = Some b -> bs !! j = Some b' -> in_block b x -> in_block b' x -> i = j).
Proof.
  intros R. destruct (al_run_inv _ _ _ _ [] R (al_new_inv _ _ _)) as ((I1 & I2 & I3 & I4) & B1 & B2).
  cbn [app] in *. cbn in B1, B2. rewrite B1, B2 in *. split.
  - intros b x Hb Hx. pose proof (proj1 (stdpp.list.Forall_forall _ _) I2 _ Hb) as [L1 L2].
    unfold in_block in *. cbn [fst snd]. lia.
  - intros i j b b' x Hi Hj A B. unfold in_block in A, B. destruct (Nat.lt_trichotomy i j) as [L|[L|L]]; [|done|].
    + pose proof (I3 _ _ _ _ Hi Hj L). lia.
    + pose proof (I3 _ _ _ _ Hj Hi L). lia.
Qed.
Print Assumptions C61_blocks.
(** One thread alone gets its block whenever it fits (and the exchange does not fail for no reason). *)
Theorem C61_alloc_partial base size next th size' align : th !! 0 = Some LIdle -> (next + size' <= base + size)%N ->
  exists s', al_run (Al base size next th) [(0, LStart size' align); (0, LCas false)] = Some (s', [(next, size')]).
Proof.
  intros T L. cbn [al_run]. unfold al_step at 1. cbn [al_th al_base al_size al_next]. rewrite T.
  unfold al_step. cbn [al_th al_base al_size al_next]. assert (LT : 0 < length th) by (by apply lookup_lt_Some in T).
  rewrite list_lookup_insert by done.
  destruct (N.ltb_spec (base + size) (next + size')) as [C|C]; [lia|]. rewrite N.eqb_refl. cbn [andb negb app].
  eexists. done.
Qed.
Print Assumptions C61_alloc_partial.
(** Two threads at once: one of them is told there is no memory, although there is. *)
Theorem C61_alloc_refuted : exists s bs, al_run (al_new 4096 1048576 2)
    [(0, LStart 64 8); (1, LStart 64 8); (0, LCas false); (1, LCas false)] = Some (s, bs) /\
  bs = [(4096, 64)]%N /\ al_th s !! 1 = Some LDead.
Proof. eexists _, _. split; [reflexivity|]. split; reflexivity. Qed.
Print Assumptions C61_alloc_refuted.
(** The alignment asked for is not observed. *)
Theorem C61_align_refuted : exists s bs, al_run (al_new 4096 1048576 1)
    [(0, LStart 3 1); (0, LCas false); (0, LStart 8 8); (0, LCas false)] = Some (s, bs) /\
  bs = [(4096, 3); (4099, 8)]%N.
Proof. eexists _, _. split; reflexivity. Qed.
Print Assumptions C61_align_refuted.

(** The transport of a machine other than 0 in a rack connected by shared memory.  The controller and the
    machine find the same two queues, each sending into the one the other receives from.  No two parts of the
    queues overlap; all parts are in the machine's own device; none is memory of any machine; queues of
    different machines do not overlap. *)
Theorem C61_transport s mid : shm_ok s -> machine s mid -> sh_shmem s = true -> mid <> 0 ->
  exists to from, s_transport s mid MController = Ok (to, from) /\ s_transport s mid MClient = Ok (from, to) /\
  (forall i j p p' x, (q_parts 32 to ++ q_parts 32 from) !! i = Some p -> (q_parts 32 to ++ q_parts 32 from) !! j = Some p' ->
     in_block p x -> in_block p' x -> i = j) /\
  (forall p x, p ∈ q_parts 32 to ++ q_parts 32 from -> in_block p x ->
     (exists y d, x = (y + 2 ^ 46)%N /\ sh_devs s !! mid = Some d /\ in_dev d y) /\
     forall m y, mem_of s m y -> x <> (y + 2 ^ 46)%N) /\
  (forall mid' to' from' p p' x, machine s mid' -> s_transport s mid' MController = Ok (to', from') ->
     p ∈ q_parts 32 to ++ q_parts 32 from -> p' ∈ q_parts 32 to' ++ q_parts 32 from' ->
     in_block p x -> in_block p' x -> mid = mid').
Proof.
  intros OK M Sh NZ. destruct (transport_ok s mid OK M) as (d & D & T1 & T2 & _).
  change QCAP with 32 in *. assert (QB := qcap_bytes). change QCAP with 32 in QB.
  pose proof (proj1 (stdpp.list.Forall_lookup _ _) (so_low s OK) _ _ D) as [L1 L2].
  set (q := (sd_base d + SKB)%N) in *.
  assert (IN : forall p x, p ∈ q_parts 32 q ++ q_parts 32 (q + q_bytes 32) -> in_block p x ->
    (q <= x < q + 2097152)%N).
  { intros p x Hp Hx. unfold in_block in Hx. rewrite QB in Hp.
    apply elem_of_app in Hp as [Hp|Hp]; apply parts_in in Hp; rewrite QB in Hp; lia. }
  exists q, (q + q_bytes 32)%N. split; [done|]. split; [done|]. split; [|split].
  - assert (ST : StronglySorted before (q_parts 32 q ++ q_parts 32 (q + q_bytes 32))).
    { assert (AP : forall l l', StronglySorted before l -> StronglySorted before l' ->
        (forall a b, a ∈ l -> b ∈ l' -> before a b) -> StronglySorted before (l ++ l')).
      { intros l l' H H'. induction H as [|a l H IH F]; intros G; cbn [app]; [done|]. constructor.
        - apply IH. intros a' b Ha Hb. apply G; [by right|done].
        - apply stdpp.list.Forall_app. split; [done|]. apply stdpp.list.Forall_forall. intros b Hb. apply G; [by left|done]. }
      apply AP; try apply parts_sorted. intros a b Ha Hb. apply parts_in in Ha, Hb. unfold before. lia. }
    intros i j p p' x Hi Hj A B. unfold in_block in A, B.
    destruct (Nat.lt_trichotomy i j) as [L|[L|L]]; [|done|].
    + pose proof (sorted_lookup _ _ ST _ _ _ _ Hi Hj L) as Z. unfold before in Z. lia.
    + pose proof (sorted_lookup _ _ ST _ _ _ _ Hj Hi L) as Z. unfold before in Z. lia.
  - intros p x Hp Hx. pose proof (IN p x Hp Hx) as R. unfold q, SKB in R. split.
    + exists (x - 2 ^ 46)%N, d. split; [lia|]. split; [done|]. unfold in_dev. lia.
    + intros m y (d' & D' & I & G) ->. assert (m = mid).
      { eapply (so_apart s OK); [exact D'|exact D|exact I|]. unfold in_dev. lia. }
      subst m. rewrite D in D'. injection D' as <-. specialize (G Sh NZ). lia.
  - intros mid' to' from' p p' x M' T' Hp Hp' Hx Hx'. pose proof (IN p x Hp Hx) as R.
    destruct (transport_ok s mid' OK M') as (d' & D' & T1' & _ & _). change QCAP with 32 in *.
    rewrite T1' in T'. injection T' as <- <-.
    pose proof (proj1 (stdpp.list.Forall_lookup _ _) (so_low s OK) _ _ D') as [L1' L2'].
    assert (R' : (sd_base d' + SKB <= x < sd_base d' + SKB + 2097152)%N).
    { unfold in_block in Hx'. rewrite QB in Hp'.
      apply elem_of_app in Hp' as [Hp'|Hp']; apply parts_in in Hp'; rewrite QB in Hp'; lia. }
    unfold q in R. eapply (so_apart s OK mid mid' d d' (x - SKB)%N D D'); unfold in_dev; lia.
Qed.
Print Assumptions C61_transport.

(** Three machines with devices next to one another, connected by shared memory. *)
Definition rack3 : shm := Shm
  [Sd 0 4 4294967296 67108864; Sd 0 5 4362076160 67108864; Sd 0 6 4429185024 67108864] 3 true.
Example C61_hyps_met :
  shm_ok rack3 /\ machine rack3 2 /\
  s_new [Sd 0 6 4429185024 67108864; Sd 0 4 4294967296 67108864; Sd 0 5 4362076160 67108864] = Some (sh_devs rack3) /\
  s_transport rack3 2 MController = Ok (4429185024 + 2 ^ 46, 4429185024 + 2 ^ 46 + 262672)%N /\
  mem_of rack3 2 4431282176 /\ s_index rack3 4431282176 false = Some (Some 2) /\
  s_index rack3 4431282175 false = Some None /\
  s_dealloc rack3 14 (4431282176 + 2 ^ 46) = FTo 14 /\ s_dealloc rack3 13 (4431282176 + 2 ^ 46) = FLost.
Proof.
  split; [|split; [unfold machine; cbn; lia|]].
  - split; cbn [sh_devs sh_machines rack3].
    + intros i j d d' x Hi Hj. unfold in_dev.
      destruct i as [|[|[|i]]]; destruct j as [|[|[|j]]]; cbn in Hi, Hj; try done;
        injection Hi as <-; injection Hj as <-; cbn [sd_base sd_size]; try lia; done.
    + repeat constructor; cbn; lia.
    + cbn. lia.
  - split; [vm_compute; reflexivity|]. split; [vm_compute; reflexivity|]. split.
    + eexists. split; [reflexivity|]. unfold in_dev. cbn [sd_base sd_size]. split; [lia|]. intros _ _. lia.
    + split; [vm_compute; reflexivity|]. split; [vm_compute; reflexivity|]. split; vm_compute; reflexivity.
Qed.
