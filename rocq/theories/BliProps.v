(** C59: loading the kernel image. *)
From Verif Require Import Base VsModel VsProofs ElfModel BlvModel BlvSpec BlvProofs BlvProps BliModel BliSpec BliProofs.
Local Arguments N.pow : simpl never.

Lemma action_asks aw h w x : ph_r h = true ->
  asks_kernel (k_action aw h) w x = seg_asks (if aw then h else Ph (ph_va h) (ph_memsz h) (ph_bytes h) (ph_r h) true (ph_x h)) w x.
Proof. intros R. unfold k_action, seg_asks. destruct aw; cbn; rewrite R; by destruct (ph_x h), (ph_w h), w, x. Qed.

(** Full property: any image of loadable segments is placed, at a suitably aligned address, so that
    every address of a segment holds its relocated content with the rights of the segment, memory
    not taken from the firmware is not touched, no memory in use is handed back.
    Missing: images not linked at 0 and segments on a common page (refuted below); in the build that
    exists ([aw] false) every segment is writable (refuted below); addends are at most 2^63. *)
Theorem C59_loads_partial : forall dbg aw t m paddr hs rs ro,
  image_ok hs -> relocs_in hs rs -> (paddr mod 4096 = 0)%N -> (paddr < 2 ^ 45)%N ->
  free_range t (2 ^ 46) (2 ^ 47) ->
  (forall b n, ro = Some (b, n) -> ((b + n) mod 4096 = 0)%N) ->
  exists k base, k_run dbg aw t m paddr hs rs ro = Ok k /\ kn_off k = (2 ^ 46 + base)%N /\
    (forall h, h ∈ hs -> (base mod bh_align h = 0)%N) /\
    (forall h a, h ∈ hs -> seg_at h a ->
       in_range paddr (kn_req k * 4096) (base + a) /\
       kn_mem k (base + a)%N = image (kn_off k) rs h a /\
       (forall write exec, access (kn_tab k) (kn_off k + a) false write exec =
          if seg_asks (if aw then bh_ph h else Ph (ph_va (bh_ph h)) (ph_memsz (bh_ph h)) (ph_bytes (bh_ph h)) (ph_r (bh_ph h)) true (ph_x (bh_ph h))) write exec
          then Some (base + a)%N else None) /\
       (forall b n, (b, n) ∈ kn_free k -> ~ in_range b (n * 4096) (base + a))) /\
    (forall x, ~ in_range paddr (kn_req k * 4096) x -> kn_mem k x = m x) /\
    (forall b n x, (b, n) ∈ kn_free k -> in_range b (n * 4096) x -> in_range paddr (kn_req k * 4096) x) /\
    (forall va user write exec, (va < 2 ^ 48)%N ->
       (forall h a, h ∈ hs -> seg_at h a -> ((kn_off k + a) / 4096 <> va / 4096)%N) ->
       access (kn_tab k) va user write exec = access t va user write exec).
Proof.
  intros dbg aw t m paddr hs rs ro I Rl Hp Hlt Hfree Hro.
  destruct I as [Iseg Iap (h0 & H0 & Z0) Ial (h1 & H1 & A1)].
  assert (Fok : Forall hdr_ok hs) by exact Iseg.
  destruct (scan_gen hs (Ks (2 ^ 64 - 1) 0 0)) as (S1 & S2 & S3 & S4 & S5 & S6 & S7). fold (k_scan hs) in *.
  set (s := k_scan hs) in *. cbv zeta in *. cbn [ks_min ks_max ks_align] in *.
  assert (Kz : k_base h0 = 0%N) by (rewrite base_div, N.div_small by done; done).
  assert (Min : ks_min s = 0%N). { destruct (S4 h0 H0) as [X _]. rewrite Kz in X. lia. }
  assert (Max : exists h, h ∈ hs /\ ks_max s = kend h).
  { destruct S6 as [X|X]; [|done]. destruct (S4 h0 H0) as (_ & Y & _).
    eapply stdpp.list.Forall_forall in Fok as Fh0; [|exact H0]. destruct Fh0 as (_ & M0 & _).
    rewrite X, kend_eq in Y by done. clear - Y. revert Y. generalize ((ph_va (bh_ph h0) + ph_memsz (bh_ph h0) - 1) / 4096)%N. intros. lia. }
  destruct Max as (hm & Hm & Mx).
  eapply stdpp.list.Forall_forall in Fok as Fhm; [|exact Hm].
  pose proof (kend_bound hm Fhm) as Kb.
  assert (Mz : exists q, ks_max s = (q * 4096)%N).
  { rewrite Mx. destruct Fhm as (_ & M & _). rewrite kend_eq by done. eauto. }
  destruct Mz as [q Mz].
  assert (Alg : exists e, ks_align s = (2 ^ e)%N /\ (e <= 44)%N).
  { destruct S7 as [X|(h & H & X)].
    - destruct (S4 h1 H1) as (_ & _ & Y). lia.
    - eapply stdpp.list.Forall_forall in Ial as (e & E & L); [|exact H]. exists e. split; [by rewrite X|done]. }
  destruct Alg as (e & Ae & Le).
  assert (Ap : (4096 <= 2 ^ e)%N). { rewrite <- Ae. destruct (S4 h1 H1) as (_ & _ & Y). lia. }
  assert (Pe : (2 ^ e <= 2 ^ 44)%N) by (apply N.pow_le_mono_r; lia).
  assert (Nd : k_need hs = q). { unfold k_need. fold s. rewrite Min, Mz, N.sub_0_r. by apply N.div_mul. }
  destruct (alloc_aligned_ok q e paddr Ap Hp) as (ab & fr & Ea & B1 & B2 & B3 & B4 & B5 & B6).
  set (off := (KOFF + ab)%N).
  assert (Ob : (off + 2 ^ 45 <= 2 ^ 48)%N) by (unfold off, KOFF; lia).
  assert (Om : (off mod 4096 = 0)%N) by (unfold off; apply mod_add_zero; [lia|done|done]).
  destruct (k_maps aw off ab Om B2 Ob hs t Fok Iap) as (t' & Et & T1 & T2).
  { intros h H va [V1 V2]. apply Hfree. eapply stdpp.list.Forall_forall in Fok as Fh; [|exact H].
    pose proof (kend_bound h Fh) as Kh. unfold kend in Kh. split; [unfold off, KOFF in *; lia|]. unfold off, KOFF in *. lia. }
  assert (Rs : resolves t' off ab hs).
  { intros h a H S. destruct (seg_pages h a S). by apply (T1 h a H). }
  set (n := alloc_pages q (2 ^ e)) in *.
  assert (Ek : k_allocate aw t m paddr hs = Ok (Kn off t' (zeroed m paddr (n * 4096)) n fr)).
  { unfold k_allocate. fold s. rewrite Min, Mz, N.mod_mul by lia. cbn [N.modulo N.div_eucl snd N.eqb negb orb].
    rewrite Nd, Ae, Ea. cbn [ck_base ck_free]. fold off. by rewrite Et. }
  destruct (k_loads t' off ab hs (zeroed m paddr (n * 4096)) Fok Iap Rs) as (m1 & E1 & L1 & L2).
  destruct (k_relocs dbg t' off ab hs ltac:(lia) Rs rs m1 Rl) as (m2 & E2 & R1 & R2).
  assert (Er : k_relro off ro = Ok tt).
  { unfold k_relro. destruct ro as [[b c]|]; [|done]. specialize (Hro b c eq_refl).
    replace (off + b + c)%N with (off + (b + c))%N by lia. by rewrite mod_add_zero. }
  exists (Kn off t' m2 n fr), ab. split.
  { unfold k_run. rewrite Ek. cbn [kn_tab kn_off kn_mem kn_req kn_free]. by rewrite E1, E2, Er. }
  cbn [kn_tab kn_off kn_mem kn_req kn_free]. split; [done|].
  assert (Seg : forall h a, h ∈ hs -> seg_at h a -> (a < q * 4096)%N).
  { intros h a H S. destruct (seg_pages h a S) as [_ X]. destruct (S4 h H) as (_ & Y & _). lia. }
  assert (InCk : forall h a, h ∈ hs -> seg_at h a -> in_range paddr (n * 4096) (ab + a)).
  { intros h a H S. specialize (Seg h a H S). split; lia. }
  split; [|split; [|split; [|split]]].
  - intros h H. eapply stdpp.list.Forall_forall in Ial as (eh & Eh & Lh); [|exact H].
    destruct (S4 h H) as (_ & _ & Y). rewrite Ae, Eh in Y. apply N.pow_le_mono_r_iff in Y; [|lia].
    rewrite Eh. apply mod_dvd; [apply N.neq_0_lt_0; by apply N.pow_nonzero|].
    apply mod_dvd in B1 as [z Bz]; [|lia]. exists (z * 2 ^ (e - eh))%N. rewrite Bz, <- N.mul_assoc, <- N.pow_add_r.
    do 2 f_equal. lia.
  - intros h a H S. split; [by eapply InCk|]. split; [|split].
    + rewrite R1. unfold image. destruct (last_reloc rs a); [done|].
      rewrite (L1 h a H S). destruct (file_at h a); [done|]. unfold zeroed.
      destruct (InCk h a H S). by rewrite rng_true by done.
    + intros w x. destruct (seg_pages h a S). destruct (T1 h a H) as [_ X]; [done|done|]. rewrite X.
      eapply stdpp.list.Forall_forall in Fok as (R & _); [|exact H]. by rewrite action_asks.
    + intros b c Hf [X1 X2]. specialize (Seg h a H S). destruct (B6 b c Hf) as [[Y1 Y2]|[Y1 Y2]]; lia.
  - intros x X. assert (Nx : forall h a, h ∈ hs -> seg_at h a -> x <> (ab + a)%N).
    { intros h a H S ->. apply X. by eapply InCk. }
    assert (m2 x = m1 x) as ->.
    { destruct (N.lt_ge_cases x ab) as [L|L]; [by apply R2|].
      replace x with (ab + (x - ab))%N by lia. rewrite R1.
      destruct (last_reloc rs (x - ab)) as [r|] eqn:Elr; [|done].
      apply last_reloc_in in Elr as [Ir Ar]. eapply stdpp.list.Forall_forall in Rl as (_ & _ & h & H & Sa & Sb); [|exact Ir].
      exfalso. apply (Nx h (x - ab)%N H); [|lia]. unfold reloc_at in Ar. apply andb_true_iff in Ar as [C1 C2].
      apply N.leb_le in C1. apply N.ltb_lt in C2. unfold seg_at, in_range in *. lia. }
    rewrite L2 by done. unfold zeroed. unfold in_range in X. by rewrite rng_false by lia.
  - intros b c x Hf [X1 X2]. destruct (B6 b c Hf) as [[Y1 Y2]|[Y1 Y2]]; split; lia.
  - intros va u w x Hva Hn. destruct (T2 va Hva) as [_ X]; [|apply X].
    intros h H [V1 V2]. eapply stdpp.list.Forall_forall in Fok as (_ & M & _); [|exact H].
    destruct (in_pages h (va - off)) as (a & Sa & Ea'); [done|lia|unfold kend; lia|].
    apply (Hn h a H Sa). apply mod_dvd in Om as [z Oz]; [|lia].
    replace (off + a)%N with (a + z * 4096)%N by lia. assert (va = va - off + z * 4096)%N as Ev by lia.
    rewrite Ev, !N.div_add by lia. by f_equal.
Qed.
Print Assumptions C59_loads_partial.

(** A relocation of another type fails the boot. *)
Theorem C59_bad_relocation : forall dbg aw t m paddr hs rs ro r k,
  r ∈ rs -> rl_rel r = false -> k_run dbg aw t m paddr hs rs ro <> Ok k.
Proof.
  intros dbg aw t m paddr hs rs ro r k I Hr H. unfold k_run in H.
  destruct (k_allocate _ _ _ _ _) as [k0| |]; [|done|done].
  destruct (rfold (k_load _ _) _ _) as [m1| |]; [|done|done].
  destruct (rfold (k_relocate _ _ _) _ _) as [m2| |] eqn:E; [|done|done].
  apply k_relocs_bad in E. eapply stdpp.list.Forall_forall in E; [|exact I]. by rewrite Hr in E.
Qed.
Print Assumptions C59_bad_relocation.

(** A text segment, and a data segment over three pages with a relocation. *)
Definition hx1 : list bhdr :=
  [Bh (Ph 0 5 [1; 2; 3] true false true) 4096; Bh (Ph 8208 8192 [7; 8] true true false) 2097152]%N.
Definition rx1 : list rela := [Rl 8216 true 2; Rl 8220 true 1]%N.
Example C59_hyps_met : image_ok hx1 /\ relocs_in hx1 rx1 /\ free_range ∅ (2 ^ 46) (2 ^ 47) /\
  exists k, k_run true false ∅ (fun _ => 9%N) 12288 hx1 rx1 (Some (8208, 8176)%N) = Ok k /\
    map (fun a => kn_mem k (2097152 + a)%N) [2; 4; 8208; 8209; 8210; 8216; 8220; 8227; 8228]%N = [3; 0; 7; 8; 0; 2; 1; 0; 0]%N /\
    kn_mem k 12287%N = 9%N /\ kn_free k = [(12288, 508); (2121728, 2)]%N.
Proof.
  assert (I : image_ok hx1).
  { constructor.
    - repeat constructor; cbn; lia.
    - intros i j h g k Hi Hj (a & A & <-) (b & B & E).
      destruct i as [|[|i]]; [| |by destruct i]; destruct j as [|[|j]]; try (by destruct j); try done;
        injection Hi as <-; injection Hj as <-; unfold seg_at, in_range in A, B; cbn in A, B; exfalso; dm a; dm b; lia.
    - eexists. split; [by left|done].
    - repeat constructor; cbn; [by exists 12%N|by exists 21%N].
    - eexists. split; [by left|done]. }
  assert (R : relocs_in hx1 rx1).
  { repeat constructor; cbn; try lia; (eexists; split; [right; left|]; unfold seg_at, in_range; cbn; lia). }
  assert (F : free_range ∅ (2 ^ 46) (2 ^ 47)).
  { intros va _. unfold bl_resolve, walk. by rewrite lookup_empty. }
  split; [done|]. split; [done|]. split; [done|].
  destruct (C59_loads_partial true false ∅ (fun _ => 9%N) 12288 hx1 rx1 (Some (8208, 8176)%N) I R eq_refl ltac:(lia) F)
    as (k & b & E & _).
  { intros b n X. injection X as <- <-. reflexivity. }
  exists k. split; [exact E|].
  assert (Q : match k_run true false ∅ (fun _ => 9%N) 12288 hx1 rx1 (Some (8208, 8176)%N) with
    | Ok k => (map (fun a => kn_mem k (2097152 + a)%N) [2; 4; 8208; 8209; 8210; 8216; 8220; 8227; 8228]%N, kn_mem k 12287%N, kn_free k)
    | _ => ([], 0%N, []) end = ([3; 0; 7; 8; 0; 2; 1; 0; 0]%N, 9%N, [(12288, 508); (2121728, 2)]%N)) by (vm_compute; reflexivity).
  rewrite E in Q. split; [exact (f_equal (fun p => fst (fst p)) Q)|].
  split; [exact (f_equal (fun p => snd (fst p)) Q)|exact (f_equal snd Q)].
Qed.

Definition is_ok_k (r : res kern) : bool := match r with Ok _ => true | _ => false end.
Lemma ok_k (r : res kern) : is_ok_k r = true -> exists k, r = Ok k.
Proof. destruct r; eauto || done. Qed.

(** An image linked at 2 MiB is written 2 MiB above the memory taken from the firmware. *)
Theorem C59_base_refuted : exists m paddr hs k x,
  k_run true false ∅ m paddr hs [] None = Ok k /\ ~ in_range paddr (kn_req k * 4096) x /\ kn_mem k x <> m x.
Proof.
  destruct (ok_k (k_run true false ∅ (fun _ => 9%N) 8192 [Bh (Ph 2097152 4096 [1]%N true false true) 4096] [] None)) as [k E];
    [vm_compute; reflexivity|].
  assert (Q : match k_run true false ∅ (fun _ => 9%N) 8192 [Bh (Ph 2097152 4096 [1]%N true false true) 4096] [] None with
      | Ok k => (kn_mem k (8192 + 2097152)%N, kn_req k) | _ => (0, 0)%N end = (1, 2)%N) by (vm_compute; reflexivity).
  rewrite E in Q. injection Q as Q1 Q2.
  exists (fun _ => 9%N), 8192%N, [Bh (Ph 2097152 4096 [1]%N true false true) 4096], k, (8192 + 2097152)%N.
  split; [done|]. split; [rewrite Q2; intros [_ L]; lia|]. by rewrite Q1.
Qed.
Print Assumptions C59_base_refuted.

(** Two segments that meet inside a page, as linkers lay them out without padding, stop the boot. *)
Theorem C59_shared_page_refuted : exists hs,
  Forall hdr_ok hs /\ (forall i j h g a, hs !! i = Some h -> hs !! j = Some g -> seg_at h a -> seg_at g a -> i = j) /\
  forall dbg m, k_run dbg false ∅ m 8192 hs [] None = Panic.
Proof.
  exists [Bh (Ph 0 100 [1]%N true false true) 4096; Bh (Ph 100 100 [2]%N true true false) 4096].
  split; [repeat constructor; cbn; lia|]. split.
  - intros i j h g a Hi Hj A B. destruct i as [|[|i]]; [| |by destruct i]; destruct j as [|[|j]]; try (by destruct j); try done;
      injection Hi as <-; injection Hj as <-; unfold seg_at, in_range in A, B; cbn in A, B; lia.
  - intros dbg m. 
    vm_compute. reflexivity.
Qed.
Print Assumptions C59_shared_page_refuted.

(** In the build that exists, read-only code can be written; with make_readonly called on it or not,
    and in the other build too for what make_readonly is called on. *)
Theorem C59_readonly_refuted :
  (exists m k, k_run true false ∅ m 8192 [Bh (Ph 0 4096 [1]%N true false true) 4096] [] None = Ok k /\
     access (kn_tab k) (kn_off k) false true false = Some 8192%N) /\
  (exists m k, k_run true true ∅ m 8192 [Bh (Ph 0 4096 [1]%N true true false) 4096] [] (Some (0, 4096)%N) = Ok k /\
     access (kn_tab k) (kn_off k) false true false = Some 8192%N).
Proof.
  split.
  - destruct (ok_k (k_run true false ∅ (fun _ => 9%N) 8192 [Bh (Ph 0 4096 [1]%N true false true) 4096] [] None)) as [k E];
      [vm_compute; reflexivity|].
    exists (fun _ => 9%N), k. split; [done|].
    assert (Q : match k_run true false ∅ (fun _ => 9%N) 8192 [Bh (Ph 0 4096 [1]%N true false true) 4096] [] None with
      | Ok k => access (kn_tab k) (kn_off k) false true false | _ => None end = Some 8192%N) by (vm_compute; reflexivity).
    by rewrite E in Q.
  - destruct (ok_k (k_run true true ∅ (fun _ => 9%N) 8192 [Bh (Ph 0 4096 [1]%N true true false) 4096] [] (Some (0, 4096)%N))) as [k E];
      [vm_compute; reflexivity|].
    exists (fun _ => 9%N), k. split; [done|].
    assert (Q : match k_run true true ∅ (fun _ => 9%N) 8192 [Bh (Ph 0 4096 [1]%N true true false) 4096] [] (Some (0, 4096)%N) with
      | Ok k => access (kn_tab k) (kn_off k) false true false | _ => None end = Some 8192%N) by (vm_compute; reflexivity).
    by rewrite E in Q.
Qed.
Print Assumptions C59_readonly_refuted.

(** Pages taken for the alignment are not all handed back, although the assertion counts them. *)
Theorem C59_leak_refuted : exists hm al paddr c x,
  alloc_aligned hm al paddr = Ok c /\ in_range paddr (alloc_pages hm al * 4096) x /\
  ~ in_range (ck_base c) (hm * 4096) x /\ forall b n, (b, n) ∈ ck_free c -> ~ in_range b (n * 4096) x.
Proof.
  exists 1%N, 16384%N, 4096%N, (Ck 16384 [(4096, 2)%N]), 12288%N. split; [vm_compute; reflexivity|].
  split; [vm_compute; split; [discriminate|reflexivity]|]. split; [intros [X _]; cbn in X; lia|].
  intros b n H [X1 X2]. apply elem_of_list_singleton in H. injection H as -> ->. lia.
Qed.
Print Assumptions C59_leak_refuted.
