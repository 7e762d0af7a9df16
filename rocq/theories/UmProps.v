(** C53: malloc, calloc, realloc, free and posix_memalign. *)
From Verif Require Import Base MemModel HeapModel HeapProofs PgModel PgSpec PgProofs PgProps UmModel UmSpec UmProofs UmProofs2.
From stdpp Require Import functions.
Open Scope N_scope.

(** After every such history, every block holds what was last stored in it: stores, calloc's
    zeros, and what realloc kept of the old block. *)
Theorem C53_contents_partial chk mb ops s live :
  mb_fits mb -> ualong uop_ok chk mb (uh_init, []) ops -> urun chk mb (uh_init, []) ops = Some (s, live) ->
  Forall2 (holds (u_mem s)) live (crun chk mb (uh_init, []) [] ops).
Proof. intros Hmb G E. apply (run_inv chk mb ops Hmb _ _ [] _ _ (winv_init mb) G E). Qed.
Print Assumptions C53_contents_partial.

(** Blocks are aligned to 16, in memory mapped for the process, and share no address. *)
Theorem C53_blocks_partial chk mb ops s live :
  mb_fits mb -> ualong uop_ok chk mb (uh_init, []) ops -> urun chk mb (uh_init, []) ops = Some (s, live) ->
  (forall b, b ∈ live -> 0 < ub_ptr b /\ ub_ptr b mod 16 = 0 /\ forall a, in_blk b a -> mapped s a) /\
  (forall i j b c, live !! i = Some b -> live !! j = Some c -> i <> j -> ub_ptr b <> ub_ptr c /\ forall a, ~ (in_blk b a /\ in_blk c a)).
Proof.
  intros Hmb G E. destruct (run_inv chk mb ops Hmb _ _ [] _ _ (winv_init mb) G E) as [I _ _].
  assert (Hf : forall b a, b ∈ live -> in_blk b a -> full b a) by (intros b a Hb Ha; unfold full, in_blk in *; lia).
  split.
  - intros b Hb. destruct (us_blk _ _ _ I b Hb) as [B1 B2 B3 _ _]. split; [lia|]. split; [done|].
    intros a Ha. eapply full_mapped; [exact I|exact Hb|by apply Hf].
  - intros i j b c Hb Hc Hij.
    assert (Hne : ub_ptr b <> ub_ptr c).
    { intros Ep. apply Hij. eapply NoDup_lookup; [exact (us_ptrs _ _ _ I)|rewrite list_lookup_fmap, Hb; reflexivity|rewrite list_lookup_fmap, Hc; simpl; by rewrite Ep]. }
    split; [done|]. apply elem_of_list_lookup_2 in Hb, Hc. intros a [Ha1 Ha2].
    apply (full_disj mb s live b c a I Hb Hc Hne). split; by apply Hf.
Qed.
Print Assumptions C53_blocks_partial.

(** A block can always be freed; the place of a small one is then free, and the slab
    allocator of the core that owns the page can hand it out again. *)
Theorem C53_free_partial chk mb ops s live i b :
  mb_fits mb -> ualong uop_ok chk mb (uh_init, []) ops -> urun chk mb (uh_init, []) ops = Some (s, live) -> live !! i = Some b ->
  exists s', c_free mb (Some (ub_ptr b)) s = (Ok tt, s') /\
    (ub_size b + 16 <= MAX_ZONE -> exists core c1, forall size kss c2, class_of (size + 16) = class_of (ub_size b + 16) ->
      size + 16 <= MAX_ZONE -> (c_malloc chk mb core size kss c1 c2 s').1 = Ok (Some (ub_ptr b))).
Proof.
  intros Hmb G E Hb. pose proof (run_inv chk mb ops Hmb _ _ [] _ _ (winv_init mb) G E) as [I H _].
  pose proof (elem_of_list_lookup_2 _ _ _ Hb) as Hin. unfold c_free, HEADER. rewrite (H b Hin).
  destruct (us_blk _ _ _ I b Hin) as [B1 B2 B3 B4 B5].
  destruct (dealloc_spec mb s live i b I Hb) as (s2 & -> & I2 & M2 & _ & Z). exists s2. split; [done|]. intros Hs.
  destruct (Z Hs) as (j & p & Hj & Hc & Hx & Ez). exists (zp_core p), (Some (j, ub_ptr b - 16)). intros size kss c2 Hcl Hsz.
  pose proof (lookup_lt_Some _ _ _ Hj) as Hlt. destruct (us_zone _ _ _ I p (elem_of_list_lookup_2 _ _ _ Hj)) as ((Q1 & Q2 & Q3) & _).
  unfold c_malloc, HEADER. rewrite usize_ok by (unfold MAX_ZONE in Hsz; assert (131072 < 2 ^ 64) by done; lia).
  unfold u_alloc. rewrite decide_True by done. unfold use_uslot. rewrite Ez, list_lookup_insert by done.
  assert (uslot_ok mb (zp_core p) (size + 16) 8 (mkZp (zp_core p) (zp_aff p) (zp_class p) (zp_base p) (filter (fun y => y <> ub_ptr b - 16) (zp_used p))) (ub_ptr b - 16) = true) as ->.
  { unfold uslot_ok. apply bool_decide_eq_true_2. cbn [zp_core zp_class zp_used]. split; [done|]. split; [congruence|].
    split; [exact (Q3 _ Hx)|]. split; [intros X; by apply elem_of_list_filter in X as [? _]|].
    assert ((ub_ptr b - 16) mod 16 = 0) as X.
    { apply N.mod_divide; [done|]. apply N.mod_divide in B3; [|done]. destruct B3 as [k Bk]. exists (k - 1). lia. }
    by apply (mod_mul_trans 8 16) in X. }
  cbn [with_header fst]. unfold HEADER. do 2 f_equal. lia.
Qed.
Print Assumptions C53_free_partial.

(** When all blocks are freed, no slot of the slab allocators is in use. *)
Theorem C53_no_leak_partial chk mb ops s :
  mb_fits mb -> ualong uop_ok chk mb (uh_init, []) ops -> urun chk mb (uh_init, []) ops = Some (s, []) ->
  forall p, p ∈ u_zone s -> zp_used p = [].
Proof.
  intros Hmb G E p Hp. pose proof (run_inv chk mb ops Hmb _ _ [] _ _ (winv_init mb) G E) as [I _ _].
  destruct (zp_used p) as [|x l] eqn:Eu; [done|exfalso].
  destruct (us_used _ _ _ I p x Hp) as (b & Hb & _); [rewrite Eu; left|]. by apply elem_of_nil in Hb.
Qed.
Print Assumptions C53_no_leak_partial.

(** An allocation of up to 128 KiB, with the header, on a core other than 0 does not end the
    process: it returns a block or NULL. *)
Theorem C53_malloc_answers_partial chk mb ops s live core size kss c1 c2 :
  mb_fits mb -> ualong uop_ok chk mb (uh_init, []) ops -> urun chk mb (uh_init, []) ops = Some (s, live) ->
  (0 < core < 96)%nat -> size + 16 <= MAX_ZONE -> is_panic (c_malloc chk mb core size kss c1 c2 s).1 = false.
Proof.
  intros Hmb G E Hc Hsz. pose proof (run_inv chk mb ops Hmb _ _ [] _ _ (winv_init mb) G E) as [I _ _].
  unfold c_malloc, HEADER. rewrite usize_ok by (unfold MAX_ZONE in Hsz; assert (131072 < 2 ^ 64) by done; lia).
  unfold u_alloc. rewrite decide_True by done. destruct (use_uslot mb core (size + 16) 8 (u_zone s) c1) as [[x zs]|]; [done|].
  assert (NP : is_panic (pg_try chk (u_pg s) core (bool_decide (mb < size + 16)) (kss O)).1 = false).
  { unfold pg_try. destruct (pg_stop chk core) as [stop| |] eqn:ES; [|by destruct core; [lia|]..].
    destruct (stop_dist chk core stop ltac:(unfold PG_CORES; lia) ES) as (D & HD & -> & _).
    pose proof (try_loop_no_panic chk core (bool_decide (mb < size + 16)) (kss O) D HD ES PG_CORES 0 (u_pg s)) as X.
    rewrite Nat.add_0_r, (Nat.mod_small core) in X by (unfold PG_CORES; lia). apply X; [lia|unfold PG_CORES in *; lia|apply I]. }
  destruct (pg_try chk (u_pg s) core (bool_decide (mb < size + 16)) (kss O)) as [[[b|]|e|] pg] eqn:Et; [| | |done].
  - cbv zeta. destruct (use_uslot _ _ _ _ _ c2) as [[x zs]|]; [done|].
    destruct (try_spec _ _ _ _ _ _ _ Et) as (k & L & Hb).
    destruct (first_slot mb core (size + 16) 8 b (u_zone s) Hmb Hsz align8) as [zs' ->]; [by rewrite zp_page|done].
  - done.
  - by apply try_not_err in Et.
Qed.
Print Assumptions C53_malloc_answers_partial.

(** ** What does not hold *)
Definition yes : nat -> nat -> bool := fun _ _ => true.
Definition no : nat -> nat -> bool := fun _ _ => false.
(** Core 1's first page. *)
Definition page1 : N := 1099511627776.

(** A block that is made smaller with realloc and then freed frees another block's place:
    the next allocation returns an address in a block that is still in use. *)
Definition shrink_ops : list uop :=
  [UMalloc 1 1000 yes None None; UMalloc 1 1000 yes (Some (0%nat, page1 + 1024)) None;
   UMalloc 1 1000 yes (Some (0%nat, page1 + 2048)) None;
   URealloc 1 1 400 yes None None; UFree 1; UMalloc 1 1000 yes (Some (0%nat, page1 + 2048)) None].
Theorem C53_shrink_refuted : exists live i j b c a,
  snd <$> urun true 1024 (uh_init, []) shrink_ops = Some live /\
  live !! i = Some b /\ live !! j = Some c /\ i <> j /\ in_blk b a /\ in_blk c a.
Proof.
  exists [mkUb (page1 + 16) 1000; mkUb (page1 + 2064) 1000; mkUb (page1 + 2064) 1000], 1%nat, 2%nat,
    (mkUb (page1 + 2064) 1000), (mkUb (page1 + 2064) 1000), (page1 + 2064).
  split; [vm_compute; reflexivity|]. split; [done|]. split; [done|]. split; [done|]. unfold in_blk. cbn [ub_ptr ub_size]. lia.
Qed.
Print Assumptions C53_shrink_refuted.
(** Or it ends the process. *)
Theorem C53_shrink_panic_refuted : exists live,
  snd <$> urun true 1024 (uh_init, []) (take 3 shrink_ops ++ [URealloc 1 1 10 yes None None]) = Some live /\
  live !! 1%nat = Some (mkUb (page1 + 1040) 10) /\
  snd <$> urun true 1024 (uh_init, []) (take 3 shrink_ops ++ [URealloc 1 1 10 yes None None; UFree 1]) = None.
Proof.
  eexists. split; [vm_compute; reflexivity|]. split; [done|]. vm_compute; reflexivity.
Qed.
Print Assumptions C53_shrink_panic_refuted.

(** posix_memalign never returns an address aligned to more than 16 (in memory used as
    above): with an alignment from 32 to 4096 all its results are wrong. *)
Theorem C53_memalign_refuted chk mb ops s live core k size kss c1 c2 p s' :
  mb_fits mb -> ualong uop_ok chk mb (uh_init, []) ops -> urun chk mb (uh_init, []) ops = Some (s, live) ->
  5 <= k <= 12 -> size_ok s core kss size -> c_memalign chk mb core (2 ^ k) size kss c1 c2 s = (Ok (Some p), s') ->
  p mod 2 ^ k = 16.
Proof.
  intros Hmb G E Hk Hs Em. pose proof (run_inv chk mb ops Hmb _ _ [] _ _ (winv_init mb) G E) as [I _ _].
  unfold c_memalign, HEADER in Em. rewrite usize_ok in Em by apply Hs.
  assert (H32 : 32 <= 2 ^ k) by (change 32 with (2 ^ 5); apply N.pow_le_mono_r; lia).
  rewrite N.max_l in Em by lia. assert (Ha : align_ok (2 ^ k)) by (exists k; split; [lia|done]).
  assert (X : exists x, p = x + 16 /\ x mod 2 ^ k = 0).
  { unfold u_alloc in Em. destruct (decide (size + 16 <= MAX_ZONE)) as [Hz|Hz].
    - destruct (use_uslot mb core (size + 16) (2 ^ k) (u_zone s) c1) as [[x zs]|] eqn:E1.
      { injection Em as <- _. exists x. split; [done|]. eapply (use_spec mb s live core (size + 16) _ _ _ _ (u_mem s)) in E1; [apply E1|done|lia]. }
      destruct (pg_try _ _ _ _ _) as [[[b|]|e|] pg] eqn:Et; [|done..]. destruct (try_spec _ _ _ _ _ _ _ Et) as (kk & L & Hb).
      assert (Hsl : forall c x zs, use_uslot mb core (size + 16) (2 ^ k) (mkZp core 0 (class_of (size + 16)) b [] :: u_zone s) c = Some (x, zs) -> x mod 2 ^ k = 0).
      { intros c x zs Hu. unfold use_uslot in Hu. destruct c as [[i y]|]; [|done]. destruct (_ !! i) as [q|]; [|done].
        destruct (uslot_ok _ _ _ _ q y) eqn:Ho; [|done]. injection Hu as <- _. unfold uslot_ok in Ho. by apply bool_decide_eq_true in Ho as (_ & _ & _ & _ & ?). }
      cbv zeta in Em. destruct (use_uslot _ _ _ _ _ c2) as [[x zs]|] eqn:E2.
      { injection Em as <- _. exists x. split; [done|]. by eapply Hsl. }
      destruct (use_uslot _ _ _ _ _ (Some (O, b))) as [[x zs]|] eqn:E3; [|done].
      injection Em as <- _. exists x. split; [done|]. by eapply Hsl.
    - destruct (decide (size + 16 <= LARGE_PAGE)) as [Hl|Hl].
      + destruct (pg_try _ _ _ _ _) as [[[b|]|e|] pg] eqn:Et; [|done..]. destruct (try_spec _ _ _ _ _ _ _ Et) as (kk & L & Hb).
        injection Em as <- _. exists b. split; [done|]. by eapply align_page.
      + destruct Hs as [Hs Hbig]. destruct (Hbig ltac:(unfold LARGE_PAGE in Hl; lia)) as (Hc & Hk' & HL).
        destruct (pg_round_up (pg_sbrk (u_pg s) core) PG_LARGE) as [q|e|] eqn:Er.
        2:{ unfold pg_round_up in Er. by case_decide. }
        2:{ exfalso. unfold pg_round_up in Er. case_decide as X; [done|]. pose proof (limit_bound core Hc). unfold PG_LARGE in X. lia. }
        pose proof (ru_spec _ PG_LARGE _ ltac:(done) Er) as (R1 & R2 & R3 & R4 & R5). clear R4 R5.
        destruct (C38_big_allocation_partial chk (u_pg s) core (size + 16) kss q Hc ltac:(lia) Hk' Er) as (pg & new & Eb & L & Cov).
        { unfold PG_LARGE in *. lia. }
        rewrite Eb in Em. injection Em as <- _. exists q. split; [done|]. by apply (align_page _ _ true). }
  destruct X as (x & -> & Hx). rewrite <- N.add_mod_idemp_l by lia. rewrite Hx. apply N.mod_small. lia.
Qed.
Print Assumptions C53_memalign_refuted.
(** With a larger alignment it can end the process. *)
Theorem C53_memalign_panic_refuted :
  snd <$> urun true 1024 (uh_init, []) [UMalloc 1 100 yes None None] = Some [mkUb (page1 + 16) 100] /\
  snd <$> urun true 1024 (uh_init, []) [UMalloc 1 100 yes None None; UMemalign 1 8192 10 yes None None] = None.
Proof. split; vm_compute; reflexivity. Qed.

(** Without overflow checks, a size that does not fit wraps around: calloc of 2^64 bytes and
    malloc of 2^64 - 8 bytes return blocks, and the next block is right behind them. *)
Theorem C53_overflow_refuted :
  (exists b c a, snd <$> urun false 1024 (uh_init, [])
     [UCalloc 1 4294967296 4294967296 yes None None; UMalloc 1 0 yes (Some (0%nat, page1 + 16)) None] = Some [b; c] /\
     ub_size c = 0 /\ in_blk b a /\ ub_ptr c = a) /\
  (exists b c, snd <$> urun false 1024 (uh_init, [])
     [UMalloc 1 18446744073709551608 yes None None; UMalloc 1 18446744073709551601 yes (Some (0%nat, page1 + 8)) None] = Some [b; c] /\
     in_blk b (ub_ptr c)).
Proof.
  split.
  - eexists _, _, _. split; [vm_compute; reflexivity|]. cbn [ub_ptr ub_size]. split; [done|]. split; [|reflexivity]. unfold in_blk. cbn [ub_ptr ub_size]. lia.
  - eexists _, _. split; [vm_compute; reflexivity|]. unfold in_blk. cbn [ub_ptr ub_size]. lia.
Qed.
Print Assumptions C53_overflow_refuted.

(** When the kernel has no memory, malloc of a small block returns NULL, but realloc, and
    malloc of more than 128 KiB, end the process. *)
Theorem C53_out_of_memory_refuted :
  snd <$> urun true 1024 (uh_init, []) [UMalloc 1 100 no None None] = Some [] /\
  snd <$> urun true 1024 (uh_init, []) [UReallocNull 1 100 no None None] = None /\
  snd <$> urun true 1024 (uh_init, []) [UMalloc 1 200000 no None None] = None.
Proof. split; [|split]; vm_compute; reflexivity. Qed.
Print Assumptions C53_out_of_memory_refuted.

(** ** The hypotheses are met *)
Lemma ualong_prefix (G : uh * list ublk -> uop -> Prop) chk mb ops : forall st,
  (forall (n : nat) op, ops !! n = Some op -> forall st', urun chk mb st (take n ops) = Some st' -> G st' op) -> ualong G chk mb st ops.
Proof.
  induction ops as [|op ops IH]; intros st H; cbn [ualong]; [done|]. split; [by apply (H 0%nat op)|].
  destruct (ustep chk mb st op) as [st1|] eqn:E; [|done]. apply IH. intros n o Ho st' Hr. apply (H (S n) o Ho). cbn [take urun]. by rewrite E.
Qed.
(** All functions; blocks on two cores, a block that grows to another class, one that shrinks
    within its class, one of 3 MiB, and a freed slot that is used again. *)
Definition good_ops : list uop :=
  [UMalloc 1 100 yes None None; UStore 0 0 7; UStore 0 99 8; UCalloc 2 10 20 yes None None;
   UMemalign 1 16 40 yes None None; URealloc 2 0 3000 yes None None; UReallocNull 3 5 yes None None;
   UMalloc 1 3145728 yes None None; UStore 4 3145727 9; URealloc 2 0 2500 yes None None; UFree 2; UFreeNull;
   UMalloc 1 48 yes (Some (2%nat, page1 + 4096)) None].
Example C53_hyps_met : mb_fits 1024 /\ ualong uop_ok true 1024 (uh_init, []) good_ops /\
  exists b1 b2 b3 b4 b5, snd <$> urun true 1024 (uh_init, []) good_ops = Some [b1; b2; b3; b4; b5] /\
  ub_size b1 = 2500 /\ ub_size b4 = 3145728 /\ ub_ptr b5 = page1 + 4096 + 16 /\
  (exists c, crun true 1024 (uh_init, []) [] good_ops !! 0%nat = Some c /\ c !! 99%nat = Some (Some 8)).
Proof.
  split; [by exists 10|]. split.
  - assert (Hsz : forall s c size, size + 16 <= 2097152 -> size_ok s c yes size).
    { intros s c size H. split; [|lia]. assert (2097152 < 2 ^ 64) by done. lia. }
    apply ualong_prefix. intros n op Hn [s live] Hr.
    assert (Hp : (fun st : uh * list ublk => (st.2, pg_sbrk (u_pg st.1) 1)) <$> urun true 1024 (uh_init, []) (take n good_ops) = Some (live, pg_sbrk (u_pg s) 1)) by (by rewrite Hr).
    clear Hr.
    destruct n as [|n]; [injection Hn as <-; cbn [uop_ok fst snd]|].
    { first [by apply Hsz|done]. }
    destruct n as [|n]; [injection Hn as <-; cbn [uop_ok fst snd]|].
    { first [by apply Hsz|done]. }
    destruct n as [|n]; [injection Hn as <-; cbn [uop_ok fst snd]|].
    { first [by apply Hsz|done]. }
    destruct n as [|n]; [injection Hn as <-; cbn [uop_ok fst snd]|].
    { first [by apply Hsz|done]. }
    destruct n as [|n]; [injection Hn as <-; cbn [uop_ok fst snd]|].
    { split; [by apply Hsz|]. by exists 4. }
    destruct n as [|n]; [injection Hn as <-; cbn [uop_ok fst snd]|].
    { split; [by apply Hsz|]. vm_compute in Hp. injection Hp as <- _. intros b [= <-] _. cbn [ub_size]. intros X. vm_compute in X. by destruct X. }
    destruct n as [|n]; [injection Hn as <-; cbn [uop_ok fst snd]|].
    { first [by apply Hsz|done]. }
    destruct n as [|n]; [injection Hn as <-; cbn [uop_ok fst snd]|].
    { unfold size_ok. remember (pg_sbrk (u_pg s) 1) as z eqn:Ez. clear Ez. vm_compute in Hp. injection Hp as _ <-. split; [done|]. intros _. split; [lia|]. split; [done|]. vm_compute. discriminate. }
    destruct n as [|n]; [injection Hn as <-; cbn [uop_ok fst snd]|].
    { first [by apply Hsz|done]. }
    destruct n as [|n]; [injection Hn as <-; cbn [uop_ok fst snd]|].
    { split; [by apply Hsz|]. vm_compute in Hp. injection Hp as <- _. intros b [= <-] _ _. vm_compute. reflexivity. }
    destruct n as [|n]; [injection Hn as <-; cbn [uop_ok fst snd]|].
    { first [by apply Hsz|done]. }
    destruct n as [|n]; [injection Hn as <-; cbn [uop_ok fst snd]|].
    { first [by apply Hsz|done]. }
    destruct n as [|n]; [injection Hn as <-; cbn [uop_ok fst snd]|].
    { first [by apply Hsz|done]. }
    exfalso. clear -Hn. unfold good_ops in Hn. cbn [lookup list_lookup] in Hn. discriminate Hn.
  - eexists _, _, _, _, _. split; [vm_compute; reflexivity|]. split; [done|]. split; [done|]. split; [done|]. eexists. split; vm_compute; reflexivity.
Qed.
Example C53_memalign_refuted_hyps_met :
  snd <$> urun true 1024 (uh_init, []) [UMemalign 1 64 100 yes None None] = Some [mkUb (page1 + 16) 100] /\ (page1 + 16) mod 64 = 16.
Proof. split; vm_compute; reflexivity. Qed.
