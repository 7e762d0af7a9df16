(** Proofs about device drivers of a program. *)
From Verif Require Import Base PgModel PgProofs DmaModel DmaSpec.
Local Open Scope N_scope.

(** * Address space *)
Lemma map_pages_out n : forall m v p x, ~ (v <= x < v + N.of_nat n) -> map_pages m v p n !! x = m !! x.
Proof.
  induction n as [|n IH]; intros m v p x H; [done|]. cbn [map_pages]. rewrite IH by lia. apply lookup_insert_ne. lia.
Qed.
Lemma map_pages_in n : forall m v p x, v <= x < v + N.of_nat n -> map_pages m v p n !! x = Some (p + (x - v)).
Proof.
  induction n as [|n IH]; intros m v p x H; [lia|]. cbn [map_pages]. destruct (N.eq_dec x v) as [->|Hx].
  - rewrite map_pages_out by lia. rewrite lookup_insert. f_equal. lia.
  - rewrite IH by lia. f_equal. lia.
Qed.
Lemma unmap_pages_out n : forall m v x, ~ (v <= x < v + N.of_nat n) -> unmap_pages m v n !! x = m !! x.
Proof.
  induction n as [|n IH]; intros m v x H; [done|]. cbn [unmap_pages]. rewrite IH by lia. apply lookup_delete_ne. lia.
Qed.

Lemma page_div va : page_of va / 4096 = va / 4096.
Proof. unfold page_of. by rewrite N.div_mul. Qed.
Lemma page_mod va : page_of va mod 4096 = 0.
Proof. unfold page_of. by apply N.mod_mul. Qed.
Lemma mod4 a : a mod 4096 < 4096.
Proof. by apply N.mod_lt. Qed.
Lemma page_frame p a : page_of (p * 4096 + a mod 4096) = p * 4096.
Proof. unfold page_of. rewrite N.add_comm, N.div_add by done. rewrite (N.div_small (a mod 4096)) by apply mod4. lia. Qed.

Lemma unused_none m va size x : unused m va size -> va <= x * 4096 < va + size -> m !! x = None.
Proof. intros H Hx. specialize (H (x * 4096) Hx). unfold translate in H. rewrite N.div_mul in H by done. by destruct (m !! x). Qed.

(** * The cache agrees with the address space *)
Definition dinv (q : gset N) (st : dst) : Prop :=
  forall ht k pa, d_cache st = Some ht -> ht !! k = Some pa -> k mod 4096 = 0 /\ k / 4096 ∈ q /\ exists p, d_map st !! (k / 4096) = Some p /\ pa = p * 4096.

Lemma dma_size_cases size : dma_size size = 4096 \/ dma_size size = 2097152.
Proof. unfold dma_size. destruct (4096 <? size); tauto. Qed.

(** What a successful allocation did. *)
Lemma dmalloc_ok st core size align ans va pa st' :
  dmalloc st core size align ans = (Ok (va, pa), st') ->
  size <= 2097152 /\ (core < PG_CORES)%nat /\ ans = Some pa /\ va mod dma_size size = 0 /\
  pg_sbrk (d_pg st) core <= va /\ va < pg_limit core /\ pg_sbrk (d_pg st') core = va + dma_size size /\
  d_map st' = map_pages (d_map st) (va / 4096) (pa / 4096) (N.to_nat (dma_size size / 4096)) /\
  d_cache st' = match d_cache st with Some ht => Some (<[va := pa]> ht) | None => None end.
Proof.
  unfold dmalloc. destruct (N.ltb_spec 2097152 size) as [|Hs]; [done|].
  destruct (pg_allocate _ _ _ _ _) as [r pg] eqn:E. destruct r as [va'|e|]; try done. intros [= <- <- <-].
  unfold pg_allocate in E. destruct (decide (core < PG_CORES)%nat) as [Hc|]; [|done].
  assert (Hz : pg_round_up (dma_size size) PG_BASE = Ok (dma_size size)) by (by destruct (dma_size_cases size) as [-> | ->]).
  rewrite Hz in E. assert (Hm : N.max (dma_size size) PG_BASE = dma_size size) by (by destruct (dma_size_cases size) as [-> | ->]).
  rewrite Hm in E. destruct (pg_round_up (pg_sbrk (d_pg st) core) (dma_size size)) as [sb|e|] eqn:E2; try done.
  destruct (ru_spec _ (dma_size size) _ ltac:(destruct (dma_size_cases size) as [-> | ->]; lia) E2) as (R1 & R2 & R3 & R4 & R5).
  destruct (decide (pg_limit core <= sb)) as [|Hl]; [done|]. destruct ans as [a|]; [|done].
  destruct (decide (sb + dma_size size < 2 ^ 64)) as [Ho|]; [|done]. injection E as <- <-. cbn.
  split; [done|]. split; [done|]. split; [done|]. split; [done|]. split; [done|]. split; [lia|]. split; [|done].
  by rewrite stdpp.functions.fn_lookup_insert.
Qed.
Lemma dmalloc_other st core size align ans r st' :
  dmalloc st core size align ans = (r, st') -> (forall x, r <> Ok x) -> d_map st' = d_map st /\ d_cache st' = d_cache st.
Proof.
  unfold dmalloc. destruct (2097152 <? size); [by intros [= <- <-]|].
  destruct (pg_allocate _ _ _ _ _) as [[va|e|] pg]; intros [= <- <-] H; [by destruct (H (va, default 0 ans))|done|done].
Qed.

Lemma size_pages size : dma_size size = dma_size size / 4096 * 4096.
Proof. by destruct (dma_size_cases size) as [-> | ->]. Qed.
Lemma mod_page n size : n mod dma_size size = 0 -> n mod 4096 = 0.
Proof. intros H. apply (mod_mul_trans 4096 (dma_size size)); [lia| | |done]; by destruct (dma_size_cases size) as [-> | ->]. Qed.
Lemma by_page n : n mod 4096 = 0 -> n = n / 4096 * 4096.
Proof. intros H. pose proof (N.div_mod n 4096 ltac:(lia)). lia. Qed.

Lemma dinv_ok q st : driver q st -> dinv q st.
Proof.
  induction 1 as [|q st D IH|q st va D IH|q st core size align ans D IH Hk|q st v p n D IH Hu|q st v n D IH Hq]; intros ht k pa Hc Hl.
  - done.
  - injection Hc as <-. by rewrite lookup_empty in Hl.
  - unfold virt_to_mach in Hc |- *. destruct (d_cache st) as [h0|] eqn:Eh.
    + destruct (h0 !! page_of va) as [pa0|] eqn:E0.
      * cbn in Hc |- *. rewrite Eh in Hc. injection Hc as <-. destruct (IH h0 k pa Eh Hl) as (A & B & C). split; [done|]. split; [set_solver|done].
      * unfold identify in Hc |- *. rewrite page_div in *. destruct (d_map st !! (va / 4096)) as [p|] eqn:Em; cbn in Hc |- *.
        -- injection Hc as <-. destruct (decide (k = page_of va)) as [->|Hne].
           ++ rewrite lookup_insert in Hl. injection Hl as <-. rewrite page_mod, page_div. split; [done|]. split; [set_solver|].
              exists p. split; [done|]. unfold off_of. apply page_frame.
           ++ rewrite lookup_insert_ne in Hl by done. destruct (IH h0 k pa Eh Hl) as (A & B & C). split; [done|]. split; [set_solver|done].
        -- rewrite Eh in Hc. injection Hc as <-. destruct (IH h0 k pa Eh Hl) as (A & B & C). split; [done|]. split; [set_solver|done].
    + cbn in Hc. rewrite Eh in Hc. done.
  - destruct (dmalloc st core size align ans) as [r st'] eqn:E. cbn [fst snd] in *.
    destruct r as [[va pa0]|e|]; [|destruct (dmalloc_other _ _ _ _ _ _ _ E ltac:(done)) as [Em Ec]; rewrite Em; rewrite Ec in Hc; by apply (IH ht k pa)..].
    destruct (dmalloc_ok _ _ _ _ _ _ _ _ E) as (H1 & H2 & H3 & H4 & H5 & H6 & H7 & Em & Ec).
    destruct (Hk va pa0 eq_refl) as [Hp Hu]. rewrite Ec in Hc. destruct (d_cache st) as [h0|] eqn:Eh; [|done]. injection Hc as <-.
    pose proof (size_pages size) as Sp. pose proof (mod_page _ _ H4) as M1. pose proof (mod_page _ _ Hp) as M2.
    pose proof (by_page _ M1) as V. pose proof (by_page _ M2) as P.
    assert (Hn : 0 < dma_size size / 4096) by (destruct (dma_size_cases size) as [-> | ->]; done).
    rewrite Em. destruct (decide (k = va)) as [->|Hne].
    + rewrite lookup_insert in Hl. injection Hl as <-. split; [done|]. split; [set_solver|]. exists (pa0 / 4096). split; [|done].
      rewrite map_pages_in by lia. f_equal. lia.
    + rewrite lookup_insert_ne in Hl by done. destruct (IH h0 k pa Eh Hl) as (A & B & p & C1 & C2). split; [done|]. split; [set_solver|].
      exists p. split; [|done]. rewrite map_pages_out; [done|]. intros [L1 L2].
      rewrite N2Nat.id in L2. rewrite (unused_none _ _ _ (k / 4096) Hu) in C1; [done|]. lia.
  - cbn in Hc |- *. destruct (IH ht k pa Hc Hl) as (A & B & p' & C1 & C2). split; [done|]. split; [done|]. exists p'. split; [|done].
    rewrite map_pages_out; [done|]. intros L. rewrite (unused_none _ _ _ (k / 4096) Hu) in C1; [done|lia].
  - cbn in Hc |- *. destruct (IH ht k pa Hc Hl) as (A & B & p' & C1 & C2). split; [done|]. split; [done|]. exists p'. split; [|done].
    rewrite unmap_pages_out; [done|]. intros L. by apply (Hq _ L).
Qed.

(** * Configuration space *)
Lemma ok_inj {A} (x y : A) : Ok x = Ok y -> x = y.
Proof. by intros [= ->]. Qed.
Lemma select_ok b d f r a : pci_ok (b, d, f, r) -> pci_bus_address b d f r = Ok a -> pci_select a = Some (b, d, f, r).
Proof.
  intros (Hb & Hd & Hf & Hr & Hm) H. unfold pci_bus_address in H. destruct (N.leb_spec r 252) as [Hr'|]; [|done].
  assert (Ha : a = 2 ^ 31 + (b * 2 ^ 16 + (d * 2 ^ 11 + (f * 2 ^ 8 + r)))).
  { apply ok_inj in H. rewrite <- H. clear H.
    assert (Hand : N.land r 252 = r).
    { apply N.bits_inj. intros i. rewrite N.land_spec. destruct (N.testbit r i) eqn:E; [|done]. cbn [andb].
      assert (Hi : 2 <= i < 8).
      { split.
        - apply N.nlt_ge. intros Hi. pose proof (N.mod_pow2_bits_low r 2 i Hi) as X. change (2 ^ 2) with 4 in X. rewrite Hm, N.bits_0 in X.
          congruence.
        - apply N.nle_gt. intros Hi. rewrite <- (N.mod_small r (2 ^ 8)) in E by (change (2 ^ 8) with 256; lia).
          rewrite N.mod_pow2_bits_high in E by done. done. }
      assert (i = 2 \/ i = 3 \/ i = 4 \/ i = 5 \/ i = 6 \/ i = 7) as Hc by lia. by destruct Hc as [->|[->|[->|[->|[->| ->]]]]]. }
    rewrite Hand.
    assert (L : forall x y k, y < 2 ^ k -> N.lor (x * 2 ^ k) y = x * 2 ^ k + y).
    { intros x y k Hy. rewrite <- N.shiftl_mul_pow2. rewrite <- N.lxor_lor.
      - rewrite N.add_nocarry_lxor; [done|]. apply N.bits_inj. intros i. rewrite N.land_spec, N.bits_0.
        destruct (N.lt_ge_cases i k) as [Hi|Hi]; [by rewrite N.shiftl_spec_low|].
        rewrite <- (N.mod_small y (2 ^ k)) by done. rewrite N.mod_pow2_bits_high by done. apply andb_false_r.
      - apply N.bits_inj. intros i. rewrite N.land_spec, N.bits_0.
        destruct (N.lt_ge_cases i k) as [Hi|Hi]; [by rewrite N.shiftl_spec_low|].
        rewrite <- (N.mod_small y (2 ^ k)) by done. rewrite N.mod_pow2_bits_high by done. apply andb_false_r. }
    rewrite (L f r 8) by (change (2 ^ 8) with 256; lia).
    rewrite (L d (f * 2 ^ 8 + r) 11) by (change (2 ^ 8) with 256; change (2 ^ 11) with 2048; lia).
    rewrite (L b _ 16) by (change (2 ^ 8) with 256; change (2 ^ 11) with 2048; change (2 ^ 16) with 65536; lia).
    replace (2 ^ 31) with (1 * 2 ^ 31) at 1 by done.
    rewrite (L 1 _ 31); [lia|]. change (2 ^ 8) with 256; change (2 ^ 11) with 2048; change (2 ^ 16) with 65536; change (2 ^ 31) with 2147483648. lia. }
  clear H. change (2 ^ 8) with 256 in *. change (2 ^ 11) with 2048 in *. change (2 ^ 16) with 65536 in *. change (2 ^ 31) with 2147483648 in *.
  assert (D1 : a / 65536 = 32768 + b).
  { symmetry. apply (N.div_unique _ _ _ (d * 2048 + (f * 256 + r))); lia. }
  assert (D2 : a / 2048 = (32768 + b) * 32 + d).
  { symmetry. apply (N.div_unique _ _ _ (f * 256 + r)); lia. }
  assert (D3 : a / 256 = ((32768 + b) * 32 + d) * 8 + f).
  { symmetry. apply (N.div_unique _ _ _ r); lia. }
  assert (D4 : a / 4 = (((32768 + b) * 32 + d) * 8 + f) * 64 + r / 4).
  { symmetry. pose proof (N.div_mod r 4 ltac:(lia)). apply (N.div_unique _ _ _ 0); lia. }
  unfold pci_select. change (2 ^ 8) with 256. change (2 ^ 11) with 2048. change (2 ^ 16) with 65536.
  assert (T : N.testbit a 31 = true).
  { rewrite N.testbit_eqb. change (2 ^ 31) with 2147483648. apply N.eqb_eq.
    replace (a / 2147483648) with 1; [done|]. apply (N.div_unique _ _ _ (b * 65536 + (d * 2048 + (f * 256 + r)))); lia. }
  rewrite T, D1, D2, D3, D4.
  assert (M : forall x y n, y < n -> (x * n + y) mod n = y).
  { intros x y n Hy. rewrite N.add_comm, N.mod_add by lia. by apply N.mod_small. }
  replace ((32768 + b) mod 256) with b by (change 32768 with (128 * 256); by rewrite M).
  rewrite !M; [|pose proof (N.div_mod r 4 ltac:(lia)); lia|done|done]. do 2 f_equal.
  pose proof (N.div_mod r 4 ltac:(lia)). lia.
Qed.

(** In one process: at most the thread with the lock is past it, and if it has sent the address the bridge selects its register. *)
Definition legal (o : cop) (a : N) : Prop := pci_ok (cop_reg o) /\ pci_select a = Some (cop_reg o).
Definition replay (c : N * N * N * N -> N) (l : list (cop * N)) : N * N * N * N -> N :=
  fold_left (fun c x => match x.1 with CRead _ => c | CWrite t v => fun z => if decide (z = t) then v else c z end) l c.
Lemma in_order_app l : forall c o v, in_order c l ->
  match o with CRead t => v = replay c l t | CWrite _ _ => True end -> in_order c (l ++ [(o, v)]).
Proof.
  induction l as [|[[t|t w] v0] l IH]; intros c o v H Ho; cbn [in_order app] in *.
  - by destruct o.
  - destruct H as [H1 H2]. split; [done|]. by apply IH.
  - by apply IH.
Qed.
Lemma replay_app c l x : replay c (l ++ [x]) = match x.1 with CRead _ => replay c l | CWrite t v => fun z => if decide (z = t) then v else replay c l z end.
Proof. unfold replay. by rewrite fold_left_app. Qed.

Definition pinv1 (c : N * N * N * N -> N) (p : nat) (s : pci) : Prop :=
  in_order c (p_log s) /\ (forall z, p_cfg s z = replay c (p_log s) z) /\
  (forall t, match p_thr s p t with
             | CIdle | CDead => p_lock s p <> Some t
             | CWant o a => p_lock s p <> Some t /\ legal o a
             | CHold o a => p_lock s p = Some t /\ legal o a
             | CSent o => p_lock s p = Some t /\ legal o (p_addr s)
             end).

Lemma set1_eq {A} (f : nat -> A) i x : set1 f i x i = x.
Proof. unfold set1. by rewrite Nat.eqb_refl. Qed.
Lemma set2_eq {A} (f : nat -> nat -> A) i j x : set2 f i j x i j = x.
Proof. unfold set2. by rewrite !Nat.eqb_refl. Qed.
Lemma set2_ne {A} (f : nat -> nat -> A) i j k x : k <> j -> set2 f i j x i k = f i k.
Proof. intros H. unfold set2. rewrite (proj2 (Nat.eqb_neq k j)) by done. by rewrite andb_false_r. Qed.

Lemma pinv1_step c p t o s : pci_ok (cop_reg o) -> pinv1 c p s -> pinv1 c p (pci_step p t o s).
Proof.
  intros Ho I0. pose proof I0 as (I1 & I2 & I3). unfold pci_step. pose proof (I3 t) as It. destruct (p_thr s p t) as [|o' a|o' a|o'|] eqn:Et.
  - destruct (cop_addr o) as [a|e|] eqn:Ea.
    + split; [done|]. split; [done|]. intros u. cbn [p_thr p_lock p_addr]. destruct (Nat.eq_dec u t) as [->|Hu].
      * rewrite set2_eq. split; [done|]. split; [done|]. destruct o as [[[[b d] f] r]|[[[b d] f] r] w]; by apply select_ok.
      * rewrite set2_ne by done. exact (I3 u).
    + split; [done|]. split; [done|]. intros u. cbn [p_thr p_lock p_addr]. destruct (Nat.eq_dec u t) as [->|Hu].
      * by rewrite set2_eq.
      * rewrite set2_ne by done. exact (I3 u).
    + split; [done|]. split; [done|]. intros u. cbn [p_thr p_lock p_addr]. destruct (Nat.eq_dec u t) as [->|Hu].
      * by rewrite set2_eq.
      * rewrite set2_ne by done. exact (I3 u).
  - destruct (p_lock s p) as [h|] eqn:El; [exact I0|].
    split; [done|]. split; [done|]. intros u. cbn [p_thr p_lock p_addr]. rewrite set1_eq. destruct (Nat.eq_dec u t) as [->|Hu].
    + rewrite set2_eq. split; [done|]. tauto.
    + rewrite set2_ne by done. specialize (I3 u). destruct (p_thr s p u); try (intros [= ->]; done).
      * split; [intros [= ->]; done|tauto].
      * destruct I3; done.
      * destruct I3; done.
  - destruct It as [El Hl]. split; [done|]. split; [done|]. intros u. cbn [p_thr p_lock p_addr]. destruct (Nat.eq_dec u t) as [->|Hu].
    + by rewrite set2_eq.
    + rewrite set2_ne by done. specialize (I3 u). destruct (p_thr s p u); try done. destruct I3 as [X _]. rewrite El in X. by injection X as ->.
  - destruct It as [El [Hok Hs]].
    assert (Hrest : forall u, match set2 (p_thr s) p t CIdle p u with
             | CIdle | CDead => None <> Some u
             | CWant o a => None <> Some u /\ legal o a
             | CHold o a => None = Some u /\ legal o a
             | CSent o => None = Some u /\ legal o (p_addr s) end).
    { intros u. destruct (Nat.eq_dec u t) as [->|Hu]; [by rewrite set2_eq|]. rewrite set2_ne by done. specialize (I3 u).
      destruct (p_thr s p u); try done.
      - split; [done|tauto].
      - destruct I3 as [X _]. rewrite El in X. by injection X as ->.
      - destruct I3 as [X _]. rewrite El in X. by injection X as ->. }
    destruct o' as [x|x w]; cbn [cop_reg] in Hs, Hok; rewrite Hs.
    + split; [apply in_order_app; [done|apply I2]|]. split; [intros z; cbn [p_cfg p_log]; rewrite replay_app; apply I2|].
      intros u. cbn [p_thr p_lock p_addr]. rewrite set1_eq. exact (Hrest u).
    + split; [by apply in_order_app|]. split; [intros z; cbn [p_cfg p_log]; rewrite replay_app; cbn [fst]; by rewrite I2|].
      intros u. cbn [p_thr p_lock p_addr]. rewrite set1_eq. exact (Hrest u).
  - exact I0.
Qed.
Lemma pinv1_run c p l : forall s, (forall x, In x l -> x.1.1 = p /\ pci_ok (cop_reg x.2)) -> pinv1 c p s -> pinv1 c p (pci_run l s).
Proof.
  induction l as [|x l IH]; intros s H I; [done|]. unfold pci_run. cbn [fold_left]. apply IH; [intros y Hy; apply H; by right|].
  destruct (H x (or_introl eq_refl)) as [-> Hk]. by apply pinv1_step.
Qed.
