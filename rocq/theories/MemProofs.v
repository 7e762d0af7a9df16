(** Lemmas for C12-C15. *)
From Verif Require Import Base MemModel MemSpec.
Open Scope N_scope.
Ltac Zify.zify_post_hook ::= Z.to_euclidean_division_equations.

Lemma cov_app l1 l2 a : cov (l1 ++ l2) a = (cov l1 a + cov l2 a)%nat.
Proof. induction l1; cbn; lia. Qed.
Lemma cov_perm l1 l2 a : l1 ≡ₚ l2 -> cov l1 a = cov l2 a.
Proof. induction 1; cbn; lia. Qed.
Lemma cov_lookup l i f a : l !! i = Some f -> covers f a ->
  cov l a = S (cov (delete i l) a).
Proof.
  intros H Hc. rewrite (cov_perm l (f :: delete i l)); [|by apply delete_Permutation].
  cbn. by rewrite decide_True.
Qed.
Lemma cov_disjoint l : (forall a, (cov l a <= 1)%nat) <-> pairwise_disjoint l.
Proof.
  split.
  - intros H i j f g Hij Hi Hj a [Hf Hg]. specialize (H a).
    rewrite (cov_lookup _ _ _ _ Hi Hf) in H.
    assert (exists k, delete i l !! k = Some g) as [k Hk].
    { destruct (decide (j < i)%nat).
      - exists j. by rewrite lookup_delete_lt.
      - exists (pred j). rewrite lookup_delete_ge by lia. by replace (S (pred j)) with j by lia. }
    rewrite (cov_lookup _ _ _ _ Hk Hg) in H. lia.
  - intros H a. induction l as [|f l IH]; [cbn; lia|].
    assert (pairwise_disjoint l) as Hl.
    { intros i j f' g Hij Hi Hj. apply (H (S i) (S j)); auto. }
    specialize (IH Hl). cbn. case_decide as Hf; [|lia].
    assert (cov l a = 0)%nat; [|lia].
    clear IH Hl. assert (forall g, g ∈ l -> ~ covers g a) as Hno.
    { intros g Hg Hga. apply elem_of_list_lookup in Hg as [i Hi].
      apply (H 0%nat (S i) f g) with a; auto. }
    clear -Hno. induction l as [|g l IH]; [done|]. cbn. rewrite decide_False; [apply IH|]; set_solver.
Qed.
Lemma cov_zero_elem l a : cov l a = 0%nat <-> forall f, f ∈ l -> ~ covers f a.
Proof.
  induction l as [|g l IH]; cbn; [set_solver|]. case_decide.
  - split; [lia|]. intros Hx. exfalso. apply (Hx g); [set_solver|done].
  - rewrite IH. set_solver.
Qed.

Lemma covers_empty f a : f_size f = 0 -> ~ covers f a.
Proof. unfold covers. lia. Qed.

Lemma frame_new_ok b s n : b mod 4096 = 0 -> s mod 4096 = 0 -> frame_new b s n = Ok (mkFrame b s n).
Proof. intros. unfold frame_new, BASE_PAGE. by rewrite decide_True. Qed.

(** Splitting. *)
Lemma split_at_spec f size :
  aligned f -> size mod 4096 = 0 ->
  exists lo hi, split_at f size = Ok (lo, hi) /\ aligned lo /\ aligned hi /\
    (forall a, cov [lo; hi] a = cov [f] a) /\
    f_base lo = f_base f /\ f_size lo = N.min size (f_size f) /\
    f_size lo + f_size hi = f_size f /\ f_aff lo = f_aff f /\
    (f_size hi <> 0 -> f_base hi = f_base f + size /\ f_aff hi = f_aff f).
Proof.
  intros [Ha Hb] Hs. unfold split_at, BASE_PAGE. rewrite decide_True by done.
  case_decide as Hle.
  - exists f, frame_empty. unfold aligned. cbn. split_and!; auto; try lia.
    intros a. rewrite (decide_False (P:=covers frame_empty a)); [lia|]. by apply covers_empty.
  - rewrite !frame_new_ok; try done; [|lia|lia].
    eexists _, _. split; [done|]. unfold aligned. cbn.
    assert ((f_base f + size) mod 4096 = 0) by lia.
    assert ((f_size f - size) mod 4096 = 0) by lia.
    split_and!; auto; try lia.
    intros a. unfold covers. cbn. repeat case_decide; lia.
Qed.

Lemma round_up_spec x m : 0 < m -> x <= round_up x m /\ round_up x m < x + m /\ round_up x m mod m = 0.
Proof.
  intros Hm. unfold round_up. split_and!.
  - pose proof (N.div_mod (x + m - 1) m ltac:(lia)). pose proof (N.mod_lt (x + m - 1) m ltac:(lia)). lia.
  - pose proof (N.div_mod (x + m - 1) m ltac:(lia)). lia.
  - apply N.mod_mul. lia.
Qed.

Lemma split_at_large_spec f :
  aligned f ->
  exists lo hi, split_at_large f = Ok (lo, hi) /\ aligned lo /\ aligned hi /\
    (forall a, cov [lo; hi] a = cov [f] a) /\
    f_base hi mod LARGE_PAGE = 0 /\ f_size lo < LARGE_PAGE /\
    f_size lo + f_size hi = f_size f /\
    (f_size lo <> 0 -> f_base lo = f_base f /\ f_aff lo = f_aff f) /\
    (f_size hi <> 0 -> f_base hi = f_base f + f_size lo /\ f_aff hi = f_aff f).
Proof.
  intros Hf. unfold split_at_large. case_decide as Hd.
  - exists frame_empty, f. cbn. split_and!; auto; try done; try lia.
    intros a. rewrite (decide_False (P:=covers frame_empty a)); [lia|]. by apply covers_empty.
  - destruct (round_up_spec (f_base f) LARGE_PAGE) as (H1 & H2 & H3); [done|].
    set (k := round_up (f_base f) LARGE_PAGE) in *.
    destruct Hf as [Ha Hb].
    assert (Hk : (k - f_base f) mod 4096 = 0) by (unfold LARGE_PAGE in *; lia).
    destruct (split_at_spec f (k - f_base f)) as (lo & hi & E & Hlo & Hhi & Hc & B & S & S2 & A & Hi); [done|done|].
    exists lo, hi. rewrite E. split_and!; auto; try lia.
    destruct (decide (f_size hi = 0)) as [Hz|Hz].
    * unfold split_at in E. unfold BASE_PAGE in E. rewrite decide_True in E by done.
      case_decide; [injection E as <- <-; done|]. exfalso. lia.
    * destruct (Hi Hz) as [-> _]. replace (f_base f + (k - f_base f)) with k by lia. done.
Qed.

(** Iteration page by page. *)
Lemma frame_next_spec f : aligned f ->
  match frame_next f with
  | Ok None => f_size f = 0
  | Ok (Some (p, rest)) =>
      aligned p /\ aligned rest /\ f_size p = 4096 /\ f_base p = f_base f /\ f_aff p = f_aff f /\
      (forall a, cov [p; rest] a = cov [f] a) /\ f_size rest + 4096 = f_size f /\
      (f_size rest <> 0 -> f_base rest = f_base f + 4096 /\ f_aff rest = f_aff f)
  | _ => False
  end.
Proof.
  intros Hf. unfold frame_next, BASE_PAGE. destruct (N.compare_spec (f_size f) 4096) as [H|H|H].
  - destruct Hf. unfold aligned. cbn. split_and!; auto; try lia.
    intros a. rewrite (decide_False (P:=covers frame_empty a)); [lia|]. by apply covers_empty.
  - destruct Hf. lia.
  - destruct (split_at_spec f 4096) as (lo & hi & E & Hlo & Hhi & Hc & B & S & S2 & A & Hi); [done|done|].
    rewrite E. split_and!; auto; try lia; apply Hi.
Qed.

Lemma iter_pages_spec fuel : forall f, aligned f -> (N.to_nat (base_pages f) < fuel)%nat ->
  exists l, iter_pages fuel f = Ok l /\
    N.of_nat (length l) = base_pages f /\
    (forall i p, l !! i = Some p -> f_size p = 4096 /\ f_base p = f_base f + 4096 * N.of_nat i /\ f_aff p = f_aff f) /\
    (forall a, cov l a = cov [f] a).
Proof.
  induction fuel as [|fuel IH]; intros f Hf Hfuel; [lia|]. cbn.
  pose proof (frame_next_spec f Hf) as Hn.
  destruct (frame_next f) as [[[p rest]|]| |]; try done.
  - destruct Hn as (Hp & Hr & Sp & Bp & Ap & Hc & Hs & Hb).
    assert (Hbp : base_pages f = base_pages rest + 1).
    { unfold base_pages, BASE_PAGE in *. destruct Hf, Hr. lia. }
    destruct (IH rest Hr) as (l & E & Hl & Hi & Hcl); [lia|].
    rewrite E. exists (p :: l). split; [done|]. split; [cbn; lia|]. split.
    + intros [|i] q Hq; cbn in Hq; [injection Hq as <-; split_and!; auto; cbn; lia|].
      destruct (Hi i q Hq) as (? & ? & ?).
      assert (f_size rest <> 0) as Hz.
      { intros Hz. assert (base_pages rest = 0) by (unfold base_pages, BASE_PAGE; lia).
        apply lookup_lt_Some in Hq. lia. }
      destruct (Hb Hz) as [Hbr ?]. assert (f_base q = f_base f + 4096 * N.of_nat (S i)) as Hq2 by lia. split; [done|]. split; [exact Hq2|congruence].
    + intros a. specialize (Hc a). specialize (Hcl a). cbn in *. lia.
  - exists []. split; [done|]. split; [unfold base_pages; by rewrite Hn|]. split; [done|].
    intros a. cbn. rewrite decide_False; [done|]. by apply covers_empty.
Qed.

(** ** Emergency allocator *)
Lemma emem_alloc_spec r size align :
  aligned r -> align <= 4096 ->
  match emem_alloc r size align with
  | (Ok f, r') => aligned f /\ aligned r' /\ size <= f_size f /\ f_size f < size + 4096 /\
       (forall a, cov [f; r'] a = cov [r] a) /\ f_base f = f_base r /\
       f_size f + f_size r' = f_size r
  | (Err e, r') => e = CacheExhausted /\ r' = r /\ f_size r < size + 4096
  | (Panic, _) => False
  end.
Proof.
  intros Hr Ha. unfold emem_alloc, BASE_PAGE. rewrite decide_True by done.
  destruct (round_up_spec size 4096) as (H1 & H2 & H3); [done|].
  case_decide as Hle.
  - destruct (split_at_spec r (round_up size 4096)) as (lo & hi & E & Hlo & Hhi & Hc & B & S & S2 & A & Hi); [done|done|].
    rewrite E. rewrite S. split_and!; auto; lia.
  - split_and!; auto. lia.
Qed.

(** ** Page caches *)
Definition mc_ok (c : mcache) : Prop :=
  Forall (fun a => a mod 4096 = 0) (mc_base c) /\ Forall (fun a => a mod LARGE_PAGE = 0) (mc_large c).

Lemma cov_frame_addr b s n n' a : cov [mkFrame b s n] a = cov [mkFrame b s n'] a.
Proof. cbn. unfold covers. cbn. repeat case_decide; lia. Qed.
Lemma cov_map_aff (g : N -> N -> frame) l n n' a :
  (forall x, cov [g n x] a = cov [g n' x] a) -> cov (map (g n) l) a = cov (map (g n') l) a.
Proof. intros H. induction l as [|x l IH]; [done|]. cbn in *. specialize (H x). lia. Qed.
Lemma cov_bframe x n a : cov [bframe n x] a = cov [mkFrame x 4096 0] a.
Proof. apply cov_frame_addr. Qed.

Lemma push_pages_spec fuel : forall BP f st node, aligned f -> (N.to_nat (base_pages f) < fuel)%nat ->
  (length st <= BP)%nat -> Forall (fun a => a mod 4096 = 0) st ->
  exists st' lost, push_pages fuel BP f st = Ok (st', lost) /\
    Forall (fun a => a mod 4096 = 0) st' /\ (length st' <= BP)%nat /\
    (forall a, (cov (map (bframe node) st') a <= cov [f] a + cov (map (bframe node) st) a)%nat) /\
    (length st' < BP -> lost = false)%nat /\
    (lost = false -> forall a, cov (map (bframe node) st') a = (cov [f] a + cov (map (bframe node) st) a)%nat) /\
    (lost = false -> N.of_nat (length st') = N.of_nat (length st) + base_pages f) /\
    (length st <= length st')%nat.
Proof.
  induction fuel as [|fuel IH]; intros BP f st node Hf Hfuel Hlen Hst; [lia|].
  cbn [push_pages]. pose proof (frame_next_spec f Hf) as Hn.
  destruct (frame_next f) as [[[p rest]|]| |]; try done.
  - destruct Hn as (Hp & Hr & Sp & Bp & Ap & Hc & Hs & Hb).
    assert (Hbp : base_pages f = base_pages rest + 1).
    { unfold base_pages, BASE_PAGE in *. destruct Hf, Hr. lia. }
    unfold try_push. case_decide as Hd.
    + destruct (IH BP rest (f_base p :: st) node) as (st' & lost & E & K1 & K2 & K3 & K4 & K5 & K6 & K7);
        [done|lia|cbn; lia|constructor; [apply Hp|done]|].
      exists st', lost. split; [done|]. split; [done|]. split; [done|].
      assert (Hpa : forall a, cov [bframe node (f_base p)] a = cov [p] a).
      { intros a. destruct p as [b s n]. cbn in Sp. subst s. apply cov_frame_addr. }
      split_and!; auto.
      * intros a. specialize (K3 a). specialize (Hc a). specialize (Hpa a). cbn in *. lia.
      * intros Hl a. specialize (K5 Hl a). specialize (Hc a). specialize (Hpa a). cbn in *. lia.
      * intros Hl. specialize (K6 Hl). cbn in K6. lia.
      * cbn in K7. lia.
    + exists st, true. split_and!; auto; try done; try lia.
  - exists st, false.
    assert (forall a, cov [f] a = 0%nat) as Hz.
    { intros a. apply cov_zero_elem. intros g Hg; apply elem_of_list_singleton in Hg as ->; by apply covers_empty. }
    split_and!; auto; intros; rewrite ?Hz; try lia.
    unfold base_pages. rewrite Hn. cbn. lia.
Qed.

Lemma push_large_spec k : forall LP f st lost node, aligned f -> f_base f mod LARGE_PAGE = 0 ->
  (length st <= LP)%nat -> Forall (fun a => a mod LARGE_PAGE = 0) st ->
  exists rest st' lost', push_large k LP f st lost = Ok (rest, st', lost') /\
    aligned rest /\ Forall (fun a => a mod LARGE_PAGE = 0) st' /\ (length st' <= LP)%nat /\
    lost <= lost' /\ (length st <= length st')%nat /\
    (forall a, (cov [rest] a + cov (map (lframe node) st') a <= cov [f] a + cov (map (lframe node) st) a)%nat) /\
    (length st' < LP -> lost' = lost)%nat /\
    (lost' = lost -> forall a, (cov [rest] a + cov (map (lframe node) st') a = cov [f] a + cov (map (lframe node) st) a)%nat) /\
    f_size rest + (N.of_nat (length st') - N.of_nat (length st) + (lost' - lost)) * LARGE_PAGE = f_size f /\
    f_size rest <= f_size f /\
    (f_size rest < LARGE_PAGE \/ N.of_nat (length st') - N.of_nat (length st) + (lost' - lost) = N.of_nat k).
Proof.
  induction k as [|k IH]; intros LP f st lost node Hf Hb Hlen Hst; cbn [push_large].
  - exists f, st, lost. split_and!; auto; try lia.
  - case_decide as Hd.
    2:{ exists f, st, lost. split_and!; auto; try lia. }
    destruct (split_at_spec f LARGE_PAGE) as (lo & hi & E & Hlo & Hhi & Hc & B & S & S2 & A & Hi); [done|done|].
    rewrite E.
    assert (Slo : f_size lo = LARGE_PAGE) by lia.
    assert (Hhib : f_base hi mod LARGE_PAGE = 0).
    { destruct (decide (f_size hi = 0)) as [Hz|Hz].
      - unfold split_at in E. rewrite decide_True in E by done.
        case_decide; [injection E as <- <-; done|]. exfalso. lia.
      - destruct (Hi Hz) as [-> _]. rewrite N.add_mod by done. by rewrite Hb. }
    assert (Hpa : forall a, cov [lframe node (f_base lo)] a = cov [lo] a).
    { intros a. destruct lo as [b s n]. cbn in Slo. subst s. apply cov_frame_addr. }
    unfold try_push. case_decide as Hp.
    + destruct (IH LP hi (f_base lo :: st) lost node) as (rest & st' & lost' & E' & K1 & K2 & K3 & K4 & K5 & K6 & K7 & K8 & K9 & K10 & K11);
        [done|done|cbn; lia|constructor; [by rewrite B|done]|].
      exists rest, st', lost'. cbn [length] in *. split; [done|]. split_and!; auto; try lia; try (unfold LARGE_PAGE in *; lia).
      * intros a. specialize (K6 a). specialize (Hc a). specialize (Hpa a). cbn in *. lia.
      * intros Hl a. specialize (K8 Hl a). specialize (Hc a). specialize (Hpa a). cbn in *. lia.
    + destruct (IH LP hi st (lost + 1) node) as (rest & st' & lost' & E' & K1 & K2 & K3 & K4 & K5 & K6 & K7 & K8 & K9 & K10 & K11); [done|done|done|done|].
      exists rest, st', lost'. split; [done|]. split_and!; auto; try lia; try (unfold LARGE_PAGE in *; lia).
      * intros a. specialize (K6 a). specialize (Hc a). cbn in *. lia.
Qed.

Definition fits (BP LP : nat) (c : mcache) : Prop :=
  (length (mc_base c) <= BP /\ length (mc_large c) <= LP)%nat.

Lemma populate_spec BP LP c f k :
  mc_ok c -> fits BP LP c -> aligned f ->
  exists lost c', populate BP LP c f k = (Ok lost, c') /\ mc_ok c' /\ fits BP LP c' /\
    mc_node c' = mc_node c /\
    (forall a, (cov (frames c') a <= cov [f] a + cov (frames c) a)%nat) /\
    ((length (mc_base c') < BP -> length (mc_large c') < LP ->
       forall a, cov (frames c') a = cov [f] a + cov (frames c) a))%nat.
Proof.
  intros [Hb Hl] [Fb Fl] Hf. unfold populate.
  set (kk := if decide (k = 0) then 1 else k). clearbody kk.
  destruct (split_at_large_spec f Hf) as (lo & hi & E & Hlo & Hhi & Hc & Hhb & _).
  rewrite E.
  destruct (push_pages_spec (S (N.to_nat (base_pages lo))) BP lo (mc_base c) (mc_node c))
    as (b1 & l1 & E1 & K1 & K2 & K3 & K4 & K5 & _ & K6); [done|lia|done|done|].
  rewrite E1.
  destruct (push_large_spec (N.to_nat kk) LP hi (mc_large c) 0 (mc_node c))
    as (rest & st' & lost' & E2 & M1 & M2 & M3 & M4 & M5 & M6 & M7 & M8 & _); [done|done|done|done|].
  rewrite E2.
  destruct (push_pages_spec (S (N.to_nat (base_pages rest))) BP rest b1 (mc_node c))
    as (b2 & l2 & E3 & P1 & P2 & P3 & P4 & P5 & _ & P6); [done|lia|done|done|].
  rewrite E3. eexists _, _. split; [done|]. split; [done|]. split; [done|]. split; [done|]. cbn.
  unfold frames. cbn. split.
  - intros a. rewrite !cov_app. specialize (Hc a). specialize (K3 a). specialize (M6 a). specialize (P3 a). cbn in *. lia.
  - intros H1 H2 a. rewrite !cov_app. specialize (Hc a).
    rewrite (P5 (P4 H1)). rewrite (K5 (K4 ltac:(lia))). specialize (M8 (M7 H2) a).
    cbn in *. lia.
Qed.

Lemma populate4k_spec dbg BP LP c f :
  (dbg = false \/ N.of_nat BP * 4096 <= 2097152) -> mc_ok c -> fits BP LP c -> aligned f ->
  exists lost c', populate_4k_first dbg BP LP c f = (Ok lost, c') /\ mc_ok c' /\ fits BP LP c' /\
    mc_node c' = mc_node c /\
    (forall a, (cov (frames c') a <= cov [f] a + cov (frames c) a)%nat) /\
    ((length (mc_base c') < BP -> length (mc_large c') < LP ->
       forall a, cov (frames c') a = cov [f] a + cov (frames c) a))%nat.
Proof.
  intros Hd H1 H2 H3. unfold populate_4k_first. case_decide; [by apply populate_spec|].
  destruct Hd as [->|Hd]; [by apply populate_spec|].
  rewrite bool_decide_eq_true_2 by (unfold BASE_PAGE, LARGE_PAGE; lia).
  rewrite andb_false_r. by apply populate_spec.
Qed.

Lemma cov_cons f l a : cov (f :: l) a = (cov [f] a + cov l a)%nat.
Proof. cbn. lia. Qed.

Lemma alloc_base_spec BP LP c : mc_ok c -> fits BP LP c ->
  match mc_alloc_base c with
  | (Ok f, c') => mc_ok c' /\ fits BP LP c' /\ mc_node c' = mc_node c /\
      f = bframe (mc_node c) (f_base f) /\ f_base f mod 4096 = 0 /\
      (forall a, cov (f :: frames c') a = cov (frames c) a)%nat /\ length (mc_base c) = S (length (mc_base c'))
  | (Err e, c') => e = CacheExhausted /\ c' = c /\ mc_base c = []
  | (Panic, _) => False
  end.
Proof.
  intros [Hb Hl] [Fb Fl]. unfold mc_alloc_base. destruct (mc_base c) as [|pa l] eqn:E; [done|].
  inversion Hb; subst. rewrite frame_new_ok by done. cbn [length] in Fb.
  split; [by split|]. split; [split; cbn [mc_base mc_large]; lia|]. split_and!; try done.
  intros a. unfold frames. cbn. rewrite E. cbn. done.
Qed.
Lemma alloc_large_spec BP LP c : mc_ok c -> fits BP LP c ->
  match mc_alloc_large c with
  | (Ok f, c') => mc_ok c' /\ fits BP LP c' /\ mc_node c' = mc_node c /\
      f = lframe (mc_node c) (f_base f) /\ f_base f mod LARGE_PAGE = 0 /\
      (forall a, cov (f :: frames c') a = cov (frames c) a)%nat /\ length (mc_large c) = S (length (mc_large c'))
  | (Err e, c') => e = CacheExhausted /\ c' = c /\ mc_large c = []
  | (Panic, _) => False
  end.
Proof.
  intros [Hb Hl] [Fb Fl]. unfold mc_alloc_large. destruct (mc_large c) as [|pa l] eqn:E; [done|].
  inversion Hl; subst. rewrite frame_new_ok; [|unfold LARGE_PAGE in *; lia|done]. cbn [length] in Fl.
  split; [by split|]. split; [split; cbn [mc_base mc_large]; lia|]. split_and!; try done.
  intros a. unfold frames. cbn [mc_base mc_large mc_node]. rewrite E.
  rewrite cov_cons, !cov_app. cbn [map]. rewrite (cov_cons (lframe _ _)). unfold lframe. lia.
Qed.
Lemma release_base_spec BP LP c f : mc_ok c -> fits BP LP c ->
  match mc_release_base BP c f with
  | (Ok _, c') => mc_ok c' /\ fits BP LP c' /\ mc_node c' = mc_node c /\
      (forall a, cov (frames c') a = cov (f :: frames c) a)%nat /\
      f = bframe (mc_node c) (f_base f) /\ mc_base c' = f_base f :: mc_base c /\ mc_large c' = mc_large c
  | (Err e, c') => e = CacheFull /\ c' = c /\ length (mc_base c) = BP
  | (Panic, c') => c' = c
  end.
Proof.
  intros [Hb Hl] [Fb Fl]. unfold mc_release_base, try_push.
  case_decide as Hd; [|done]. destruct Hd as (Hs & Hm & Ha). case_decide.
  - split; [by split; [constructor|]|]. split; [split; cbn; lia|]. split_and!; try done.
    + intros a. unfold frames. cbn. destruct f as [b s n]. cbn in *. subst. done.
    + destruct f; cbn in *; subst; done.
  - split_and!; try done; lia.
Qed.
Lemma release_large_spec BP LP c f : mc_ok c -> fits BP LP c ->
  match mc_release_large LP c f with
  | (Ok _, c') => mc_ok c' /\ fits BP LP c' /\ mc_node c' = mc_node c /\
      (forall a, cov (frames c') a = cov (f :: frames c) a)%nat /\
      f = lframe (mc_node c) (f_base f) /\ mc_large c' = f_base f :: mc_large c /\ mc_base c' = mc_base c
  | (Err e, c') => e = CacheFull /\ c' = c /\ length (mc_large c) = LP
  | (Panic, c') => c' = c
  end.
Proof.
  intros [Hb Hl] [Fb Fl]. unfold mc_release_large, try_push.
  case_decide as Hd; [|done]. destruct Hd as (Hs & Hm & Ha). case_decide.
  - split; [split; [done|by constructor]|]. split; [split; cbn; lia|]. split_and!; try done.
    + intros a. unfold frames. cbn [mc_base mc_large mc_node map]. rewrite !cov_app, (cov_cons f), (cov_cons (lframe _ _)), cov_app.
      destruct f as [b s n]. cbn [f_base f_size f_aff] in *. subst. unfold lframe. lia.
    + destruct f; cbn in *; subst; done.
  - split_and!; try done; lia.
Qed.
Lemma grow_base_spec BP LP fs : forall c, mc_ok c -> fits BP LP c ->
  match mc_grow_base BP c fs with
  | (Ok _, c') => mc_ok c' /\ fits BP LP c' /\ mc_node c' = mc_node c /\
      (forall a, cov (frames c') a = cov (fs ++ frames c) a)%nat
  | (Err e, c') => e = CacheFull /\ mc_ok c' /\ fits BP LP c' /\ mc_node c' = mc_node c /\
      (forall a, cov (frames c') a <= cov (fs ++ frames c) a)%nat
  | (Panic, c') => True
  end.
Proof.
  induction fs as [|f fs IH]; intros c Hc Hf; [done|]. cbn [mc_grow_base].
  pose proof (release_base_spec BP LP c f Hc Hf) as Hr.
  destruct (mc_release_base BP c f) as [[u|e|] c1]; [|destruct Hr as (-> & -> & _)|done].
  - destruct Hr as (R1 & R2 & R3 & R4 & _). specialize (IH c1 R1 R2).
    destruct (mc_grow_base BP c1 fs) as [[u'|e|] c2]; [| |done].
    + destruct IH as (I1 & I2 & I3 & I4). split_and!; auto; [congruence|].
      intros a. rewrite I4. rewrite <- app_comm_cons, cov_cons, !cov_app, R4, cov_cons. lia.
    + destruct IH as (-> & I1 & I2 & I3 & I4). split_and!; auto; [congruence|].
      intros a. specialize (I4 a). specialize (R4 a). rewrite <- app_comm_cons. rewrite cov_cons in R4 |- *. rewrite cov_app in I4 |- *. lia.
  - split_and!; auto. intros a. rewrite cov_app. lia.
Qed.
Lemma grow_large_spec BP LP fs : forall c, mc_ok c -> fits BP LP c ->
  match mc_grow_large LP c fs with
  | (Ok _, c') => mc_ok c' /\ fits BP LP c' /\ mc_node c' = mc_node c /\
      (forall a, cov (frames c') a = cov (fs ++ frames c) a)%nat
  | (Err e, c') => e = CacheFull /\ mc_ok c' /\ fits BP LP c' /\ mc_node c' = mc_node c /\
      (forall a, cov (frames c') a <= cov (fs ++ frames c) a)%nat
  | (Panic, c') => True
  end.
Proof.
  induction fs as [|f fs IH]; intros c Hc Hf; [done|]. cbn [mc_grow_large].
  pose proof (release_large_spec BP LP c f Hc Hf) as Hr.
  destruct (mc_release_large LP c f) as [[u|e|] c1]; [|destruct Hr as (-> & -> & _)|done].
  - destruct Hr as (R1 & R2 & R3 & R4 & _). specialize (IH c1 R1 R2).
    destruct (mc_grow_large LP c1 fs) as [[u'|e|] c2]; [| |done].
    + destruct IH as (I1 & I2 & I3 & I4). split_and!; auto; [congruence|].
      intros a. rewrite I4. rewrite <- app_comm_cons, cov_cons, !cov_app, R4, cov_cons. lia.
    + destruct IH as (-> & I1 & I2 & I3 & I4). split_and!; auto; [congruence|].
      intros a. specialize (I4 a). specialize (R4 a). rewrite <- app_comm_cons. rewrite cov_cons in R4 |- *. rewrite cov_app in I4 |- *. lia.
  - split_and!; auto. intros a. rewrite cov_app. lia.
Qed.
Lemma reap_base_spec BP LP n : forall c, mc_ok c -> fits BP LP c ->
  match mc_reap_base n c with
  | (Ok r, c') => mc_ok c' /\ fits BP LP c' /\ mc_node c' = mc_node c /\
      Forall (fun f => f = bframe (mc_node c) (f_base f) /\ f_base f mod 4096 = 0) r /\
      (forall a, cov (r ++ frames c') a = cov (frames c) a)%nat /\
      length r = Nat.min n (length (mc_base c))
  | _ => False
  end.
Proof.
  induction n as [|n IH]; intros c Hc Hf; [cbn; by split_and!|]. cbn [mc_reap_base].
  pose proof (alloc_base_spec BP LP c Hc Hf) as Ha.
  destruct (mc_alloc_base c) as [[f|e|] c1]; [|destruct Ha as (-> & -> & E)|done].
  - destruct Ha as (A1 & A2 & A3 & A4 & A5 & A6 & A7). specialize (IH c1 A1 A2).
    destruct (mc_reap_base n c1) as [[r|e|] c2]; try done.
    destruct IH as (I1 & I2 & I3 & I4 & I5 & I6). rewrite A3 in I4. split_and!; auto; [congruence| |].
    2:{ cbn [length]. lia. }
    intros a. specialize (I5 a). specialize (A6 a). cbn in *. lia.
  - rewrite E. cbn. split_and!; auto.
Qed.
Lemma reap_large_spec BP LP n : forall c, mc_ok c -> fits BP LP c ->
  match mc_reap_large n c with
  | (Ok r, c') => mc_ok c' /\ fits BP LP c' /\ mc_node c' = mc_node c /\
      Forall (fun f => f = lframe (mc_node c) (f_base f) /\ f_base f mod LARGE_PAGE = 0) r /\
      (forall a, cov (r ++ frames c') a = cov (frames c) a)%nat /\
      length r = Nat.min n (length (mc_large c))
  | _ => False
  end.
Proof.
  induction n as [|n IH]; intros c Hc Hf; [cbn; by split_and!|]. cbn [mc_reap_large].
  pose proof (alloc_large_spec BP LP c Hc Hf) as Ha.
  destruct (mc_alloc_large c) as [[f|e|] c1]; [|destruct Ha as (-> & -> & E)|done].
  - destruct Ha as (A1 & A2 & A3 & A4 & A5 & A6 & A7). specialize (IH c1 A1 A2).
    destruct (mc_reap_large n c1) as [[r|e|] c2]; try done.
    destruct IH as (I1 & I2 & I3 & I4 & I5 & I6). rewrite A3 in I4. split_and!; auto; [congruence| |].
    2:{ cbn [length]. lia. }
    intros a. specialize (I5 a). specialize (A6 a). cbn in *. lia.
  - rewrite E. cbn. split_and!; auto.
Qed.

(** What a caller receives: page-sized, page-aligned, of the cache's node. *)
Definition good_page (n : N) (f : frame) : Prop :=
  f_aff f = n /\ ((f_size f = 4096 /\ f_base f mod 4096 = 0) \/ (f_size f = 2097152 /\ f_base f mod 2097152 = 0)).
Lemma good_page_aligned n f : good_page n f -> aligned f.
Proof. unfold aligned. intros [_ [[-> ?]|[-> ?]]]; split; lia. Qed.
Lemma good_bframe n f : f = bframe n (f_base f) /\ f_base f mod 4096 = 0 -> good_page n f.
Proof. intros [-> ?]. split; [done|]. left. done. Qed.
Lemma good_lframe n f : f = lframe n (f_base f) /\ f_base f mod LARGE_PAGE = 0 -> good_page n f.
Proof. intros [-> ?]. split; [done|]. right. done. Qed.

Lemma mc_step_spec dbg BP LP c op :
  (dbg = false \/ N.of_nat BP * 4096 <= 2097152) -> mc_ok c -> fits BP LP c -> Forall aligned (gives op) ->
  match mc_step dbg BP LP c op with
  | (Ok r, c') => mc_ok c' /\ fits BP LP c' /\ mc_node c' = mc_node c /\
      Forall (good_page (mc_node c)) r /\
      (forall a, cov (r ++ frames c') a <= cov (gives op ++ frames c) a)%nat /\
      (match op with Populate4K _ | Populate2M _ => length (mc_base c') < BP /\ length (mc_large c') < LP | _ => True end
        -> forall a, cov (r ++ frames c') a = cov (gives op ++ frames c) a)%nat
  | (Err e, c') => mc_ok c' /\ fits BP LP c' /\ mc_node c' = mc_node c /\
      (match op with GrowBase _ | GrowLarge _ => True | _ => c' = c end) /\
      (forall a, cov (frames c') a <= cov (gives op ++ frames c) a)%nat
  | (Panic, _) => True
  end.
Proof.
  intros Hd Hc Hf Hg. destruct op as [f|f|fs|fs| | |f|f|n|n]; cbn [mc_step gives] in *.
  - rewrite Forall_singleton in Hg.
    destruct (populate4k_spec dbg BP LP c f Hd Hc Hf Hg) as (lost & c' & E & P1 & P2 & P3 & P4 & P5).
    rewrite E. cbn [fst snd]. split_and!; auto.
    + intros a. rewrite (cov_app [f]). apply P4.
    + intros [H1 H2] a. rewrite (cov_app [f]). by apply P5.
  - rewrite Forall_singleton in Hg. unfold populate_2m_first.
    destruct (populate_spec BP LP c f (f_size f / LARGE_PAGE * 87 / 100) Hc Hf Hg) as (lost & c' & E & P1 & P2 & P3 & P4 & P5).
    rewrite E. cbn [fst snd]. split_and!; auto.
    + intros a. rewrite (cov_app [f]). apply P4.
    + intros [H1 H2] a. rewrite (cov_app [f]). by apply P5.
  - pose proof (grow_base_spec BP LP fs c Hc Hf) as H.
    destruct (mc_grow_base BP c fs) as [[u|e|] c']; cbn [fst snd]; [| |done].
    + destruct H as (? & ? & ? & H4). split_and!; auto. intros a. cbn [app]. by rewrite H4.
    + destruct H as (-> & ? & ? & ? & H4). by split_and!.
  - pose proof (grow_large_spec BP LP fs c Hc Hf) as H.
    destruct (mc_grow_large LP c fs) as [[u|e|] c']; cbn [fst snd]; [| |done].
    + destruct H as (? & ? & ? & H4). split_and!; auto. intros a. cbn [app]. by rewrite H4.
    + destruct H as (-> & ? & ? & ? & H4). by split_and!.
  - pose proof (alloc_base_spec BP LP c Hc Hf) as H.
    destruct (mc_alloc_base c) as [[f|e|] c']; cbn [fst snd]; [| |done].
    + destruct H as (? & ? & ? & H4 & H5 & H6 & _). split_and!; auto.
      * apply Forall_singleton, good_bframe; auto.
      * intros a. cbn [app]. by rewrite H6.
    + destruct H as (-> & -> & _). by split_and!.
  - pose proof (alloc_large_spec BP LP c Hc Hf) as H.
    destruct (mc_alloc_large c) as [[f|e|] c']; cbn [fst snd]; [| |done].
    + destruct H as (? & ? & ? & H4 & H5 & H6 & _). split_and!; auto.
      * apply Forall_singleton, good_lframe; auto.
      * intros a. cbn [app]. by rewrite H6.
    + destruct H as (-> & -> & _). by split_and!.
  - pose proof (release_base_spec BP LP c f Hc Hf) as H.
    destruct (mc_release_base BP c f) as [[u|e|] c']; cbn [fst snd]; [| |done].
    + destruct H as (? & ? & ? & H4 & _). split_and!; auto. intros a. cbn [app]. by rewrite H4.
    + destruct H as (-> & -> & _). split_and!; auto. intros a. rewrite cov_app. lia.
  - pose proof (release_large_spec BP LP c f Hc Hf) as H.
    destruct (mc_release_large LP c f) as [[u|e|] c']; cbn [fst snd]; [| |done].
    + destruct H as (? & ? & ? & H4 & _). split_and!; auto. intros a. cbn [app]. by rewrite H4.
    + destruct H as (-> & -> & _). split_and!; auto. intros a. rewrite cov_app. lia.
  - pose proof (reap_base_spec BP LP n c Hc Hf) as H.
    destruct (mc_reap_base n c) as [[r|e|] c']; try done.
    destruct H as (? & ? & ? & H4 & H5 & _). split_and!; auto.
    + eapply Forall_impl; [exact H4|]. apply good_bframe.
    + intros a. cbn [app]. by rewrite H5.
  - pose proof (reap_large_spec BP LP n c Hc Hf) as H.
    destruct (mc_reap_large n c) as [[r|e|] c']; try done.
    destruct H as (? & ? & ? & H4 & H5 & _). split_and!; auto.
    + eapply Forall_impl; [exact H4|]. apply good_lframe.
    + intros a. cbn [app]. by rewrite H5.
Qed.

Lemma whist_inv dbg BP LP w w' :
  (dbg = false \/ N.of_nat BP * 4096 <= 2097152) ->
  whist dbg BP LP w w' -> mc_ok w.1 -> fits BP LP w.1 -> Forall aligned w.2 ->
  mc_ok w'.1 /\ fits BP LP w'.1 /\ Forall aligned w'.2 /\ mc_node w'.1 = mc_node w.1 /\
  forall a, (cov (w'.2 ++ frames w'.1) a <= cov (w.2 ++ frames w.1) a)%nat.
Proof.
  intros Hd. induction 1 as [w|w1 op w2 w3 Hs _ IH]; intros Hc Hf Ha; [by split_and!|].
  destruct Hs as (rest & Hp & Hs).
  assert (Forall aligned (gives op) /\ Forall aligned rest) as [Hg Hr].
  { rewrite Hp in Ha. by apply Forall_app in Ha. }
  pose proof (mc_step_spec dbg BP LP w1.1 op Hd Hc Hf Hg) as Hsp.
  destruct (mc_step dbg BP LP w1.1 op) as [[r|e|] c']; [| |done]; subst w2; cbn [fst snd] in *.
  - destruct Hsp as (S1 & S2 & S3 & S4 & S5 & _).
    destruct IH as (I1 & I2 & I3 & I4 & I5); auto.
    { apply Forall_app. split; [|done]. eapply Forall_impl; [exact S4|]. apply good_page_aligned. }
    split_and!; auto; [congruence|]. intros a. specialize (I5 a). specialize (S5 a).
    rewrite (cov_app w1.2), (cov_perm _ _ a Hp). rewrite !cov_app in *. lia.
  - destruct Hsp as (S1 & S2 & S3 & S4 & S5).
    assert (Hle : forall a, (cov (match op with GrowBase _ | GrowLarge _ => rest | _ => w1.2 end ++ frames c') a
                  <= cov (w1.2 ++ frames w1.1) a)%nat).
    { intros a. specialize (S5 a). rewrite !cov_app in *. destruct op; subst; try lia;
        rewrite (cov_perm _ _ a Hp), cov_app; lia. }
    destruct IH as (I1 & I2 & I3 & I4 & I5); auto.
    { by destruct op. }
    split_and!; auto; [congruence|]. intros a. specialize (I5 a). specialize (Hle a). lia.
Qed.
