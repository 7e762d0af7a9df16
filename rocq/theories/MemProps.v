(** Properties C12-C15: frames, page caches, emergency allocator, page counts. *)
From Verif Require Import Base MemModel MemSpec MemProofs.
Open Scope N_scope.
Ltac Zify.zify_post_hook ::= Z.to_euclidean_division_equations.

(** ** C12: splitting frames conserves memory *)
(** Two parts, the first of the requested size (or everything), both page aligned
    and disjoint, together covering exactly the addresses of the original; parts
    that are not empty keep the affinity. *)
Definition exact_split (f lo hi : frame) : Prop :=
  aligned lo /\ aligned hi /\ disjoint lo hi /\
  (forall a, covers f a <-> covers lo a \/ covers hi a) /\
  (f_size lo <> 0 -> f_aff lo = f_aff f) /\ (f_size hi <> 0 -> f_aff hi = f_aff f) /\
  f_size lo + f_size hi = f_size f.

Lemma cov_two lo hi f : (forall a, cov [lo; hi] a = cov [f] a) ->
  disjoint lo hi /\ (forall a, covers f a <-> covers lo a \/ covers hi a).
Proof.
  intros H. split.
  - intros a [H1 H2]. specialize (H a). cbn in H. repeat case_decide; try done; lia.
  - intros a. specialize (H a). cbn in H. repeat case_decide; try lia; tauto.
Qed.

Theorem C12_split_at f size :
  aligned f -> size mod 4096 = 0 ->
  exists lo hi, split_at f size = Ok (lo, hi) /\ exact_split f lo hi /\
    f_base lo = f_base f /\ f_size lo = N.min size (f_size f).
Proof.
  intros Hf Hs. destruct (split_at_spec f size Hf Hs) as (lo & hi & E & Hlo & Hhi & Hc & B & S & S2 & A & Hi).
  exists lo, hi. destruct (cov_two _ _ _ Hc). unfold exact_split. split_and!; auto.
  intros Hz. by apply Hi.
Qed.
Print Assumptions C12_split_at.

Theorem C12_split_at_large_boundary f :
  aligned f ->
  exists lo hi, split_at_large f = Ok (lo, hi) /\ exact_split f lo hi /\
    f_base hi mod 2097152 = 0 /\ f_size lo < 2097152.
Proof.
  intros Hf. destruct (split_at_large_spec f Hf) as (lo & hi & E & Hlo & Hhi & Hc & B & S & S2 & A & Hi).
  exists lo, hi. destruct (cov_two _ _ _ Hc). unfold exact_split. split_and!; auto.
  - intros Hz. by apply A.
  - intros Hz. by apply Hi.
Qed.
Print Assumptions C12_split_at_large_boundary.

Theorem C12_page_iteration f :
  aligned f ->
  exists l, pages_of f = Ok l /\ pairwise_disjoint l /\
    N.of_nat (length l) * 4096 = f_size f /\
    (forall i p, l !! i = Some p ->
       f_size p = 4096 /\ f_base p = f_base f + 4096 * N.of_nat i /\ f_aff p = f_aff f) /\
    (forall a, covers f a <-> exists p, p ∈ l /\ covers p a).
Proof.
  intros Hf. unfold pages_of.
  destruct (iter_pages_spec (S (N.to_nat (base_pages f))) f Hf) as (l & E & Hl & Hi & Hc); [lia|].
  exists l. split; [done|]. split.
  { apply cov_disjoint. intros a. rewrite Hc. cbn. case_decide; lia. }
  split. { destruct Hf. unfold base_pages, BASE_PAGE in Hl. lia. }
  split; [done|]. intros a. specialize (Hc a). split.
  - intros Ha. destruct (decide (cov l a = 0%nat)) as [Hz|Hz].
    + rewrite Hz in Hc. cbn in Hc. by rewrite decide_True in Hc.
    + destruct (decide (Exists (fun p => covers p a) l)) as [He|He].
      * apply Exists_exists in He as (p & ? & ?). eauto.
      * exfalso. apply Hz, cov_zero_elem. intros p Hp Hpa. apply He, Exists_exists. eauto.
  - intros (p & Hp & Hpa). apply dec_stable. intros Hn. cbn in Hc. rewrite decide_False in Hc by done.
    by apply (proj1 (cov_zero_elem l a) Hc p Hp).
Qed.
Print Assumptions C12_page_iteration.

Example C12_hyps_met :
  let f := mkFrame 2088960 20480 1 in
  aligned f /\ split_at_large f = Ok (mkFrame 2088960 8192 1, mkFrame 2097152 12288 1) /\
  pages_of (mkFrame 4096 8192 1) = Ok [mkFrame 4096 4096 1; mkFrame 8192 4096 1].
Proof. repeat split; vm_compute; done. Qed.

(** ** C13: page caches *)
(** Starting from an empty cache and callers owning pairwise disjoint, page-aligned
    frames: after any history, the pages in the cache and the frames held by
    callers are pairwise disjoint and every address they contain was part of the
    original memory.  [dbg = false] or a base-page capacity of at most 2 MiB
    excludes a debug assertion that can fail, see [C13_populate_assertion_refuted]. *)
Theorem C13_no_page_handed_out_twice dbg BP LP node h0 c h :
  (dbg = false \/ N.of_nat BP * 4096 <= 2097152) ->
  whist dbg BP LP (mc_new node, h0) (c, h) ->
  Forall aligned h0 -> pairwise_disjoint h0 ->
  pairwise_disjoint (h ++ frames c) /\
  (forall f a, f ∈ h ++ frames c -> covers f a -> exists g, g ∈ h0 /\ covers g a).
Proof.
  intros Hd Hh Ha Hp.
  destruct (whist_inv _ _ _ _ _ Hd Hh) as (_ & _ & _ & _ & Hc); [split; cbn; constructor|split; cbn; lia|done|].
  cbn [fst snd] in Hc.
  assert (Hc0 : forall a, (cov (h ++ frames c) a <= cov h0 a)%nat).
  { intros a. specialize (Hc a). rewrite (cov_app h0) in Hc.
    assert (cov (frames (mc_new node)) a = 0%nat) by done. lia. }
  split.
  - apply cov_disjoint. intros a. pose proof (proj2 (cov_disjoint h0) Hp a). specialize (Hc0 a). lia.
  - intros f a Hf Hfa. destruct (decide (Exists (fun p => covers p a) h0)) as [He|He].
    + apply Exists_exists in He as (g & ? & ?). eauto.
    + assert (cov h0 a = 0%nat) as Hz.
      { apply cov_zero_elem. intros p Hp' Hpa. apply He, Exists_exists. eauto. }
      specialize (Hc0 a). rewrite Hz in Hc0.
      by destruct (proj1 (cov_zero_elem (h ++ frames c) a) ltac:(lia) f Hf).
Qed.
Print Assumptions C13_no_page_handed_out_twice.

(** Every frame a caller receives is one page, aligned to its own size and of the
    cache's node; requests for large pages give large pages. *)
Theorem C13_received_pages_are_aligned dbg BP LP node h0 c h op r c' f :
  (dbg = false \/ N.of_nat BP * 4096 <= 2097152) ->
  whist dbg BP LP (mc_new node, h0) (c, h) -> Forall aligned h0 ->
  Forall aligned (gives op) ->
  mc_step dbg BP LP c op = (Ok r, c') -> f ∈ r ->
  f_aff f = node /\ f_base f mod f_size f = 0 /\
  f_size f = match op with AllocLarge | ReapLarge _ => 2097152 | _ => 4096 end.
Proof.
  intros Hd Hh Ha Hg E Hf.
  destruct (whist_inv _ _ _ _ _ Hd Hh) as (Hok & Hfit & _ & Hn & _); [split; cbn; constructor|split; cbn; lia|done|].
  cbn [fst snd] in *. change (mc_node (mc_new node)) with node in Hn.
  destruct op as [g|g|fs|fs| | |g|g|n|n]; cbn [mc_step] in E.
  - destruct (populate_4k_first dbg BP LP c g) as [[?|?|] ?]; cbn in E; simplify_eq; by apply elem_of_nil in Hf.
  - destruct (populate_2m_first BP LP c g) as [[?|?|] ?]; cbn in E; simplify_eq; by apply elem_of_nil in Hf.
  - destruct (mc_grow_base BP c fs) as [[?|?|] ?]; cbn in E; simplify_eq; by apply elem_of_nil in Hf.
  - destruct (mc_grow_large LP c fs) as [[?|?|] ?]; cbn in E; simplify_eq; by apply elem_of_nil in Hf.
  - pose proof (alloc_base_spec BP LP c Hok Hfit) as H.
    destruct (mc_alloc_base c) as [[g|?|] ?]; cbn in E; simplify_eq.
    apply elem_of_list_singleton in Hf as ->. destruct H as (_ & _ & _ & -> & H & _). cbn. by split_and!.
  - pose proof (alloc_large_spec BP LP c Hok Hfit) as H.
    destruct (mc_alloc_large c) as [[g|?|] ?]; cbn in E; simplify_eq.
    apply elem_of_list_singleton in Hf as ->. destruct H as (_ & _ & _ & -> & H & _). cbn. by split_and!.
  - destruct (mc_release_base BP c g) as [[?|?|] ?]; cbn in E; simplify_eq; by apply elem_of_nil in Hf.
  - destruct (mc_release_large LP c g) as [[?|?|] ?]; cbn in E; simplify_eq; by apply elem_of_nil in Hf.
  - pose proof (reap_base_spec BP LP n c Hok Hfit) as H. rewrite E in H.
    destruct H as (_ & _ & _ & H & _). rewrite Forall_forall in H. destruct (H f Hf) as [-> H']. cbn. by split_and!.
  - pose proof (reap_large_spec BP LP n c Hok Hfit) as H. rewrite E in H.
    destruct H as (_ & _ & _ & H & _). rewrite Forall_forall in H. destruct (H f Hf) as [-> H']. cbn. by split_and!.
Qed.
Print Assumptions C13_received_pages_are_aligned.

(** Nothing is lost: an operation that succeeds conserves all memory, for populate
    provided neither stack ends up full; and allocation fails only when the
    corresponding stack is empty. *)
Theorem C13_no_page_lost dbg BP LP node h0 c h op r c' :
  (dbg = false \/ N.of_nat BP * 4096 <= 2097152) ->
  whist dbg BP LP (mc_new node, h0) (c, h) -> Forall aligned h0 ->
  Forall aligned (gives op) ->
  mc_step dbg BP LP c op = (Ok r, c') ->
  match op with
  | Populate4K _ | Populate2M _ => (length (mc_base c') < BP /\ length (mc_large c') < LP)%nat
  | _ => True
  end ->
  forall a, cov (r ++ frames c') a = cov (gives op ++ frames c) a.
Proof.
  intros Hd Hh Ha Hg E Hx.
  destruct (whist_inv _ _ _ _ _ Hd Hh) as (Hok & Hfit & _ & Hn & _); [split; cbn; constructor|split; cbn; lia|done|].
  pose proof (mc_step_spec dbg BP LP c op Hd Hok Hfit Hg) as H. rewrite E in H.
  destruct H as (_ & _ & _ & _ & _ & H). by apply H.
Qed.
Print Assumptions C13_no_page_lost.

(** Failing operations other than grow change nothing, and say why. *)
Theorem C13_failures_change_nothing dbg BP LP node h0 c h op e c' :
  (dbg = false \/ N.of_nat BP * 4096 <= 2097152) ->
  whist dbg BP LP (mc_new node, h0) (c, h) -> Forall aligned h0 ->
  Forall aligned (gives op) ->
  mc_step dbg BP LP c op = (Err e, c') ->
  match op with
  | AllocBase => e = CacheExhausted /\ c' = c /\ mc_base c = []
  | AllocLarge => e = CacheExhausted /\ c' = c /\ mc_large c = []
  | ReleaseBase _ => e = CacheFull /\ c' = c /\ length (mc_base c) = BP
  | ReleaseLarge _ => e = CacheFull /\ c' = c /\ length (mc_large c) = LP
  | GrowBase _ | GrowLarge _ => e = CacheFull
  | _ => False
  end.
Proof.
  intros Hd Hh Ha Hg E.
  destruct (whist_inv _ _ _ _ _ Hd Hh) as (Hok & Hfit & _ & Hn & _); [split; cbn; constructor|split; cbn; lia|done|].
  cbn [fst snd] in *.
  destruct op as [g|g|fs|fs| | |g|g|n|n]; cbn [mc_step gives] in *.
  - rewrite Forall_singleton in Hg.
    destruct (populate4k_spec dbg BP LP c g Hd Hok Hfit Hg) as (lost & c1 & E1 & _). rewrite E1 in E. done.
  - rewrite Forall_singleton in Hg. unfold populate_2m_first in E.
    destruct (populate_spec BP LP c g (f_size g / LARGE_PAGE * 87 / 100) Hok Hfit Hg) as (lost & c1 & E1 & _).
    rewrite E1 in E. done.
  - pose proof (grow_base_spec BP LP fs c Hok Hfit) as H.
    destruct (mc_grow_base BP c fs) as [[?|?|] ?]; cbn in E; simplify_eq. by destruct H as (-> & _).
  - pose proof (grow_large_spec BP LP fs c Hok Hfit) as H.
    destruct (mc_grow_large LP c fs) as [[?|?|] ?]; cbn in E; simplify_eq. by destruct H as (-> & _).
  - pose proof (alloc_base_spec BP LP c Hok Hfit) as H.
    destruct (mc_alloc_base c) as [[?|?|] ?]; cbn in E; simplify_eq. done.
  - pose proof (alloc_large_spec BP LP c Hok Hfit) as H.
    destruct (mc_alloc_large c) as [[?|?|] ?]; cbn in E; simplify_eq. done.
  - pose proof (release_base_spec BP LP c g Hok Hfit) as H.
    destruct (mc_release_base BP c g) as [[?|?|] ?]; cbn in E; simplify_eq. done.
  - pose proof (release_large_spec BP LP c g Hok Hfit) as H.
    destruct (mc_release_large LP c g) as [[?|?|] ?]; cbn in E; simplify_eq. done.
  - pose proof (reap_base_spec BP LP n c Hok Hfit) as H. by rewrite E in H.
  - pose proof (reap_large_spec BP LP n c Hok Hfit) as H. by rewrite E in H.
Qed.
Print Assumptions C13_failures_change_nothing.

(** Reaping and allocation are as generous as possible. *)
Theorem C13_reap_count dbg BP LP node h0 c h n r c' :
  (dbg = false \/ N.of_nat BP * 4096 <= 2097152) ->
  whist dbg BP LP (mc_new node, h0) (c, h) -> Forall aligned h0 ->
  (mc_step dbg BP LP c (ReapBase n) = (Ok r, c') -> length r = Nat.min n (length (mc_base c))) /\
  (mc_step dbg BP LP c (ReapLarge n) = (Ok r, c') -> length r = Nat.min n (length (mc_large c))).
Proof.
  intros Hd Hh Ha.
  destruct (whist_inv _ _ _ _ _ Hd Hh) as (Hok & Hfit & _ & Hn & _); [split; cbn; constructor|split; cbn; lia|done|].
  cbn [fst snd] in *. cbn [mc_step]. split; intros E.
  - pose proof (reap_base_spec BP LP n c Hok Hfit) as H. rewrite E in H. apply H.
  - pose proof (reap_large_spec BP LP n c Hok Hfit) as H. rewrite E in H. apply H.
Qed.
Print Assumptions C13_reap_count.

(** Operations do not panic as long as callers return pages of the cache's own
    node, as base or large pages. *)
Theorem C13_no_panic dbg BP LP node h0 c h op :
  (dbg = false \/ N.of_nat BP * 4096 <= 2097152) ->
  whist dbg BP LP (mc_new node, h0) (c, h) -> Forall aligned h0 ->
  Forall aligned (gives op) ->
  match op with
  | ReleaseBase _ | GrowBase _ => Forall (fun f => f_size f = 4096 /\ f_aff f = node) (gives op)
  | ReleaseLarge _ | GrowLarge _ =>
      Forall (fun f => f_size f = 2097152 /\ f_base f mod 2097152 = 0 /\ f_aff f = node) (gives op)
  | _ => True
  end ->
  (mc_step dbg BP LP c op).1 <> Panic.
Proof.
  intros Hd Hh Ha Hg Hx.
  destruct (whist_inv _ _ _ _ _ Hd Hh) as (Hok & Hfit & _ & Hn & _); [split; cbn; constructor|split; cbn; lia|done|].
  cbn [fst snd] in *. change (mc_node (mc_new node)) with node in Hn.
  assert (Hrb : forall fs c, mc_node c = node -> Forall aligned fs ->
      Forall (fun f => f_size f = 4096 /\ f_aff f = node) fs -> (mc_grow_base BP c fs).1 <> Panic).
  { clear. induction fs as [|f fs IH]; intros c Hn Hal Hs; [done|]. cbn.
    inversion Hal as [|? ? [Hb _] Hal']; subst. inversion Hs as [|? ? [Hsz Haf] Hs']; subst.
    unfold mc_release_base. rewrite decide_True by done.
    destruct (try_push BP (mc_base c) (f_base f)); [|done]. by apply IH. }
  assert (Hrl : forall fs c, mc_node c = node ->
      Forall (fun f => f_size f = 2097152 /\ f_base f mod 2097152 = 0 /\ f_aff f = node) fs -> (mc_grow_large LP c fs).1 <> Panic).
  { clear. induction fs as [|f fs IH]; intros c Hn Hs; [done|]. cbn.
    inversion Hs as [|? ? (Hsz & Hb & Haf) Hs']; subst.
    unfold mc_release_large. rewrite decide_True by done.
    destruct (try_push LP (mc_large c) (f_base f)); [|done]. by apply IH. }
  destruct op as [g|g|fs|fs| | |g|g|n|n]; cbn [mc_step gives] in *.
  - rewrite Forall_singleton in Hg.
    destruct (populate4k_spec dbg BP LP c g Hd Hok Hfit Hg) as (lost & c1 & E1 & _). by rewrite E1.
  - rewrite Forall_singleton in Hg. unfold populate_2m_first.
    destruct (populate_spec BP LP c g (f_size g / LARGE_PAGE * 87 / 100) Hok Hfit Hg) as (lost & c1 & E1 & _).
    by rewrite E1.
  - specialize (Hrb fs c Hn Hg Hx). by destruct (mc_grow_base BP c fs) as [[?|?|] ?].
  - specialize (Hrl fs c Hn Hx). by destruct (mc_grow_large LP c fs) as [[?|?|] ?].
  - pose proof (alloc_base_spec BP LP c Hok Hfit) as H. by destruct (mc_alloc_base c) as [[?|?|] ?].
  - pose proof (alloc_large_spec BP LP c Hok Hfit) as H. by destruct (mc_alloc_large c) as [[?|?|] ?].
  - specialize (Hrb [g] c Hn Hg Hx). cbn in Hrb. by destruct (mc_release_base BP c g) as [[?|?|] ?].
  - specialize (Hrl [g] c Hn Hx). cbn in Hrl. by destruct (mc_release_large LP c g) as [[?|?|] ?].
  - pose proof (reap_base_spec BP LP n c Hok Hfit) as H. by destruct (mc_reap_base n c) as [[?|?|] ?].
  - pose proof (reap_large_spec BP LP n c Hok Hfit) as H. by destruct (mc_reap_large n c) as [[?|?|] ?].
Qed.
Print Assumptions C13_no_panic.

(** A history: populate, allocate, release. *)
Example C13_hyps_met :
  exists c h, whist true 4 4 (mc_new 1, [mkFrame 2093056 2105344 1; mkFrame 0 4096 1]) (c, h) /\
    Forall aligned [mkFrame 2093056 2105344 1; mkFrame 0 4096 1] /\
    pairwise_disjoint [mkFrame 2093056 2105344 1; mkFrame 0 4096 1] /\
    c = mkMc 1 [0; 4194304; 2093056] [] /\ h = [mkFrame 2097152 2097152 1].
Proof.
  eexists _, _. split.
  { eapply wh_cons with (op := Populate4K (mkFrame 2093056 2105344 1))
      (w2 := (mkMc 1 [4194304; 2093056] [2097152], [mkFrame 0 4096 1])).
    { exists [mkFrame 0 4096 1]. split; [done|]. vm_compute. reflexivity. }
    eapply wh_cons with (op := AllocLarge)
      (w2 := (mkMc 1 [4194304; 2093056] [], [mkFrame 2097152 2097152 1; mkFrame 0 4096 1])).
    { exists [mkFrame 0 4096 1]. split; [done|]. vm_compute. reflexivity. }
    eapply wh_cons with (op := ReleaseBase (mkFrame 0 4096 1))
      (w2 := (mkMc 1 [0; 4194304; 2093056] [], [mkFrame 2097152 2097152 1])).
    { exists [mkFrame 2097152 2097152 1]. split; [apply perm_swap|]. vm_compute. reflexivity. }
    apply wh_nil. }
  split_and!; try done.
  - repeat constructor.
  - apply cov_disjoint. intros a. cbn. unfold covers. cbn. repeat case_decide; lia.
Qed.

(** "Failing operations change nothing" is false for grow: the frames before the
    failing one stay in the cache. *)
Theorem C13_grow_partial_refuted :
  exists BP LP c fs e c', mc_step true BP LP c (GrowBase fs) = (Err e, c') /\ c' <> c /\
    Forall aligned fs /\ pairwise_disjoint (fs ++ frames c).
Proof.
  exists 1%nat, 1%nat, (mc_new 0), [mkFrame 0 4096 0; mkFrame 4096 4096 0]. eexists _, _.
  split; [vm_compute; reflexivity|]. split; [done|]. split; [repeat constructor|].
  apply cov_disjoint. intros a. cbn. unfold covers. cbn. repeat case_decide; lia.
Qed.
Print Assumptions C13_grow_partial_refuted.

(** "Lose none silently" is false for populate: with a full stack, base pages below
    the first 2 MiB boundary are dropped while zero lost bytes are reported. *)
Theorem C13_populate_silent_loss_refuted :
  exists BP LP c f c', populate_4k_first true BP LP c f = (Ok 0, c') /\
    aligned f /\ f_size f = 4096 /\ c' = c /\
    exists a, covers f a /\ cov (frames c') a = 0%nat.
Proof.
  exists 1%nat, 1%nat, (mkMc 0 [4096] []), (mkFrame 8192 4096 0). eexists.
  split; [vm_compute; reflexivity|]. repeat split; try done.
  exists 8192. split; [unfold covers; cbn; lia|vm_compute; done].
Qed.
Print Assumptions C13_populate_silent_loss_refuted.
(** The reported loss also understates: one lost base page is reported although two
    are dropped. *)
Theorem C13_populate_understates_loss_refuted :
  exists BP LP c f c', populate_4k_first true BP LP c f = (Ok 4096, c') /\
    aligned f /\ f_size f = 8192 /\ c' = c.
Proof.
  exists 1%nat, 1%nat, (mkMc 0 [4096] []), (mkFrame 2097152 8192 0). eexists.
  split; [vm_compute; reflexivity|]. done.
Qed.
Print Assumptions C13_populate_understates_loss_refuted.
(** Caches with more than 512 base-page slots (FrameCacheEarly, FrameCacheMemslice)
    fail a debug assertion when populated from a frame that fits into the slots. *)
Theorem C13_populate_assertion_refuted :
  exists f, aligned f /\ base_pages f <= 2048 /\
    (mc_step true (N.to_nat 2048) 12 (mc_new 0) (Populate4K f)).1 = Panic.
Proof. exists (mkFrame 0 4096 0). split; [done|]. vm_compute. done. Qed.
Print Assumptions C13_populate_assertion_refuted.

(** ** C14: emergency allocator *)
Lemma erun_spec r reqs os r' :
  aligned r -> Forall (fun q => q.2 <= 4096) reqs -> erun r reqs = (os, r') ->
  aligned r' /\ length os = length reqs /\
  (forall a, cov (granted os ++ [r']) a = cov [r] a) /\
  (forall i q o, reqs !! i = Some q -> os !! i = Some o ->
     match o with
     | Ok f => aligned f /\ q.1 <= f_size f /\ f_size f < q.1 + 4096
     | Err e => e = CacheExhausted
     | Panic => False
     end).
Proof.
  revert r os r'. induction reqs as [|[size align] reqs IH]; intros r os r' Hr Hq E; cbn in E.
  { injection E as <- <-. by split_and!. }
  inversion Hq as [|? ? Hq1 Hq2]; subst. cbn in Hq1.
  pose proof (emem_alloc_spec r size align Hr Hq1) as Ha.
  destruct (emem_alloc r size align) as [o r1]. destruct (erun r1 reqs) as [os2 r2] eqn:E2.
  injection E as <- <-. destruct o as [f|e|]; [| |done].
  - destruct Ha as (A1 & A2 & A3 & A4 & A5 & A6 & A7).
    destruct (IH r1 os2 r2 A2 Hq2 E2) as (I1 & I2 & I3 & I4). split; [done|]. split; [cbn [length]; lia|]. split.
    + intros a. specialize (I3 a). specialize (A5 a).
      change (granted (Ok f :: os2) ++ [r2]) with (f :: (granted os2 ++ [r2])). rewrite cov_cons, I3.
      rewrite cov_cons in A5. done.
    + intros [|i] q o Hi Ho; [|by apply (I4 i)]. cbn in Hi, Ho. simplify_eq. cbn. done.
  - destruct Ha as (-> & -> & _).
    destruct (IH r os2 r2 Hr Hq2 E2) as (I1 & I2 & I3 & I4). split; [done|]. split; [cbn [length]; lia|]. split; [done|].
    intros [|i] q o Hi Ho; [|by apply (I4 i)]. cbn in Hi, Ho. by simplify_eq.
Qed.

(** Over any sequence of requests (of alignment at most a page) served from one
    region: no request panics; granted blocks and the rest of the region are
    pairwise disjoint and inside the region; a granted block is page aligned, at
    least as large as requested and less than a page larger. *)
Theorem C14_blocks_disjoint_and_large_enough r reqs os r' :
  aligned r -> Forall (fun q => q.2 <= 4096) reqs -> erun r reqs = (os, r') ->
  length os = length reqs /\
  pairwise_disjoint (granted os ++ [r']) /\
  (forall f a, f ∈ granted os ++ [r'] -> covers f a -> covers r a) /\
  (forall i size align o, reqs !! i = Some (size, align) -> os !! i = Some o ->
     match o with
     | Ok f => aligned f /\ size <= f_size f /\ f_size f < size + 4096
     | Err e => e = CacheExhausted
     | Panic => False
     end).
Proof.
  intros Hr Hq E. destruct (erun_spec _ _ _ _ Hr Hq E) as (H1 & H2 & H3 & H4).
  split_and!; auto.
  - apply cov_disjoint. intros a. rewrite H3. cbn. case_decide; lia.
  - intros f a Hf Hfa. apply dec_stable. intros Hn. specialize (H3 a). cbn in H3.
    rewrite (decide_False (P := covers r a)) in H3 by done.
    by apply (proj1 (cov_zero_elem _ a) H3 f Hf).
  - intros i size align o Hi Ho. by apply (H4 i _ _ Hi Ho).
Qed.
Print Assumptions C14_blocks_disjoint_and_large_enough.

(** A refused request changes nothing, and is refused only if the region is too
    small for the request rounded up to whole pages. *)
Theorem C14_exhaustion_exact r size align :
  aligned r -> align <= 4096 ->
  match emem_alloc r size align with
  | (Ok f, _) => size <= f_size r
  | (Err e, r') => e = CacheExhausted /\ r' = r /\ f_size r < round_up size 4096
  | (Panic, _) => False
  end.
Proof.
  intros Hr Ha. pose proof (emem_alloc_spec r size align Hr Ha) as H.
  destruct (emem_alloc r size align) as [[f|e|] r'] eqn:E; [|destruct H as (-> & -> & _)|done].
  - lia.
  - split_and!; auto. unfold emem_alloc, BASE_PAGE in E. rewrite decide_True in E by done.
    case_decide; [|lia]. destruct (round_up_spec size 4096) as (_ & _ & Hm); [done|].
    destruct (split_at_spec r (round_up size 4096) Hr Hm) as (lo & hi & Es & _). rewrite Es in E. done.
Qed.
Print Assumptions C14_exhaustion_exact.

Example C14_hyps_met :
  erun (mkFrame 4096 12288 0) [(1, 8); (5000, 4096); (1, 1)] =
    ([Ok (mkFrame 4096 4096 0); Ok (mkFrame 8192 8192 0); Err CacheExhausted], frame_empty) /\
  aligned (mkFrame 4096 12288 0).
Proof. repeat split; vm_compute; done. Qed.

(** ** C15: bytes to pages *)
(** The computed page counts cover the request with less than a base page to spare,
    and as many large pages as fit are used. *)
Theorem C15_size_to_pages_minimal size base large :
  size_to_pages size = (base, large) ->
  size <= base * 4096 + large * 2097152 < size + 4096 /\
  large = size / 2097152 /\ base <= 512.
Proof.
  unfold size_to_pages, BASE_PAGE, LARGE_PAGE. intros E.
  repeat case_decide; injection E as <- <-; lia.
Qed.
Print Assumptions C15_size_to_pages_minimal.
Example C15_hyps_met : size_to_pages 2101249 = (2, 1).
Proof. vm_compute. done. Qed.
