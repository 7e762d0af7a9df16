(** Proofs about memory at boot. *)
From Verif Require Import Base MemModel MemSpec MemProofs BootModel BootSpec.
Open Scope N_scope.

(** ** Coverage restricted to some affinities *)
Definition fl (P : N -> bool) (l : list frame) : list frame :=
  filter (fun f => P (f_aff f) = true) l.
Definition covP (P : N -> bool) (l : list frame) (a : N) : nat := cov (fl P l) a.

Lemma fl_app P l1 l2 : fl P (l1 ++ l2) = fl P l1 ++ fl P l2.
Proof. apply filter_app. Qed.
Lemma covP_app P l1 l2 a : covP P (l1 ++ l2) a = (covP P l1 a + covP P l2 a)%nat.
Proof. unfold covP. by rewrite fl_app, cov_app. Qed.
Lemma covP_cons P f l a : covP P (f :: l) a = (covP P [f] a + covP P l a)%nat.
Proof. change (f :: l) with ([f] ++ l). apply covP_app. Qed.
Lemma covP_one P f a : covP P [f] a = if P (f_aff f) then cov [f] a else 0%nat.
Proof.
  unfold covP, fl. rewrite filter_cons, filter_nil.
  destruct (P (f_aff f)); [by rewrite decide_True|by rewrite decide_False].
Qed.
Lemma covP_all l a : covP (fun _ => true) l a = cov l a.
Proof. induction l as [|f l IH]; [done|]. rewrite covP_cons, covP_one, IH, (cov_cons f l). done. Qed.
Lemma covP_uniform P l n a : Forall (fun f => f_aff f = n) l ->
  covP P l a = if P n then cov l a else 0%nat.
Proof.
  induction 1 as [|f l Hf Hl IH]; [by destruct (P n)|].
  rewrite covP_cons, covP_one, IH, Hf, (cov_cons f l). destruct (P n); lia.
Qed.
Lemma frames_uniform c : Forall (fun f => f_aff f = mc_node c) (frames c).
Proof.
  unfold frames. apply Forall_app. split; apply Forall_fmap, Forall_true; done.
Qed.
Lemma covP_frames P c a : covP P (frames c) a = if P (mc_node c) then cov (frames c) a else 0%nat.
Proof. apply covP_uniform, frames_uniform. Qed.
Lemma covP_split (P Q : N -> bool) l a :
  covP P l a = (covP (fun n => P n && Q n) l a + covP (fun n => P n && negb (Q n)) l a)%nat.
Proof.
  induction l as [|f l IH]; [done|].
  rewrite (covP_cons P), (covP_cons (fun n => P n && Q n)), (covP_cons (fun n => P n && negb (Q n))), !covP_one, IH.
  destruct (P (f_aff f)), (Q (f_aff f)); cbn; lia.
Qed.
Lemma covP_ext (P Q : N -> bool) l a : (forall n, P n = Q n) -> covP P l a = covP Q l a.
Proof.
  intros H. induction l as [|f l IH]; [done|].
  by rewrite (covP_cons P), (covP_cons Q), !covP_one, IH, H.
Qed.
Lemma cov_empty_frame a : cov [frame_empty] a = 0%nat.
Proof. cbn. unfold covers. cbn. case_decide; lia. Qed.

(** ** Sizes as sums over addresses *)
Fixpoint sumc (l : list frame) (M : nat) : nat :=
  match M with O => 0%nat | S M' => (sumc l M' + cov l (N.of_nat M'))%nat end.
Lemma sumc_S l M : sumc l (S M) = (sumc l M + cov l (N.of_nat M))%nat.
Proof. done. Qed.
Lemma sumc_app l1 l2 M : sumc (l1 ++ l2) M = (sumc l1 M + sumc l2 M)%nat.
Proof. induction M as [|M IH]; [done|]. rewrite !sumc_S, IH, cov_app. lia. Qed.
Lemma sumc_one f M :
  sumc [f] M = (Nat.min (N.to_nat (f_base f + f_size f)) M - Nat.min (N.to_nat (f_base f)) M)%nat.
Proof.
  induction M as [|M IH]; [cbn; lia|]. rewrite sumc_S, IH. cbn. unfold covers.
  case_decide; lia.
Qed.
Lemma sumc_total l M : Forall (fun f => f_base f + f_size f <= N.of_nat M) l ->
  N.of_nat (sumc l M) = total_size l.
Proof.
  induction 1 as [|f l Hf Hl IH].
  - cbn. assert (sumc [] M = 0%nat) as ->; [|done]. induction M as [|M IH]; [done|]. by rewrite sumc_S, IH.
  - change (f :: l) with ([f] ++ l) at 1. rewrite sumc_app, Nat2N.inj_add, IH, sumc_one.
    change (total_size (f :: l)) with (f_size f + total_size l). lia.
Qed.
Lemma sumc_le l1 l2 M : (forall a, cov l1 a <= cov l2 a)%nat -> (sumc l1 M <= sumc l2 M)%nat.
Proof. intros H. induction M as [|M IH]; [done|]. rewrite !sumc_S. specialize (H (N.of_nat M)). lia. Qed.
Lemma sumc_eq_pointwise l1 l2 M : (forall a, cov l1 a <= cov l2 a)%nat -> sumc l1 M = sumc l2 M ->
  forall a, a < N.of_nat M -> cov l1 a = cov l2 a.
Proof.
  intros H. induction M as [|M IH]; intros E a Ha; [lia|].
  rewrite !sumc_S in E. pose proof (sumc_le l1 l2 M H). pose proof (H (N.of_nat M)).
  destruct (decide (a = N.of_nat M)) as [->|]; [lia|]. apply IH; lia.
Qed.
(** A bound on all addresses in a list. *)
Lemma bound_exists l : exists M, Forall (fun f => f_base f + f_size f <= N.of_nat M) l.
Proof.
  induction l as [|f l [M IH]]; [by exists 0%nat|].
  exists (M + N.to_nat (f_base f + f_size f))%nat. constructor; [lia|].
  eapply Forall_impl; [exact IH|]. intros g Hg. cbn beta in *. lia.
Qed.
Lemma total_size_cons f l : total_size (f :: l) = f_size f + total_size l.
Proof. done. Qed.
Lemma total_size_app l1 l2 : total_size (l1 ++ l2) = total_size l1 + total_size l2.
Proof. induction l1 as [|f l1 IH]; [done|]. cbn [app]. rewrite !total_size_cons. lia. Qed.
Lemma total_size_le l1 l2 : (forall a, cov l1 a <= cov l2 a)%nat -> total_size l1 <= total_size l2.
Proof.
  intros H. destruct (bound_exists (l1 ++ l2)) as [M HM]. apply Forall_app in HM as [H1 H2].
  rewrite <- (sumc_total l1 M H1), <- (sumc_total l2 M H2).
  pose proof (sumc_le l1 l2 M H). lia.
Qed.
Lemma total_size_eq l1 l2 : (forall a, cov l1 a = cov l2 a)%nat -> total_size l1 = total_size l2.
Proof.
  intros H. pose proof (total_size_le l1 l2). pose proof (total_size_le l2 l1).
  assert (forall a, cov l1 a <= cov l2 a)%nat by (intros a; rewrite H; lia).
  assert (forall a, cov l2 a <= cov l1 a)%nat by (intros a; rewrite H; lia).
  intuition lia.
Qed.
Lemma cov_eq_of_total l1 l2 : (forall a, cov l1 a <= cov l2 a)%nat -> total_size l1 = total_size l2 ->
  forall a, cov l1 a = cov l2 a.
Proof.
  intros H E a. destruct (bound_exists (l1 ++ l2)) as [M HM].
  pose proof HM as HM2. apply Forall_app in HM as [H1 H2].
  destruct (decide (a < N.of_nat M)) as [Ha|Ha].
  - apply (sumc_eq_pointwise l1 l2 M H); [|done].
    pose proof (sumc_total l1 M H1). pose proof (sumc_total l2 M H2). lia.
  - assert (forall l, Forall (fun f => f_base f + f_size f <= N.of_nat M) l -> cov l a = 0%nat) as Hz.
    { intros l Hl. apply cov_zero_elem. intros f Hf [? ?].
      pose proof (proj1 (stdpp.list.Forall_forall _ _) Hl f Hf) as Hx. cbn in Hx. lia. }
    by rewrite !Hz.
Qed.
Lemma total_frames c : total_size (frames c) =
  N.of_nat (length (mc_base c)) * 4096 + N.of_nat (length (mc_large c)) * 2097152.
Proof.
  unfold frames. rewrite total_size_app.
  assert (forall n l, total_size (map (bframe n) l) = N.of_nat (length l) * 4096) as ->.
  { intros n l. induction l as [|x l IH]; [done|]. cbn [map length]. rewrite total_size_cons, IH. cbn [bframe f_size]. unfold BASE_PAGE. lia. }
  assert (forall n l, total_size (map (lframe n) l) = N.of_nat (length l) * 2097152) as ->; [|done].
  intros n l. induction l as [|x l IH]; [done|]. cbn [map length]. rewrite total_size_cons, IH. cbn [lframe f_size]. unfold LARGE_PAGE. lia.
Qed.

(** ** Populating with enough room *)
Lemma push_pages_fits fuel : forall BP f st st' lost, aligned f ->
  N.of_nat (length st) + base_pages f <= N.of_nat BP ->
  push_pages fuel BP f st = Ok (st', lost) -> lost = false.
Proof.
  induction fuel as [|fuel IH]; intros BP f st st' lost Hf Hr E; cbn [push_pages] in E.
  { by simplify_eq. }
  pose proof (frame_next_spec f Hf) as Hn.
  destruct (frame_next f) as [[[p rest]|]| |]; try done; [|by simplify_eq].
  destruct Hn as (Hp & Hre & Sp & Bp & Ap & Hc & Hs & Hb).
  assert (Hbp : base_pages f = base_pages rest + 1).
  { unfold base_pages, BASE_PAGE in *. destruct Hf, Hre. lia. }
  unfold try_push in E. rewrite decide_True in E by lia.
  eapply IH; [exact Hre| |exact E]. cbn. lia.
Qed.
Lemma push_large_fits k : forall LP f st rest st' lost lost', aligned f -> f_base f mod LARGE_PAGE = 0 ->
  (length st + N.to_nat (N.min (N.of_nat k) (f_size f / LARGE_PAGE)) <= LP)%nat ->
  push_large k LP f st lost = Ok (rest, st', lost') -> lost' = lost.
Proof.
  induction k as [|k IH]; intros LP f st rest st' lost lost' Hf Hb Hr E; cbn [push_large] in E.
  { by simplify_eq. }
  case_decide as Hd; [|by simplify_eq].
  destruct (split_at_spec f LARGE_PAGE) as (lo & hi & E1 & Hlo & Hhi & Hc & B & S1 & S2 & A & Hi); [done|done|].
  rewrite E1 in E.
  assert (Hq : f_size f / LARGE_PAGE = f_size hi / LARGE_PAGE + 1).
  { assert (f_size f = f_size hi + 1 * LARGE_PAGE) as -> by lia. rewrite N.div_add by done. done. }
  assert (Hhib : f_base hi mod LARGE_PAGE = 0).
  { destruct (decide (f_size hi = 0)) as [Hz|Hz].
    - unfold split_at in E1. rewrite decide_True in E1 by done.
      case_decide; [injection E1 as <- <-; done|]. exfalso. lia.
    - destruct (Hi Hz) as [-> _]. rewrite N.add_mod by done. by rewrite Hb. }
  rewrite Hq in Hr. clear Hq. remember (f_size hi / LARGE_PAGE) as q eqn:Eq in Hr.
  unfold try_push in E. rewrite decide_True in E by (clear -Hr; lia).
  eapply IH; [exact Hhi|exact Hhib| |exact E]. cbn [length]. rewrite <- Eq. clear -Hr. lia.
Qed.
(** If all that is carved off fits, nothing is lost.  [n] is the number of large
    pages carved off. *)
Lemma populate_exact BP LP c f k lost c' :
  mc_ok c -> fits BP LP c -> aligned f -> k <> 0 ->
  (forall n, n <= k -> n * 2097152 <= f_size f -> (n = k \/ f_size f < (n + 2) * 2097152) ->
     N.of_nat (length (mc_base c)) + (base_pages f - n * 512) <= N.of_nat BP /\
     N.of_nat (length (mc_large c)) + n <= N.of_nat LP) ->
  populate BP LP c f k = (Ok lost, c') ->
  (forall a, cov (frames c') a = (cov [f] a + cov (frames c) a)%nat).
Proof.
  intros [Hb Hl] [Fb Fl] Hf Hk Hroom E. unfold populate in E. rewrite decide_False in E by done.
  destruct (split_at_large_spec f Hf) as (lo & hi & E0 & Hlo & Hhi & Hc & Hhb & Hs).
  rewrite E0 in E.
  destruct (push_pages_spec (S (N.to_nat (base_pages lo))) BP lo (mc_base c) (mc_node c))
    as (b1 & l1 & E1 & K1 & K2 & K3 & K4 & K5 & K5b & K6); [done|lia|done|done|].
  rewrite E1 in E.
  destruct (push_large_spec (N.to_nat k) LP hi (mc_large c) 0 (mc_node c))
    as (rest & st' & lost' & E2 & M1 & M2 & M3 & M4 & M5 & M6 & M7 & M8 & M9 & M10 & M11); [done|done|done|done|].
  rewrite E2 in E.
  destruct (push_pages_spec (S (N.to_nat (base_pages rest))) BP rest b1 (mc_node c))
    as (b2 & l2 & E3 & P1 & P2 & P3 & P4 & P5 & _ & P6); [done|lia|done|done|].
  rewrite E3 in E. injection E as <- <-.
  destruct Hs as (Hlol & Hsz & _).
  set (n := N.of_nat (length st') - N.of_nat (length (mc_large c)) + (lost' - 0)) in *.
  assert (Hbs : base_pages f = base_pages lo + base_pages rest + n * 512).
  { unfold base_pages, BASE_PAGE. destruct Hlo as [_ Hlo], M1 as [_ M1], Hf as [_ Hf].
    unfold LARGE_PAGE in *. clear -Hlo M1 Hf M9 Hsz. lia. }
  assert (Hn : n <= k /\ n * 2097152 <= f_size f /\ (n = k \/ f_size f < (n + 2) * 2097152)).
  { assert (forall k LP f st lost rest st' lost', push_large k LP f st lost = Ok (rest, st', lost') ->
      N.of_nat (length st') - N.of_nat (length st) + (lost' - lost) <= N.of_nat k /\ lost <= lost' /\ (length st <= length st')%nat) as Hle.
    { clear. induction k as [|k IH]; intros LP f st lost rest st' lost' E; cbn [push_large] in E; [simplify_eq; lia|].
      case_decide; [|simplify_eq; lia]. destruct (split_at f LARGE_PAGE) as [[lp r]| |]; try done.
      unfold try_push in E. case_decide; apply IH in E; cbn [length] in E; lia. }
    apply Hle in E2 as (E2 & _). unfold LARGE_PAGE in *. split; [lia|]. split; [lia|]. destruct M11; lia. }
  destruct (Hroom n) as [R1 R2]; [apply Hn|apply Hn|apply Hn|].
  assert (l1 = false) as -> by (eapply push_pages_fits; [| |exact E1]; [done|lia]).
  assert (Hlen1 : N.of_nat (length b1) = N.of_nat (length (mc_base c)) + base_pages lo) by (by apply K5b).
  assert (l2 = false) as -> by (eapply push_pages_fits; [| |exact E3]; [done|lia]).
  assert (lost' = 0) as ->.
  { eapply push_large_fits; [exact Hhi|exact Hhb| |exact E2].
    assert (N.min (N.of_nat (N.to_nat k)) (f_size hi / LARGE_PAGE) = n) as ->; [|lia].
    assert (f_size hi / LARGE_PAGE = f_size rest / LARGE_PAGE + n) as ->.
    { replace (f_size hi) with (f_size rest + n * LARGE_PAGE) by lia. by rewrite N.div_add. }
    clearbody n. destruct Hn as [Hn _]. destruct M11 as [M11|M11].
    - rewrite (N.div_small _ _ M11). clear -Hn. lia.
    - rewrite <- M11. apply N.min_l, N.le_add_l. }
  intros a. unfold frames. cbn. rewrite !cov_app. specialize (Hc a).
  rewrite (P5 eq_refl a), (K5 eq_refl a). specialize (M8 eq_refl a).
  cbn in *. lia.
Qed.

(** ** The firmware's memory map *)
Lemma mc_new_ok n : mc_ok (mc_new n).
Proof. split; constructor. Qed.
Lemma mc_new_fits BP LP n : fits BP LP (mc_new n).
Proof. split; cbn; lia. Qed.
Lemma cov_frames_new n a : cov (frames (mc_new n)) a = 0%nat.
Proof. done. Qed.

Lemma mc_with_frame_spec dbg BP LP n f :
  (dbg = false \/ N.of_nat BP * 4096 <= 2097152 \/ N.of_nat BP < base_pages f) -> aligned f ->
  exists c, mc_with_frame dbg BP LP n f = Ok c /\ mc_ok c /\ fits BP LP c /\ mc_node c = n /\
    (forall a, (cov (frames c) a <= cov [f] a)%nat).
Proof.
  intros Hd Hf. unfold mc_with_frame, populate_4k_first.
  assert (Hp : forall k, exists lost c', populate BP LP (mc_new n) f k = (Ok lost, c') /\ mc_ok c' /\
     fits BP LP c' /\ mc_node c' = n /\ (forall a, (cov (frames c') a <= cov [f] a)%nat)).
  { intros k. destruct (populate_spec BP LP (mc_new n) f k (mc_new_ok n) (mc_new_fits BP LP n) Hf)
      as (lost & c' & E & H1 & H2 & H3 & H4 & _).
    exists lost, c'. split_and!; auto. intros a. specialize (H4 a). rewrite cov_frames_new in H4. lia. }
  case_decide as Hb.
  - destruct (Hp ((base_pages f - N.of_nat BP) * BASE_PAGE / LARGE_PAGE)) as (lost & c & E & H).
    rewrite E. eauto.
  - assert (dbg && negb (bool_decide (N.of_nat BP * BASE_PAGE <= LARGE_PAGE)) = false) as ->.
    { destruct Hd as [->|[Hd|Hd]]; [done| |done].
      rewrite bool_decide_eq_true_2 by (unfold BASE_PAGE, LARGE_PAGE; lia). by destruct dbg. }
    destruct (Hp 1) as (lost & c & E & H). rewrite E. eauto.
Qed.

(** The 32 MiB of early memory fit exactly. *)
Lemma early_exact dbg f c : aligned f -> f_size f = EARLY_CAPACITY ->
  mc_with_frame dbg EBP ELP 0 f = Ok c -> forall a, cov (frames c) a = cov [f] a.
Proof.
  intros Hf Hs E. unfold mc_with_frame, populate_4k_first in E.
  assert (Hbp : base_pages f = 8192) by (unfold base_pages; rewrite Hs; done).
  rewrite decide_True in E by (rewrite Hbp; unfold EBP; lia).
  assert ((base_pages f - N.of_nat EBP) * BASE_PAGE / LARGE_PAGE = 12) as Hk by (rewrite Hbp; done).
  rewrite Hk in E.
  destruct (populate EBP ELP (mc_new 0) f 12) as [[lost|e|] c'] eqn:Ep; [|done|done].
  injection E as <-. intros a.
  rewrite (populate_exact EBP ELP (mc_new 0) f 12 lost c'
    (mc_new_ok 0) (mc_new_fits EBP ELP 0) Hf ltac:(done)); [rewrite cov_frames_new; lia| |done].
  intros n Hn1 Hn2 Hn3. rewrite Hs in Hn3. unfold EARLY_CAPACITY in Hn3.
  assert (n = 12) as -> by lia. rewrite Hbp. cbn [length mc_base mc_large mc_new].
  unfold EBP, ELP. lia.
Qed.

Definition oframes (o : option mcache) : list frame := match o with Some c => frames c | None => [] end.

Lemma usable_aligned_cons r rs : usable (r :: rs) =
  (if rg_conv r then if decide (1048576 <= rg_start r) then [mkFrame (rg_start r) (rg_pages r * 4096) 0] else [] else []) ++ usable rs.
Proof. done. Qed.

Lemma push_region_ok l f l' : push_region l f = Ok l' -> l' = l ++ [f].
Proof. unfold push_region. case_decide; [by intros [= <-]|done]. Qed.

Lemma uefi_loop_spec dbg rs : forall em acc em' acc',
  uefi_loop dbg rs em acc = Ok (em', acc') -> Forall aligned acc -> Forall (fun f => f_aff f = 0) acc ->
  (forall c, em = Some c -> mc_ok c /\ fits EBP ELP c /\ mc_node c = 0) ->
  Forall aligned acc' /\ Forall (fun f => f_aff f = 0) acc' /\
  (forall c, em' = Some c -> mc_ok c /\ fits EBP ELP c /\ mc_node c = 0) /\
  forall a, (cov (oframes em') a + cov acc' a = cov (oframes em) a + cov acc a + cov (usable rs) a)%nat.
Proof.
  induction rs as [|r rs IH]; intros em acc em' acc' E Hal Ha0 Hem; cbn [uefi_loop] in E.
  { simplify_eq. split; [done|]. split; [done|]. split; [done|]. intros a. change (cov (usable []) a) with 0%nat. lia. }
  rewrite usable_aligned_cons.
  destruct (rg_conv r).
  2:{ exact (IH _ _ _ _ E Hal Ha0 Hem). }
  unfold frame_new in E. case_decide as Hfr; [|done].
  change (rg_pages r * BASE_PAGE) with (rg_pages r * 4096) in E, Hfr.
  set (f := mkFrame (rg_start r) (rg_pages r * 4096) 0) in *.
  assert (Hf : aligned f) by (split; apply Hfr).
  change ONE_MIB with 1048576 in E.
  case_decide as H1m.
  2:{ exact (IH _ _ _ _ E Hal Ha0 Hem). }
  destruct (bool_decide (EARLY_CAPACITY < f_size f) && negb (bool_decide (is_Some em))) eqn:Hb.
  - apply andb_true_iff in Hb as [Hb1 Hb2]. apply bool_decide_eq_true in Hb1.
    apply negb_true_iff, bool_decide_eq_false in Hb2.
    destruct em as [c0|]; [by destruct Hb2|].
    destruct (split_at_spec f EARLY_CAPACITY Hf) as (lo & hi & Es & Hlo & Hhi & Hc & B & S1 & S2 & A & Hi); [done|].
    rewrite Es in E.
    destruct (mc_with_frame dbg EBP ELP 0 lo) as [c|e|] eqn:Ec; [|done|done].
    assert (Hlos : f_size lo = EARLY_CAPACITY) by lia.
    destruct (mc_with_frame_spec dbg EBP ELP 0 lo) as (c2 & Ec2 & Hok & Hfit & Hn & _); [|done|].
    { right. right. unfold base_pages. rewrite Hlos. done. }
    rewrite Ec in Ec2. injection Ec2 as <-.
    pose proof (early_exact dbg lo c Hlo Hlos Ec) as Hex.
    assert (Hhn : f_size hi <> 0) by lia.
    destruct (Hi Hhn) as [Hib Hia].
    rewrite decide_False in E by (intros ->; done).
    destruct (push_region acc hi) as [acc2|e|] eqn:Ep; [|done|done].
    apply push_region_ok in Ep as ->.
    destruct (IH _ _ _ _ E) as (H1 & H2 & H3 & H4).
    { apply Forall_app. split; [done|]. by constructor. }
    { apply Forall_app. split; [done|]. constructor; [by rewrite Hia|done]. }
    { intros c3 [= <-]. done. }
    split_and!; auto. intros a. specialize (H4 a). specialize (Hex a). specialize (Hc a).
    rewrite cov_app in H4. cbn [oframes] in *. rewrite (cov_app [f]), H4, Hex.
    rewrite (cov_cons lo [hi]) in Hc. cbn [cov] in *. lia.
  - destruct (push_region acc f) as [acc2|e|] eqn:Ep; [|done|done].
    apply push_region_ok in Ep as ->.
    destruct (IH _ _ _ _ E) as (H1 & H2 & H3 & H4).
    { apply Forall_app. split; [done|]. by constructor. }
    { apply Forall_app. split; [done|]. by constructor. }
    { done. }
    split_and!; auto. intros a. specialize (H4 a). rewrite cov_app in H4. rewrite (cov_app [f]). lia.
Qed.

Lemma process_uefi_spec dbg rs early mem : process_uefi dbg rs = Ok (early, mem) ->
  Forall aligned mem /\ Forall (fun f => f_aff f = 0) mem /\ mc_ok early /\ fits EBP ELP early /\ mc_node early = 0 /\
  forall a, (cov (frames early) a + cov mem a = cov (usable rs) a)%nat.
Proof.
  unfold process_uefi. destruct (uefi_loop dbg rs None []) as [[[em|] acc]|e|] eqn:E; try done.
  intros [= -> ->].
  destruct (uefi_loop_spec _ _ _ _ _ _ E) as (H1 & H2 & H3 & H4); [constructor|constructor|done|].
  destruct (H3 early eq_refl) as (K1 & K2 & K3).
  split_and!; auto.
Qed.

(** ** NUMA affinities *)
Definition part_frame (p : N * N * N) : frame := mkFrame p.1.1 (p.1.2 - p.1.1) p.2.
Lemma push_parts_spec ps : forall acc acc', push_parts ps acc = Ok acc' ->
  acc' = acc ++ map part_frame ps /\ Forall (fun p => p.1.1 < p.1.2 /\ aligned (part_frame p)) ps.
Proof.
  induction ps as [|[[lo hi] id] ps IH]; intros acc acc' E; cbn [push_parts] in E.
  { simplify_eq. by rewrite app_nil_r. }
  unfold frame_from_range in E. case_decide as Hd; [|done].
  destruct (push_region acc (mkFrame lo (hi - lo) id)) as [acc2|e|] eqn:Ep; [|done|done].
  apply push_region_ok in Ep as ->. destruct (IH _ _ E) as [-> HF].
  split; [by rewrite <- app_assoc|]. constructor; [|done].
  destruct Hd as (H1 & H2 & H3). split; [done|]. unfold aligned, part_frame. cbn. unfold BASE_PAGE in *. split; [done|].
  clear -H1 H2 H3. lia.
Qed.

(** Coverage by the parts of one frame, per affinity. *)
Lemma frame_parts_cov P topo f a :
  (covP P (map part_frame (frame_parts topo f)) a <= if decide (covers f a) then covP P (topo_frames topo) a else 0)%nat.
Proof.
  unfold frame_parts, topo_frames.
  induction topo as [|nd topo IH]; cbn [flat_map]; [case_decide; done|].
  rewrite map_app, !covP_app.
  assert (forall rs, covP P (map part_frame (flat_map (region_part f (nd_id nd)) rs)) a <=
    if decide (covers f a) then covP P (flat_map (fun r : N * N * bool => match r with
    | (lo, hi, hot) => if (hot : bool) then [] else [mkFrame lo (hi - lo) (nd_id nd)]
    end) rs) a else 0)%nat as H.
  { induction rs as [|[[lo hi] hot] rs IHr]; cbn [flat_map]; [case_decide; done|].
    rewrite map_app, !covP_app. destruct hot; cbn [region_part].
    { cbn [map]. case_decide; cbn in *; exact IHr. }
    rewrite !covP_one. cbn [f_aff]. unfold affinity_mid.
    destruct (decide (N.max lo (f_base f) < N.min hi (f_base f + f_size f))) as [Hm|Hm]; cbn [fst snd].
    2:{ rewrite decide_False by lia. cbn [map]. change (covP P [] a) with 0%nat.
        destruct (decide (covers f a)); [|exact IHr]. clear -IHr. lia. }
    destruct (decide (0 < N.max lo (f_base f))) as [Hz|Hz]; cbn [map].
    2:{ change (covP P [] a) with 0%nat. destruct (decide (covers f a)); [|exact IHr]. clear -IHr. lia. }
    rewrite covP_one. unfold part_frame at 1 2. cbn [fst snd f_aff].
    destruct (P (nd_id nd)).
    2:{ destruct (decide (covers f a)); exact IHr. }
    assert (cov [mkFrame (N.max lo (f_base f)) (N.min hi (f_base f + f_size f) - N.max lo (f_base f)) (nd_id nd)] a =
      if decide (covers f a) then cov [mkFrame lo (hi - lo) (nd_id nd)] a else 0)%nat as ->.
    { clear -Hm. cbn [cov]. unfold covers. cbn [f_base f_size]. repeat case_decide; lia. }
    destruct (decide (covers f a)); clear -IHr; lia. }
  specialize (H (nd_mem nd)). case_decide; lia.
Qed.

Lemma identify_spec topo mem ann :
  identify_numa topo mem = Ok ann -> Forall aligned mem -> Forall (fun f => f_aff f = 0) mem ->
  pairwise_disjoint (topo_frames topo) ->
  Forall aligned ann /\ (forall a, cov ann a = cov mem a) /\
  (forall n a, (0 < covP (fun m => bool_decide (m = n)) ann a)%nat -> on_node topo n a).
Proof.
  intros E Hal H0 Hd. destruct topo as [|nd topo'].
  { cbn in E. injection E as <-. split; [done|]. split; [done|]. intros n a Hn. cbn.
    rewrite (covP_uniform _ _ _ _ H0) in Hn. case_bool_decide; [done|lia]. }
  set (topo := nd :: topo') in *.
  assert (Hon : forall n a, on_node topo n a <-> exists f, f ∈ topo_frames topo /\ f_aff f = n /\ covers f a) by done.
  unfold identify_numa in E. subst topo. set (topo := nd :: topo') in *.
  destruct (push_parts (flat_map (frame_parts topo) mem) []) as [ann'|e|] eqn:Ep; [|done|done].
  case_decide as Ht; [|done]. injection E as <-.
  apply push_parts_spec in Ep as [-> HF]. cbn [app] in *.
  assert (Hc : forall P a, (covP P (map part_frame (flat_map (frame_parts topo) mem)) a <=
      cov mem a * covP P (topo_frames topo) a)%nat).
  { intros P a. clear. induction mem as [|f mem IH]; [done|]. cbn [flat_map].
    rewrite map_app, covP_app, (cov_cons f mem).
    pose proof (frame_parts_cov P topo f a) as H. cbn [cov]. case_decide; lia. }
  assert (Hle : forall a, (cov (map part_frame (flat_map (frame_parts topo) mem)) a <= cov mem a)%nat).
  { intros a. specialize (Hc (fun _ => true) a). rewrite !covP_all in Hc.
    pose proof (proj2 (cov_disjoint _) Hd a). destruct (cov (topo_frames topo) a) as [|[|]]; lia. }
  split.
  { apply Forall_fmap. eapply Forall_impl; [exact HF|]. intros p [_ Hp]. exact Hp. }
  split.
  { intros a. by apply cov_eq_of_total. }
  intros n a Hn. apply Hon. specialize (Hc (fun m => bool_decide (m = n)) a).
  assert (Hpos : (0 < covP (fun m => bool_decide (m = n)) (topo_frames topo) a)%nat) by lia.
  unfold covP in Hpos.
  destruct (decide (Exists (fun g => covers g a) (fl (fun m => bool_decide (m = n)) (topo_frames topo)))) as [He|He].
  - apply Exists_exists in He as (g & Hg & Hga). unfold fl in Hg. apply elem_of_list_filter in Hg as [Hg1 Hg2].
    apply bool_decide_eq_true in Hg1. eauto.
  - exfalso. assert (cov (fl (fun m => bool_decide (m = n)) (topo_frames topo)) a = 0%nat) as Hz; [|lia].
    apply cov_zero_elem. intros g Hg Hga. apply He, Exists_exists. eauto.
Qed.

(** ** Building the global memory *)
Lemma covP_same_aff P f g a : (f_size g <> 0 -> f_aff g = f_aff f) ->
  covP P [g] a = if P (f_aff f) then cov [g] a else 0%nat.
Proof.
  intros H. rewrite covP_one. destruct (decide (f_size g = 0)) as [Hz|Hz].
  - assert (cov [g] a = 0%nat) as ->.
    { apply cov_zero_elem. intros h Hh. apply elem_of_list_singleton in Hh as ->. by apply covers_empty. }
    by destruct (P (f_aff g)), (P (f_aff f)).
  - by rewrite (H Hz).
Qed.
Definition cframes (cs : list mcache) : list frame := concat (map frames cs).
Lemma cframes_cons c cs : cframes (c :: cs) = frames c ++ cframes cs.
Proof. done. Qed.

Lemma split_at_aff f k lo hi : split_at f k = Ok (lo, hi) ->
  (f_aff lo = 0 \/ f_aff lo = f_aff f) /\ (f_aff hi = 0 \/ f_aff hi = f_aff f).
Proof.
  unfold split_at, frame_new. intros E. repeat case_decide; try done; injection E as <- <-; cbn; auto.
Qed.
Lemma split_at_large_aff f lo hi : split_at_large f = Ok (lo, hi) ->
  (f_aff lo = 0 \/ f_aff lo = f_aff f) /\ (f_aff hi = 0 \/ f_aff hi = f_aff f).
Proof.
  unfold split_at_large. case_decide; [intros [= <- <-]; cbn; auto|apply split_at_aff].
Qed.

(** [ems]: the blocks set aside for early memory, one per early cache. *)
Lemma emem_loop_spec dbg mem : forall cur rest lo cs,
  emem_loop dbg mem cur = Ok (rest, lo, cs) -> Forall aligned mem ->
  exists ems, Forall aligned (rest ++ lo) /\ length ems = length cs /\
    Forall (fun f => f_aff f = 0 \/ exists g, g ∈ mem /\ f_aff f = f_aff g) (rest ++ lo) /\
    (forall P a, (covP P rest a + covP P lo a + covP P ems a = covP P mem a)%nat) /\
    Forall2 (fun c em => mc_with_frame dbg SBP SLP (mc_node c) em = Ok c /\ aligned em /\ f_aff em = mc_node c /\
      f_base em mod 2097152 = 0 /\ 578 <= base_pages em <= 1088) cs ems /\
    (forall i c, cs !! i = Some c -> mc_node c = cur + N.of_nat i).
Proof.
  induction mem as [|f mem IH]; intros cur rest lo cs E Hal; cbn [emem_loop] in E.
  { simplify_eq. exists []. split_and!; try done; try constructor. }
  inversion Hal as [|? ? Hf Hal']; subst.
  case_decide as Hd.
  - destruct Hd as [Hcur Hsz].
    destruct (split_at_large_spec f Hf) as (low & hi & E1 & Hlow & Hhi & Hc & Hhb & Hls & Hss & Hli & Hhii).
    rewrite E1 in E.
    assert (Hhn : f_size hi <> 0) by (unfold EMEM_SIZE, LARGE_PAGE, BASE_PAGE in *; lia).
    destruct (Hhii Hhn) as [Hhb2 Hha].
    destruct (split_at_spec hi EMEM_SIZE Hhi) as (em & left & E2 & Hem & Hle & Hc2 & B & S1 & S2 & A & Hi); [done|].
    rewrite E2 in E.
    destruct (mc_with_frame dbg SBP SLP cur em) as [c|e|] eqn:Ec; [|done|done].
    case_decide as Hmx; [done|].
    destruct (emem_loop dbg mem (cur + 1)) as [[[rest2 lo2] cs2]|e|] eqn:El; [|done|done].
    injection E as <- <- <-.
    destruct (IH _ _ _ _ El Hal') as (ems & K1 & K2 & K3 & K4 & K5 & K6).
    assert (Hmc : mc_node c = cur).
    { destruct (mc_with_frame_spec dbg SBP SLP cur em) as (c' & Ec' & _ & _ & Hn & _); [|done|].
      - right. left. unfold SBP. lia.
      - rewrite Ec in Ec'. by injection Ec' as <-. }
    exists (em :: ems).
    assert (Hlo' : forall P a, (covP P (if decide (left = frame_empty) then lo2 else left :: lo2) a = covP P [left] a + covP P lo2 a)%nat).
    { intros P a. case_decide as Hle0; [|by rewrite covP_cons].
      rewrite Hle0. rewrite (covP_one P frame_empty), cov_empty_frame. by destruct (P _). }
    apply Forall_app in K1 as [K1a K1b]. apply Forall_app in K3 as [K3a K3b].
    assert (K3w : forall l, Forall (fun f => f_aff f = 0 \/ exists g, g ∈ mem /\ f_aff f = f_aff g) l ->
       Forall (fun f0 => f_aff f0 = 0 \/ exists g, g ∈ f :: mem /\ f_aff f0 = f_aff g) l).
    { intros l Hl. eapply Forall_impl; [exact Hl|]. intros g [?|(g' & ? & ?)]; [by left|]. right. exists g'. by split; [right|]. }
    split.
    { apply Forall_app. split; [by constructor|]. case_decide; [done|by constructor]. }
    split; [cbn; lia|]. split.
    { pose proof (split_at_large_aff _ _ _ E1) as [Hlow' _].
      pose proof (split_at_aff _ _ _ _ E2) as [_ Hleft']. rewrite Hha in Hleft'.
      assert (forall g, f_aff g = 0 \/ f_aff g = f_aff f -> f_aff g = 0 \/ exists g0, g0 ∈ f :: mem /\ f_aff g = f_aff g0) as Hq.
      { intros g [?|?]; [by left|]. right. exists f. split; [left|done]. }
      apply Forall_app. split; [constructor; auto|]. case_decide; [auto|constructor; auto]. }
    split.
    { intros P a. rewrite (covP_cons P low), (covP_cons P em), (covP_cons P f), Hlo', <- (K4 P a).
      rewrite (covP_same_aff P f low), (covP_same_aff P f left), (covP_same_aff P f em), (covP_one P f).
      - specialize (Hc a). specialize (Hc2 a). rewrite (cov_cons low [hi]) in Hc. rewrite (cov_cons em [left]) in Hc2.
        destruct (P (f_aff f)); lia.
      - intros _. by rewrite A.
      - intros Hz. destruct (Hi Hz) as [_ ->]. done.
      - intros Hz. by destruct (Hli Hz). }
    split.
    { constructor; [|done]. rewrite Hmc. split; [done|]. split; [done|]. split; [by rewrite A, Hha|].
      split; [by rewrite B|]. unfold base_pages, EMEM_SIZE, LARGE_PAGE, BASE_PAGE in *.
      destruct Hem as [_ Hem]. destruct Hlow as [_ Hlow]. destruct Hf as [_ Hf]. clear -Hsz Hls Hss S1 Hem Hlow Hf. lia. }
    intros i c' Hi'. destruct i as [|i]; [injection Hi' as <-; lia|]. cbn in Hi'. rewrite (K6 _ _ Hi'). lia.
  - destruct (emem_loop dbg mem cur) as [[[rest2 lo2] cs2]|e|] eqn:El; [|done|done].
    injection E as <- <- <-.
    destruct (IH _ _ _ _ El Hal') as (ems & K1 & K2 & K3 & K4 & K5 & K6).
    exists ems. split; [by constructor|]. split; [done|]. split.
    { constructor; [right; exists f; split; [left|done]|].
      eapply Forall_impl; [exact K3|]. intros g [?|(g' & ? & ?)]; [by left|]. right. exists g'. by split; [right|]. }
    split; [|by split].
    intros P a. rewrite (covP_cons P f rest2), (covP_cons P f mem), <- (K4 P a). lia.
Qed.

Lemma ncache_loop_spec cs : forall cs' fs, ncache_loop cs = Ok (cs', fs) ->
  Forall mc_ok cs -> Forall (fits SBP SLP) cs ->
  Forall mc_ok cs' /\ Forall (fits SBP SLP) cs' /\ length cs' = length cs /\ length fs = length cs /\
  (forall P a, (covP P (cframes cs') a + covP P fs a = covP P (cframes cs) a)%nat) /\
  (forall i c, cs' !! i = Some c -> exists c0, cs !! i = Some c0 /\ mc_node c = mc_node c0) /\
  (forall i f, fs !! i = Some f -> exists c0, cs !! i = Some c0 /\ f_aff f = mc_node c0).
Proof.
  induction cs as [|c cs IH]; intros cs' fs E Hok Hfit; cbn [ncache_loop] in E.
  { simplify_eq. split_and!; try done. }
  inversion Hok as [|? ? Hc Hok']; subst. inversion Hfit as [|? ? Hcf Hfit']; subst.
  pose proof (alloc_large_spec SBP SLP c Hc Hcf) as Ha.
  destruct (mc_alloc_large c) as [[f|e|] c'] eqn:Ea; try done.
  destruct Ha as (A1 & A2 & A3 & A4 & A5 & A6 & _).
  case_decide; [done|].
  destruct (ncache_loop cs) as [[cs2 fs2]|e|] eqn:El; [|done|done].
  injection E as <- <-.
  destruct (IH _ _ eq_refl Hok' Hfit') as (K1 & K2 & K3 & K4 & K5 & K6 & K7).
  split; [by constructor|]. split; [by constructor|]. split; [cbn; lia|]. split; [cbn; lia|].
  split; [|split].
  - intros P a. rewrite !cframes_cons, !covP_app, (covP_cons P f), <- (K5 P a), !covP_frames, A3.
    assert (Hfa : f_aff f = mc_node c) by (rewrite A4; done).
    rewrite covP_one, Hfa. specialize (A6 a). rewrite (cov_cons f (frames c')) in A6 || idtac.
    destruct (P (mc_node c)); lia.
  - intros [|i] c2 Hi; [injection Hi as <-; eauto|]. apply (K6 i c2 Hi).
  - intros [|i] f2 Hi; [injection Hi as <-; exists c; split; [done|by rewrite A4]|]. apply (K7 i f2 Hi).
Qed.

Definition isn (n : N) : N -> bool := fun m => bool_decide (m = n).
Lemma node_bytes_fl n l : node_bytes n l = total_size (fl (isn n) l).
Proof.
  unfold node_bytes, fl, isn. induction l as [|f l IH]; [done|].
  rewrite !filter_cons. destruct (decide (f_aff f = n)).
  - rewrite decide_True by (by apply bool_decide_eq_true). rewrite !total_size_cons. by rewrite IH.
  - rewrite decide_False; [done|]. intros H. by apply bool_decide_eq_true in H.
Qed.
Definition NODE_MAX : N := 131071 * 4096.

Lemma fill_cache_spec aff mem : forall c, Forall aligned mem -> mc_ok c -> fits LBP LLP c -> mc_node c = aff ->
  exists c', fill_cache aff mem c = Ok c' /\ mc_ok c' /\ fits LBP LLP c' /\ mc_node c' = aff /\
    (forall a, (cov (frames c') a <= cov (frames c) a + covP (isn aff) mem a)%nat) /\
    (total_size (frames c) + node_bytes aff mem <= NODE_MAX ->
      forall a, (cov (frames c') a = cov (frames c) a + covP (isn aff) mem a)%nat).
Proof.
  induction mem as [|f mem IH]; intros c Hal Hok Hfit Hn; cbn [fill_cache].
  { exists c. split; [done|]. split; [done|]. split; [done|]. split; [done|].
    split; intros; change (covP (isn aff) [] _) with 0%nat; lia. }
  inversion Hal as [|? ? Hf Hal']; subst.
  assert (Hcv : forall a, covP (isn (mc_node c)) (f :: mem) a =
    ((if decide (f_aff f = mc_node c) then cov [f] a else 0) + covP (isn (mc_node c)) mem a)%nat).
  { intros a. rewrite covP_cons, covP_one. unfold isn at 1. destruct (decide _).
    - by rewrite bool_decide_eq_true_2. - by rewrite bool_decide_eq_false_2. }
  assert (Hnb : node_bytes (mc_node c) (f :: mem) =
    (if decide (f_aff f = mc_node c) then f_size f else 0) + node_bytes (mc_node c) mem).
  { unfold node_bytes. rewrite filter_cons. destruct (decide _); [by rewrite total_size_cons|lia]. }
  case_decide as Hd.
  - unfold populate_2m_first.
    destruct (populate_spec LBP LLP c f (f_size f / LARGE_PAGE * 87 / 100) Hok Hfit Hf)
      as (lost & c1 & E & H1 & H2 & H3 & H4 & _).
    rewrite E. destruct (IH c1 Hal' H1 H2 H3) as (c' & E' & K1 & K2 & K3 & K4 & K5).
    exists c'. split; [done|]. split; [done|]. split; [done|]. split; [done|].
    split.
    + intros a. specialize (K4 a). specialize (H4 a). rewrite Hcv. lia.
    + intros Ht.
      assert (Hex : forall a, cov (frames c1) a = (cov [f] a + cov (frames c) a)%nat).
      { set (k0 := f_size f / LARGE_PAGE * 87 / 100) in *. clearbody k0.
        assert (Ek : populate LBP LLP c f (if decide (k0 = 0) then 1 else k0) = (Ok lost, c1)).
        { rewrite <- E. unfold populate. destruct (decide (k0 = 0)) as [->|]; [done|]. by rewrite decide_False. }
        eapply (populate_exact LBP LLP c f (if decide (k0 = 0) then 1 else k0) lost c1); [done|done|done|by case_decide| |exact Ek].
        intros n Hn1 Hn2 Hn3. rewrite total_frames in Ht. rewrite Hnb in Ht.
        unfold NODE_MAX, LBP, LLP in *. rewrite !N2Nat.id. unfold base_pages, BASE_PAGE.
        destruct Hf as [_ Hf]. clear -Ht Hn2 Hf. lia. }
      intros a. rewrite Hcv, K5; [rewrite Hex; lia|].
      assert (total_size (frames c1) = f_size f + total_size (frames c)) as ->.
      { rewrite <- total_size_cons. apply total_size_eq. intros b. rewrite Hex. by rewrite <- cov_cons. }
      rewrite Hnb in Ht. lia.
  - destruct (IH c Hal' Hok Hfit eq_refl) as (c' & E' & K1 & K2 & K3 & K4 & K5).
    exists c'. split; [done|]. split; [done|]. split; [done|]. split; [done|].
    split.
    + intros a. specialize (K4 a). rewrite Hcv. lia.
    + intros Ht a. rewrite Hcv. apply K5. rewrite Hnb in Ht. lia.
Qed.

Lemma fill_caches_spec n : forall aff mem, Forall aligned mem ->
  exists cs, fill_caches n aff mem = Ok cs /\ Forall mc_ok cs /\ Forall (fits LBP LLP) cs /\ length cs = n /\
    (forall i c, cs !! i = Some c -> mc_node c = aff + N.of_nat i) /\
    (forall P a, (covP P (cframes cs) a <= covP (fun m => P m && bool_decide (aff <= m)%N) mem a)%nat) /\
    ((forall m, node_bytes m mem <= NODE_MAX) -> Forall (fun f => f_aff f < aff + N.of_nat n) mem ->
     forall P a, covP P (cframes cs) a = covP (fun m => P m && bool_decide (aff <= m)) mem a).
Proof.
  induction n as [|n IH]; intros aff mem Hal; cbn [fill_caches].
  { exists []. split; [done|]. split; [done|]. split; [done|]. split; [done|]. split; [done|].
    split; [intros; apply Nat.le_0_l|]. intros _ Hlt P a. cbn. symmetry.
    induction Hlt as [|f l Hf Hl IHl]; [done|]. rewrite covP_cons, covP_one, IHl by (by inversion Hal).
    rewrite bool_decide_eq_false_2 by lia. by rewrite andb_false_r. }
  destruct (fill_cache_spec aff mem (mc_new aff) Hal (mc_new_ok aff) (mc_new_fits _ _ aff) eq_refl)
    as (c & E & H1 & H2 & H3 & H4 & H5).
  rewrite E. destruct (IH (aff + 1) mem Hal) as (cs & Ecs & K1 & K2 & K3 & K4 & K5 & K6). rewrite Ecs.
  exists (c :: cs). split; [done|]. split; [by constructor|]. split; [by constructor|]. split; [cbn; lia|].
  assert (Hsp : forall P a, covP (fun m => P m && bool_decide (aff <= m)) mem a =
    ((if P aff then covP (isn aff) mem a else 0) + covP (fun m => P m && bool_decide (aff + 1 <= m)%N) mem a)%nat).
  { intros P a. rewrite (covP_split (fun m => P m && bool_decide (aff <= m)) (isn aff)). f_equal.
    - destruct (P aff) eqn:EP.
      + apply covP_ext. intros m. unfold isn. destruct (decide (m = aff)) as [->|Hm].
        { by rewrite EP, !bool_decide_eq_true_2 by lia. }
        rewrite (bool_decide_eq_false_2 (m = aff)) by done. by rewrite andb_false_r.
      + rewrite (covP_ext _ (fun _ => false)).
        * clear. induction mem as [|f l IHl]; [done|]. by rewrite covP_cons, covP_one, IHl.
        * intros m. unfold isn. destruct (decide (m = aff)) as [->|Hm]; [by rewrite EP|].
          rewrite (bool_decide_eq_false_2 (m = aff)) by done. by rewrite andb_false_r.
    - apply covP_ext. intros m. unfold isn. destruct (P m); [|done]. cbn.
      repeat case_bool_decide; try done; lia. }
  split; [|split].
  - intros [|i] c' Hi; [injection Hi as <-; lia|]. cbn in Hi. rewrite (K4 _ _ Hi). lia.
  - intros P a. rewrite cframes_cons, covP_app, covP_frames, H3, Hsp.
    specialize (K5 P a). specialize (H4 a). rewrite cov_frames_new in H4. destruct (P aff); lia.
  - intros Hb Hlt P a. rewrite cframes_cons, covP_app, covP_frames, H3, Hsp.
    rewrite K6; [|done|eapply Forall_impl; [exact Hlt|]; intros g Hg; cbn beta in *; lia].
    destruct (P aff); [|done]. rewrite H5, cov_frames_new by (change (total_size (frames (mc_new aff))) with 0; rewrite N.add_0_l; apply Hb). lia.
Qed.

(** The early cache of a node: one large page, and up to 381 base pages. *)
Lemma emem_count dbg n em c : mc_with_frame dbg SBP SLP n em = Ok c -> aligned em ->
  f_base em mod 2097152 = 0 -> 578 <= base_pages em <= 1088 ->
  mc_large c = [f_base em] /\ f_size em <= total_size (frames c) + 195 * 4096.
Proof.
  intros E Hal Hb Hp. unfold mc_with_frame, populate_4k_first in E.
  rewrite decide_True in E by (unfold SBP; lia).
  set (k := (base_pages em - N.of_nat SBP) * BASE_PAGE / LARGE_PAGE) in E.
  assert (Hk : (if decide (k = 0) then 1 else k) = 1).
  { assert (k < 2) by (subst k; unfold BASE_PAGE, LARGE_PAGE, SBP; apply N.div_lt_upper_bound; lia).
    case_decide; lia. }
  unfold populate in E. rewrite Hk in E. clearbody k. clear Hk k.
  unfold split_at_large in E. rewrite (decide_True _ _ Hb) in E.
  change (push_pages (S (N.to_nat (base_pages frame_empty))) SBP frame_empty (mc_base (mc_new n))) with (Ok ([] : list N, false)) in E.
  cbn beta iota in E. change (N.to_nat 1) with 1%nat in E. cbn [push_large] in E.
  assert (Hsz : LARGE_PAGE <= f_size em).
  { unfold base_pages, BASE_PAGE, LARGE_PAGE in *. destruct Hal as [_ Hal]. lia. }
  rewrite decide_True in E by done.
  destruct (split_at_spec em LARGE_PAGE Hal) as (lo & hi & E1 & Hlo & Hhi & Hc & B & S1 & S2 & A & Hi); [done|].
  rewrite E1 in E. cbn [try_push mc_large mc_new] in E. unfold try_push in E at 1.
  rewrite decide_True in E by (cbn; unfold SLP; lia).
  destruct (push_pages_spec (S (N.to_nat (base_pages hi))) SBP hi [] n)
    as (b2 & l2 & E3 & P1 & P2 & P3 & P4 & P5 & P6 & P7); [done|lia|cbn; lia|constructor|].
  rewrite E3 in E. injection E as <-. cbn [mc_large]. split; [by rewrite B|].
  rewrite total_frames. cbn [mc_base mc_large length].
  assert (Hmin : N.min 381 (base_pages hi) <= N.of_nat (length b2)).
  { destruct l2.
    - assert (~ (length b2 < SBP)%nat) as Hx by (intros Hx; specialize (P4 Hx); done). unfold SBP in Hx. lia.
    - specialize (P6 eq_refl). cbn [length] in P6. lia. }
  unfold base_pages, BASE_PAGE, LARGE_PAGE in *. destruct Hal as [_ Hal]. destruct Hhi as [_ Hhi].
  clear -Hmin Hp S1 S2 Hal Hhi. lia.
Qed.

Lemma max_aff_le l f : f ∈ l -> f_aff f <= max_aff l.
Proof.
  assert (forall g l, max_aff (g :: l) = N.max (f_aff g) (max_aff l)) as Hc by done.
  induction 1 as [|f g l H IH]; rewrite Hc; lia.
Qed.

Lemma gm_new_spec dbg mem gm : gm_new dbg mem = Ok gm -> Forall aligned mem ->
  let n := max_aff mem + 1 in
  N.of_nat (length (gm_emem gm)) = n /\ N.of_nat (length (gm_caches gm)) = n /\ N.of_nat (length (gm_self gm)) = n /\
  (forall i c, gm_emem gm !! i = Some c -> mc_node c = N.of_nat i) /\
  (forall i c, gm_caches gm !! i = Some c -> mc_node c = N.of_nat i) /\
  (forall i f, gm_self gm !! i = Some f -> f_aff f = N.of_nat i /\ f_size f = 2097152) /\
  (forall P a, (covP P (node_frames gm) a <= covP P mem a)%nat) /\
  Forall mc_ok (gm_emem gm) /\ Forall mc_ok (gm_caches gm) /\
  Forall (fits SBP SLP) (gm_emem gm) /\ Forall (fits LBP LLP) (gm_caches gm) /\
  ((forall m, node_bytes m mem <= NODE_MAX) -> total_size mem <= total_size (node_frames gm) + n * (195 * 4096)).
Proof.
  intros E Hal n. unfold gm_new in E. destruct (sorted_aff mem) eqn:Hsrt; [|done]. cbn [negb] in E.
  destruct mem as [|f0 mem0]; [done|]. set (mem := f0 :: mem0) in *. fold n in E.
  destruct (emem_loop dbg mem 0) as [[[rest lo] em]|e|] eqn:Ee; [|done|done].
  case_decide as Hlen; [|done].
  destruct (ncache_loop em) as [[em' self]|e|] eqn:En; [|done|done].
  destruct (emem_loop_spec _ _ _ _ _ _ Ee Hal) as (ems & K1 & K2 & K3 & K4 & K5 & K6).
  assert (Hemok : Forall mc_ok em /\ Forall (fits SBP SLP) em).
  { clear -K5. induction K5 as [|c f em ems (E & Ha & _) _ [IH1 IH2]]; [done|].
    destruct (mc_with_frame_spec dbg SBP SLP (mc_node c) f) as (c' & E' & H1 & H2 & _); [|done|].
    - right. left. unfold SBP. lia.
    - rewrite E in E'. injection E' as <-. split; by constructor. }
  destruct (ncache_loop_spec _ _ _ En (proj1 Hemok) (proj2 Hemok)) as (M1 & M2 & M3 & M4 & M5 & M6 & M7).
  destruct (fill_caches_spec (N.to_nat n) 0 (rest ++ lo) K1) as (cs & Ec & F1 & F2 & F3 & F4 & F5 & F6).
  rewrite Ec in E. injection E as <-. cbn [gm_emem gm_caches gm_self].
  assert (Hem_ems : forall P a, (covP P (cframes em) a <= covP P ems a)%nat).
  { intros P a. clear -K5. induction K5 as [|c f em ems (E & Ha & Haff & _) _ IH]; [done|].
    rewrite cframes_cons, covP_app, (covP_cons P f), covP_one, covP_frames, Haff.
    destruct (mc_with_frame_spec dbg SBP SLP (mc_node c) f) as (c' & E' & _ & _ & _ & H); [|done|].
    - right. left. unfold SBP. lia.
    - rewrite E in E'. injection E' as <-. specialize (H a). destruct (P (mc_node c)); lia. }
  assert (Hrl : forall P a, covP (fun m => P m && bool_decide (0 <= m)) (rest ++ lo) a = covP P (rest ++ lo) a).
  { intros P a. apply covP_ext. intros m. rewrite bool_decide_eq_true_2 by lia. apply andb_true_r. }
  split; [lia|]. split; [lia|]. split; [lia|].
  split.
  { intros i c Hi. destruct (M6 _ _ Hi) as (c0 & Hc0 & ->). rewrite (K6 _ _ Hc0). lia. }
  split.
  { intros i c Hi. rewrite (F4 _ _ Hi). lia. }
  split.
  { intros i f Hi. destruct (M7 _ _ Hi) as (c0 & Hc0 & ->). rewrite (K6 _ _ Hc0). split; [lia|].
    assert (forall em em' self, ncache_loop em = Ok (em', self) -> Forall (fun f => f_size f = 2097152) self) as Hsz.
    { clear. induction em as [|c em IH]; intros em' self E; cbn [ncache_loop] in E; [simplify_eq; constructor|].
      unfold mc_alloc_large in E. destruct (mc_large c) as [|pa l]; [done|]. unfold frame_new in E.
      case_decide; [|done]. case_decide; [done|]. destruct (ncache_loop em) as [[? ?]| |]; try done.
      injection E as <- <-. constructor; [done|]. by eapply IH. }
    specialize (Hsz _ _ _ En). rewrite stdpp.list.Forall_forall in Hsz. apply Hsz. by eapply elem_of_list_lookup_2. }
  assert (Hgen : forall P a, (covP P (node_frames (mkGm em' cs self)) a <= covP P mem a)%nat).
  { intros P a. unfold node_frames. cbn [gm_emem gm_caches gm_self].
    change (concat (map frames em')) with (cframes em'). change (concat (map frames cs)) with (cframes cs).
    rewrite !covP_app. specialize (M5 P a). specialize (F5 P a). rewrite Hrl, covP_app in F5.
    specialize (K4 P a). specialize (Hem_ems P a). lia. }
  split; [exact Hgen|].
  split; [done|]. split; [done|]. split; [done|]. split; [done|].
  intros Hb.
  assert (Hbr : forall m, node_bytes m (rest ++ lo) <= NODE_MAX).
  { intros m. etransitivity; [|apply (Hb m)]. rewrite !node_bytes_fl. apply total_size_le.
    intros a. change (covP (isn m) (rest ++ lo) a <= covP (isn m) mem a)%nat.
    rewrite covP_app. specialize (K4 (isn m) a). lia. }
  assert (Hlt : Forall (fun f => f_aff f < 0 + N.of_nat (N.to_nat n)) (rest ++ lo)).
  { eapply Forall_impl; [exact K3|]. intros f [Hf|(g & Hg & Hf)]; cbn beta in *; [lia|].
    pose proof (max_aff_le _ _ Hg). lia. }
  specialize (F6 Hbr Hlt).
  assert (Htot : total_size mem = total_size (rest ++ lo ++ ems)).
  { apply total_size_eq. intros a. rewrite <- !covP_all, !covP_app. specialize (K4 (fun _ => true) a). lia. }
  assert (Hcs : total_size (cframes cs) = total_size (rest ++ lo)).
  { apply total_size_eq. intros a. rewrite <- !covP_all, F6, Hrl. done. }
  assert (Hes : total_size ems <= total_size (cframes em) + N.of_nat (length em) * (195 * 4096)).
  { clear -K5. induction K5 as [|c f em ems (E & Ha & Haff & Hb & Hp) _ IH]; [done|].
    rewrite cframes_cons, total_size_app, total_size_cons. cbn [length].
    destruct (emem_count _ _ _ _ E Ha Hb Hp) as [_ H]. lia. }
  assert (Hsf : total_size (cframes em) = total_size (cframes em' ++ self)).
  { apply total_size_eq. intros a. rewrite <- !covP_all, covP_app. by rewrite M5. }
  unfold node_frames. cbn [gm_emem gm_caches gm_self].
  change (concat (map frames em')) with (cframes em'). change (concat (map frames cs)) with (cframes cs).
  rewrite !total_size_app in *. lia.
Qed.

(** When the construction succeeds. *)
Lemma sorted_tail f l : sorted_aff (f :: l) = true -> sorted_aff l = true /\ Forall (fun g => f_aff f <= f_aff g) l.
Proof.
  revert f. induction l as [|g l IH]; intros f H; [done|].
  cbn [sorted_aff] in H. apply andb_true_iff in H as [H1 H2]. apply bool_decide_eq_true in H1.
  split; [done|]. destruct (IH g H2) as [_ H]. constructor; [done|].
  eapply Forall_impl; [exact H|]. intros h Hh. cbn beta in *. lia.
Qed.
Lemma emem_loop_ok dbg mem : forall cur m, Forall aligned mem -> sorted_aff mem = true ->
  Forall (fun f => f_aff f <= m) mem -> cur <= m + 1 -> m < MAX_NODES ->
  (forall i, cur <= i <= m -> exists f, f ∈ mem /\ f_aff f = i /\ EMEM_SIZE < f_size f) ->
  exists rest lo cs, emem_loop dbg mem cur = Ok (rest, lo, cs) /\ N.of_nat (length cs) = m + 1 - cur.
Proof.
  induction mem as [|f mem IH]; intros cur m Hal Hs Hle Hcur Hm Hbig; cbn [emem_loop].
  { exists [], [], []. split; [done|]. destruct (decide (cur <= m)) as [Hc|Hc]; [|cbn; lia].
    destruct (Hbig cur) as (g & Hg & _); [lia|]. by apply elem_of_nil in Hg. }
  inversion Hal as [|? ? Hf Hal']; subst. inversion Hle as [|? ? Hfm Hle']; subst.
  destruct (sorted_tail _ _ Hs) as [Hs' Hall]. rewrite stdpp.list.Forall_forall in Hall.
  case_decide as Hd.
  - destruct Hd as [Hcur2 Hsz].
    destruct (split_at_large_spec f Hf) as (low & hi & E1 & Hlow & Hhi & Hc & Hhb & Hls & Hss & Hli & Hhii).
    rewrite E1.
    destruct (split_at_spec hi EMEM_SIZE Hhi) as (em & left & E2 & Hem & _); [done|]. rewrite E2.
    destruct (mc_with_frame_spec dbg SBP SLP cur em) as (c & Ec & _); [|done|].
    { right. left. unfold SBP. lia. }
    rewrite Ec. rewrite decide_False by lia.
    destruct (IH (cur + 1) m Hal' Hs' Hle') as (rest & lo & cs & El & Hlen); [lia|done| |].
    { intros i Hi. destruct (Hbig i) as (g & Hg & Hgi & Hgs); [lia|].
      apply elem_of_cons in Hg as [->|Hg]; [lia|eauto]. }
    rewrite El. eexists _, _, _. split; [done|]. cbn [length]. lia.
  - destruct (IH cur m Hal' Hs' Hle' Hcur Hm) as (rest & lo & cs & El & Hlen).
    { intros i Hi. destruct (Hbig i) as (g & Hg & Hgi & Hgs); [lia|].
      apply elem_of_cons in Hg as [->|Hg]; [|eauto]. exfalso.
      destruct (decide (f_aff f = cur)); [by apply Hd|].
      destruct (Hbig cur) as (g & Hg & Hgc & Hgs2); [lia|].
      apply elem_of_cons in Hg as [->|Hg]; [done|]. specialize (Hall g Hg). cbn in Hall. lia. }
    rewrite El. eexists _, _, _. split; [done|]. done.
Qed.
Lemma gm_new_ok dbg mem : mem <> [] -> Forall aligned mem -> sorted_aff mem = true -> max_aff mem < 12 ->
  (forall i, i <= max_aff mem -> exists f, f ∈ mem /\ f_aff f = i /\ EMEM_SIZE < f_size f) ->
  Forall (fun f => f_base f <> 0) mem ->
  exists gm, gm_new dbg mem = Ok gm.
Proof.
  intros Hne Hal Hs Hmax Hbig H0. unfold gm_new. rewrite Hs. cbn [negb].
  destruct mem as [|f0 mem0]; [done|]. set (mem := f0 :: mem0) in *.
  destruct (emem_loop_ok dbg mem 0 (max_aff mem) Hal Hs) as (rest & lo & cs & El & Hlen).
  - apply stdpp.list.Forall_forall. intros f Hf. by apply max_aff_le.
  - lia.
  - done.
  - intros i Hi. apply Hbig. lia.
  - rewrite El. rewrite decide_True by lia.
    destruct (emem_loop_spec _ _ _ _ _ _ El Hal) as (ems & K1 & K2 & K3 & K4 & K5 & K6).
    assert (Hnz : Forall (fun em => f_base em <> 0) ems).
    { apply stdpp.list.Forall_forall. intros em Hem Hz.
      assert (Hca : (0 < cov mem 0)%nat).
      { rewrite <- covP_all, <- (K4 (fun _ => true) 0).
        assert (0 < covP (fun _ => true) ems 0)%nat; [|lia].
        rewrite covP_all. apply elem_of_list_lookup in Hem as [i Hi].
        pose proof (cov_lookup ems i em 0 Hi) as Hcl.
        assert (covers em 0) as Hcv; [|specialize (Hcl Hcv); lia].
        assert (578 <= base_pages em).
        { destruct (Forall2_lookup_r _ _ _ _ _ K5 Hi) as (c & _ & _ & _ & _ & _ & ? & _). done. }
        unfold covers, base_pages, BASE_PAGE in *. rewrite Hz. lia. }
      assert (cov mem 0 = 0%nat) as Hz0; [|lia].
      apply cov_zero_elem. intros g Hg [Hg1 _].
      rewrite stdpp.list.Forall_forall in H0. specialize (H0 g Hg). cbn in H0. lia. }
    assert (exists em' self, ncache_loop cs = Ok (em', self)) as (em' & self & En).
    { clear -K5 Hnz. induction K5 as [|c em cs ems (E & Ha & Haff & Hb & Hp) _ IH]; [by exists [], []|].
      inversion Hnz as [|? ? Hz Hnz']; subst. destruct (IH Hnz') as (em' & self & En).
      cbn [ncache_loop]. destruct (emem_count _ _ _ _ E Ha Hb Hp) as [Hl _].
      unfold mc_alloc_large. rewrite Hl.
      rewrite frame_new_ok; [|apply Ha|done]. cbn [f_base]. rewrite decide_False by done. rewrite En. eauto. }
    rewrite En.
    destruct (fill_caches_spec (N.to_nat (max_aff mem + 1)) 0 (rest ++ lo) K1) as (cs2 & Ec & _).
    rewrite Ec. eauto.
Qed.

(** ** How much a node cache can hold *)
Lemma push_large_count k : forall LP f st lost rest st' lost', push_large k LP f st lost = Ok (rest, st', lost') ->
  (length st' <= length st + k)%nat.
Proof.
  induction k as [|k IH]; intros LP f st lost rest st' lost' E; cbn [push_large] in E; [simplify_eq; lia|].
  case_decide; [|simplify_eq; lia]. destruct (split_at f LARGE_PAGE) as [[lp r]| |]; try done.
  unfold try_push in E. case_decide; apply IH in E; cbn [length] in E; lia.
Qed.
Lemma populate_2m_count BP LP c f x c' : populate_2m_first BP LP c f = (Ok x, c') ->
  N.of_nat (length (mc_large c')) * 209715200 <= N.of_nat (length (mc_large c)) * 209715200 + 87 * f_size f + 209715200.
Proof.
  unfold populate_2m_first, populate. set (k := f_size f / LARGE_PAGE * 87 / 100).
  assert (Hk : k * 209715200 <= 87 * f_size f).
  { subst k. unfold LARGE_PAGE.
    pose proof (N.mul_div_le (f_size f) 2097152 ltac:(lia)) as H1.
    remember (f_size f / 2097152) as q eqn:Eq. clear Eq.
    pose proof (N.mul_div_le (q * 87) 100 ltac:(lia)) as H2.
    remember (q * 87 / 100) as r eqn:Er. clear Er. lia. }
  clearbody k. destruct (split_at_large f) as [[low high]| |]; try done.
  destruct (push_pages _ BP low (mc_base c)) as [[b1 l]| |]; try done.
  destruct (push_large _ LP high (mc_large c) 0) as [[[rest l1] ll]| |] eqn:E; try done.
  destruct (push_pages _ BP rest b1) as [[b2 lb]| |]; try done. intros [= <- <-]. cbn [mc_large].
  apply push_large_count in E. case_decide; lia.
Qed.
Lemma fill_cache_count aff mem : forall c c', fill_cache aff mem c = Ok c' ->
  N.of_nat (length (mc_large c')) * 209715200 <= N.of_nat (length (mc_large c)) * 209715200 +
    87 * node_bytes aff mem + 209715200 * N.of_nat (length mem).
Proof.
  induction mem as [|f mem IH]; intros c c' E; cbn [fill_cache] in E.
  { simplify_eq. lia. }
  assert (Hnb : node_bytes aff (f :: mem) = (if decide (f_aff f = aff) then f_size f else 0) + node_bytes aff mem).
  { unfold node_bytes. rewrite filter_cons. destruct (decide _); [by rewrite total_size_cons|lia]. }
  rewrite Hnb. cbn [length]. case_decide.
  - destruct (populate_2m_first LBP LLP c f) as [[x| |] c1] eqn:Ep; try done.
    apply populate_2m_count in Ep. apply IH in E. lia.
  - apply IH in E. lia.
Qed.
Lemma emem_loop_lengths dbg mem : forall cur rest lo cs, emem_loop dbg mem cur = Ok (rest, lo, cs) ->
  length rest = length mem /\ (length lo <= length cs)%nat.
Proof.
  induction mem as [|f mem IH]; intros cur rest lo cs E; cbn [emem_loop] in E; [by simplify_eq|].
  case_decide.
  - destruct (split_at_large f) as [[low al]| |]; try done. destruct (split_at al EMEM_SIZE) as [[em left]| |]; try done.
    destruct (mc_with_frame dbg SBP SLP cur em) as [c| |]; try done. case_decide; [done|].
    destruct (emem_loop dbg mem (cur + 1)) as [[[r l] cs']| |] eqn:E'; try done.
    injection E as <- <- <-. apply IH in E'. cbn [length]. case_decide; cbn [length]; lia.
  - destruct (emem_loop dbg mem cur) as [[[r l] cs']| |] eqn:E'; try done.
    injection E as <- <- <-. apply IH in E'. cbn [length]. lia.
Qed.

(** A machine with one node: what all allocators hold together. *)
Lemma gm_new_one_node dbg mem gm : gm_new dbg mem = Ok gm -> Forall aligned mem -> max_aff mem = 0 ->
  100 * total_size (node_frames gm) <= 87 * total_size mem + 100 * (1088 * 4096 + NODE_MAX + 2097152 * (N.of_nat (length mem) + 1)).
Proof.
  intros E Hal Hm. unfold gm_new in E. destruct (sorted_aff mem) eqn:Hsrt; [|done]. cbn [negb] in E.
  destruct mem as [|f0 mem0]; [done|]. set (mem := f0 :: mem0) in *. rewrite Hm in E. clearbody mem.
  destruct (emem_loop dbg mem 0) as [[[rest lo] em]|e|] eqn:Ee; [|done|done].
  case_decide as Hlen; [|done].
  destruct (ncache_loop em) as [[em' self]|e|] eqn:En; [|done|done].
  change (N.to_nat (0 + 1)) with 1%nat in E. cbn [fill_caches] in E.
  destruct (fill_cache 0 (rest ++ lo) (mc_new 0)) as [c|e|] eqn:Ec; [|done|done]. injection E as <-.
  destruct (emem_loop_spec _ _ _ _ _ _ Ee Hal) as (ems & K1 & K2 & K3 & K4 & K5 & K6).
  destruct (emem_loop_lengths _ _ _ _ _ _ Ee) as [Lr Ll].
  pose proof (fill_cache_count _ _ _ _ Ec) as Hcnt. cbn [mc_large mc_new length] in Hcnt.
  destruct (fill_cache_spec 0 (rest ++ lo) (mc_new 0) K1 (mc_new_ok 0) (mc_new_fits _ _ 0) eq_refl) as (c2 & E2 & _ & Hfit & _).
  rewrite Ec in E2. injection E2 as <-. destruct Hfit as [Hfb _].
  assert (Hnb : node_bytes 0 (rest ++ lo) <= total_size mem).
  { rewrite node_bytes_fl. apply total_size_le. intros a.
    change (covP (isn 0) (rest ++ lo) a <= cov mem a)%nat. rewrite <- covP_all.
    pose proof (covP_split (fun _ => true) (isn 0) mem a) as Hs. cbn in Hs.
    change (fun m : N => isn 0 m) with (isn 0) in Hs.
    specialize (K4 (isn 0) a). rewrite covP_app. lia. }
  assert (Hemok : Forall mc_ok em /\ Forall (fits SBP SLP) em /\ total_size (cframes em) <= 1088 * 4096 * N.of_nat (length em)).
  { clear -K5. induction K5 as [|c f em ems (E & Ha & Hf & Hb & Hp) _ (IH1 & IH2 & IH3)]; [done|].
    destruct (mc_with_frame_spec dbg SBP SLP (mc_node c) f) as (c' & E' & H1 & H2 & _ & Hc); [|done|].
    - right. left. unfold SBP. lia.
    - rewrite E in E'. injection E' as <-. split; [by constructor|]. split; [by constructor|].
      rewrite cframes_cons, total_size_app. cbn [length].
      apply total_size_le in Hc. rewrite total_size_cons in Hc. change (total_size []) with 0 in Hc.
      unfold base_pages, BASE_PAGE in Hp. destruct Ha as [_ Ha]. clear -Hc IH3 Hp Ha. lia. }
  destruct Hemok as (Ho & Hf & Ht).
  destruct (ncache_loop_spec _ _ _ En Ho Hf) as (_ & _ & _ & _ & M5 & _).
  assert (Hsf : total_size (cframes em) = total_size (cframes em' ++ self)).
  { apply total_size_eq. intros a. rewrite <- !covP_all, covP_app. by rewrite M5. }
  unfold node_frames. cbn [gm_emem gm_caches gm_self map concat].
  change (concat (map frames em')) with (cframes em'). rewrite app_nil_r.
  rewrite !total_size_app in *. rewrite total_frames.
  rewrite app_length, Lr in Hcnt. unfold NODE_MAX, LBP in *. lia.
Qed.

(** ** Booting succeeds *)
Lemma uefi_loop_ok dbg rs : forall em acc,
  Forall (fun r => rg_conv r = true -> rg_start r mod 4096 = 0) rs ->
  (length acc + length (usable rs) <= 64)%nat -> Forall (fun f => f_base f <> 0) acc ->
  exists em' acc', uefi_loop dbg rs em acc = Ok (em', acc') /\ (length acc' <= length acc + length (usable rs))%nat /\
    Forall (fun f => f_base f <> 0) acc' /\ (is_Some em -> is_Some em') /\
    (forall f, f ∈ usable rs -> EARLY_CAPACITY < f_size f -> is_Some em') /\
    (forall f, f ∈ acc -> f ∈ acc') /\
    (forall f, f ∈ usable rs -> exists g, g ∈ acc' /\ f_size f <= f_size g + EARLY_CAPACITY).
Proof.
  induction rs as [|r rs IH]; intros em acc Hr Hlen Hb; cbn [uefi_loop].
  { exists em, acc. split; [done|]. split; [lia|]. split; [done|]. split; [done|].
    split; [|split; [done|]]; intros f Hf; by apply elem_of_nil in Hf. }
  inversion Hr as [|? ? Hr1 Hr2]; subst. rewrite usable_aligned_cons in *.
  destruct (rg_conv r) eqn:Hconv.
  2:{ rewrite app_nil_l in *. by apply IH. }
  unfold frame_new. rewrite decide_True.
  2:{ split; [by apply Hr1|]. unfold BASE_PAGE. by rewrite N.mod_mul. }
  change (rg_pages r * BASE_PAGE) with (rg_pages r * 4096).
  set (f := mkFrame (rg_start r) (rg_pages r * 4096) 0) in *.
  assert (Hf : aligned f).
  { split; [by apply Hr1|]. change (f_size f) with (rg_pages r * 4096). by rewrite N.mod_mul. }
  change ONE_MIB with 1048576. case_decide as H1m.
  2:{ rewrite app_nil_l in *. by apply IH. }
  rewrite app_length in *. cbn [length] in *.
  destruct (bool_decide (EARLY_CAPACITY < f_size f) && negb (bool_decide (is_Some em))) eqn:Hd.
  - apply andb_true_iff in Hd as [Hd1 _]. apply bool_decide_eq_true in Hd1.
    destruct (split_at_spec f EARLY_CAPACITY Hf) as (lo & hi & Es & Hlo & Hhi & Hc & B & S1 & S2 & A & Hi); [done|].
    rewrite Es.
    assert (Hlos : f_size lo = EARLY_CAPACITY) by lia.
    destruct (mc_with_frame_spec dbg EBP ELP 0 lo) as (c2 & Ec2 & _); [|done|].
    { right. right. unfold base_pages. rewrite Hlos. done. }
    rewrite Ec2. assert (Hhn : f_size hi <> 0) by lia.
    rewrite decide_False by (intros ->; done).
    unfold push_region. rewrite decide_True by (unfold MAX_REGIONS; lia).
    destruct (IH (Some c2) (acc ++ [hi])) as (em' & acc' & E & L & H1 & H2 & H3 & H4 & H5); [done| | |].
    + rewrite app_length. cbn [length]. lia.
    + apply Forall_app. split; [done|]. constructor; [|done]. destruct (Hi Hhn) as [-> _]. unfold EARLY_CAPACITY. lia.
    + rewrite E. exists em', acc'. rewrite app_length in L. cbn [length] in L.
      split; [done|]. split; [lia|]. split; [done|]. split; [intros _; apply H2; eauto|].
      split; [intros g Hg Hgs; apply H2; eauto|]. split; [intros g Hg; apply H4, elem_of_app; by left|].
      intros g Hg. apply elem_of_cons in Hg as [->|Hg]; [|by apply H5].
      exists hi. split; [apply H4, elem_of_app; right; by left|]. lia.
  - unfold push_region. rewrite decide_True by (unfold MAX_REGIONS; lia).
    destruct (IH em (acc ++ [f])) as (em' & acc' & E & L & H1 & H2 & H3 & H4 & H5); [done| | |].
    + rewrite app_length. cbn [length]. lia.
    + apply Forall_app. split; [done|]. constructor; [|done]. change (f_base f) with (rg_start r). lia.
    + rewrite E. exists em', acc'. rewrite app_length in L. cbn [length] in L.
      split; [done|]. split; [lia|]. split; [done|]. split; [done|].
      split.
      { intros g Hg Hgs. apply elem_of_cons in Hg as [->|Hg]; [|by eapply H3].
        apply H2. apply andb_false_iff in Hd as [Hd|Hd].
        - by apply bool_decide_eq_false in Hd.
        - by apply negb_false_iff, bool_decide_eq_true in Hd. }
      split; [intros g Hg; apply H4, elem_of_app; by left|].
      intros g Hg. apply elem_of_cons in Hg as [->|Hg]; [|by apply H5].
      exists f. split; [apply H4, elem_of_app; right; by left|]. lia.
Qed.

Lemma zero_aff_max l : Forall (fun f => f_aff f = 0) l -> max_aff l = 0 /\ sorted_aff l = true.
Proof.
  induction 1 as [|f l Hf Hl [IH1 IH2]]; [done|].
  split; [change (N.max (f_aff f) (max_aff l) = 0); lia|].
  destruct l as [|g l]; [done|]. inversion Hl as [|? ? Hg ?]; subst.
  change (bool_decide (f_aff f <= f_aff g) && sorted_aff (g :: l) = true).
  rewrite IH2, bool_decide_eq_true_2; [done|lia].
Qed.

Lemma boot_ok_no_topology dbg rs :
  Forall (fun r => rg_conv r = true -> rg_start r mod 4096 = 0) rs ->
  (length (usable rs) <= 64)%nat ->
  (exists f, f ∈ usable rs /\ 38010880 < f_size f) ->
  exists early gm mem, boot dbg rs [] = Ok (early, gm) /\ process_uefi dbg rs = Ok (early, mem) /\
    gm_new dbg mem = Ok gm /\ (length mem <= length (usable rs))%nat.
Proof.
  intros Hr Hl (f & Hf & Hbig). unfold boot.
  destruct (uefi_loop_ok dbg rs None [] Hr) as (em & mem & E & L & H1 & _ & H3 & _ & H5); [done|constructor|].
  destruct (H3 f Hf) as [early ->]; [unfold EARLY_CAPACITY; lia|].
  assert (Ep : process_uefi dbg rs = Ok (early, mem)) by (unfold process_uefi; by rewrite E).
  rewrite Ep. cbn [identify_numa].
  destruct (process_uefi_spec _ _ _ _ Ep) as (Hal & H0 & _).
  destruct (zero_aff_max _ H0) as [Hm Hs].
  destruct (H5 f Hf) as (g & Hg & Hgs). unfold EARLY_CAPACITY in Hgs.
  destruct (gm_new_ok dbg mem) as [gm Eg]; [|done|done|lia| |done|].
  - intros ->. by apply elem_of_nil in Hg.
  - intros i Hi. exists g. split; [done|]. rewrite stdpp.list.Forall_forall in H0. rewrite (H0 g Hg).
    unfold EMEM_SIZE, LARGE_PAGE, BASE_PAGE. lia.
  - rewrite Eg. exists early, gm, mem. split; [done|]. split; [done|]. split; [done|]. cbn [length] in L. lia.
Qed.

Lemma uefi_loop_len dbg rs : forall em acc em' acc', uefi_loop dbg rs em acc = Ok (em', acc') ->
  (length acc' <= length acc + length (usable rs))%nat.
Proof.
  induction rs as [|r rs IH]; intros em acc em' acc' E; cbn [uefi_loop] in E.
  { simplify_eq. lia. }
  rewrite usable_aligned_cons, app_length.
  destruct (rg_conv r); [|apply IH in E; cbn [length]; lia].
  destruct (frame_new (rg_start r) (rg_pages r * BASE_PAGE) 0) as [f| |]; try done.
  change ONE_MIB with 1048576 in E. case_decide; [|apply IH in E; cbn [length]; lia].
  cbn [length]. destruct (bool_decide _ && _).
  - destruct (split_at f EARLY_CAPACITY) as [[lo hi]| |]; try done.
    destruct (mc_with_frame dbg EBP ELP 0 lo) as [c| |]; try done. case_decide; [apply IH in E; lia|].
    destruct (push_region acc hi) as [acc2| |] eqn:Ep; try done. apply push_region_ok in Ep as ->.
    apply IH in E. rewrite app_length in E. cbn [length] in E. lia.
  - destruct (push_region acc f) as [acc2| |] eqn:Ep; try done. apply push_region_ok in Ep as ->.
    apply IH in E. rewrite app_length in E. cbn [length] in E. lia.
Qed.

(** A single aligned frame: 195 pages of the early memory are dropped. *)
Lemma gm_new_loses dbg f gm : gm_new dbg [f] = Ok gm -> aligned f -> f_base f mod 2097152 = 0 -> f_aff f = 0 ->
  4456448 < f_size f -> total_size (node_frames gm) + 195 * 4096 <= f_size f.
Proof.
  intros E Hf Hb Ha Hs. unfold gm_new in E. cbn [sorted_aff negb] in E.
  assert (max_aff [f] = 0) as Hm by (change (N.max (f_aff f) 0 = 0); lia). rewrite Hm in E.
  assert (Hal : Forall aligned [f]) by (by constructor).
  destruct (emem_loop dbg [f] 0) as [[[rest lo] em]|e|] eqn:Ee; [|done|done].
  case_decide as Hlen; [|done].
  destruct (ncache_loop em) as [[em' self]|e|] eqn:En; [|done|done].
  destruct (fill_caches_spec (N.to_nat (0 + 1)) 0 (rest ++ lo)) as (cs & Ec & F1 & F2 & F3 & F4 & F5 & F6).
  { by destruct (emem_loop_spec _ _ _ _ _ _ Ee Hal) as (ems & K1 & _). }
  rewrite Ec in E. injection E as <-.
  cbn [emem_loop] in Ee. rewrite decide_True in Ee by (split; [done|unfold EMEM_SIZE, LARGE_PAGE, BASE_PAGE; lia]).
  unfold split_at_large in Ee. rewrite (decide_True _ _ Hb) in Ee.
  destruct (split_at_spec f EMEM_SIZE Hf) as (e & left & E1 & He & Hleft & Hc & B & S1 & S2 & A & _); [done|].
  rewrite E1 in Ee. destruct (mc_with_frame dbg SBP SLP 0 e) as [c| |] eqn:Em; [|done|done].
  rewrite decide_False in Ee by (unfold MAX_NODES; lia). injection Ee as <- <- <-.
  assert (Hes : f_size e = 4456448) by (unfold EMEM_SIZE, LARGE_PAGE, BASE_PAGE in S1; lia).
  destruct (emem_count _ _ _ _ Em He) as [Hlg _].
  { by rewrite B. }
  { unfold base_pages. rewrite Hes. done. }
  destruct (mc_with_frame_spec dbg SBP SLP 0 e) as (c2 & Em2 & Hok & Hfit & _); [right; left; unfold SBP; lia|done|].
  rewrite Em in Em2. injection Em2 as <-.
  destruct (ncache_loop_spec _ _ _ En) as (_ & _ & _ & _ & M5 & _); [by constructor|by constructor|].
  assert (Hcs : total_size (cframes cs) <= f_size left).
  { transitivity (total_size [left]); [|rewrite total_size_cons; change (total_size []) with 0; lia].
    apply total_size_le. intros a. rewrite <- (covP_all (cframes cs)). specialize (F5 (fun _ => true) a).
    etransitivity; [exact F5|].
    assert (Hx : forall l, (covP (fun m => true && bool_decide (0 <= m)%N) l a <= cov l a)%nat).
    { intros l. rewrite <- covP_all. apply Nat.eq_le_incl, covP_ext. intros m. rewrite bool_decide_eq_true_2 by lia. done. }
    etransitivity; [apply Hx|]. rewrite cov_app, cov_empty_frame. case_decide; [apply Nat.le_0_l|]. done. }
  assert (Hsf : total_size (frames c) = total_size (cframes em' ++ self)).
  { apply total_size_eq. intros a. rewrite <- !covP_all, covP_app, M5. by rewrite cframes_cons, app_nil_r. }
  rewrite total_size_app in Hsf.
  unfold node_frames. cbn [gm_emem gm_caches gm_self].
  change (concat (map frames em')) with (cframes em'). change (concat (map frames cs)) with (cframes cs).
  rewrite !total_size_app. rewrite total_frames, Hlg in Hsf. destruct Hfit as [Hfb _]. cbn [length] in Hsf.
  unfold SBP in Hfb. lia.
Qed.
