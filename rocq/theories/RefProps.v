(** C81: refilling a core's cache of shared memory gives it the pages it needs and
    neither invents nor duplicates pages. *)
From Coq Require Import Sorting.Permutation.
From Verif Require Import Base RefModel RefSpec RefProofs.

(** A refill for which the machine is asked for memory: a client refills memory
    of its own machine, the controller that of a client.  [frames] are the large
    pages that were given, none if the caches were enough.
    Missing: the other machines' memory on a client, the controller's own memory
    beyond its cache of base pages, requests for nothing. *)
Theorem C81_refill_partial src controller me mid st nb nl :
  (controller = false ∧ mid = me ∨ controller = true ∧ mid ≠ me ∧ mid ≠ 0%N) →
  aff st = Shared mid →
  0 < nb + nl → nb ≤ 512 →
  length (base (core st)) + nb ≤ base_cap (core st) →
  length (large (core st)) + nl ≤ large_cap (core st) →
  length (base (sh st)) ≤ base_cap (sh st) →
  (∀ n, ∃ frames, src mid n = Some frames ∧ length frames = n) →
  ∃ st' frames lost,
    refill src controller me mid st nb nl = (ROk, st') ∧
    (frames = [] ∨ src mid (length frames) = Some frames) ∧
    Permutation (held st' ++ lost) (held st ++ flat_map split frames) ∧
    (lost ≠ [] → length (base (core st')) = base_cap (core st) ∧
                 length (base (sh st')) = base_cap (sh st)) ∧
    length (base (core st)) + nb ≤ length (base (core st')) ∧
    length (large (core st')) = length (large (core st)) + nl ∧
    length frames ≤ S nl ∧ (nb ≤ length (base (sh st)) → length frames = nl) ∧
    aff st' = Shared mid.
Proof.
  intros Hw Haff Hpos H512 Hb Hl Hs Hsrc.
  assert (Hask : ∀ n, 0 < n → ∃ frames, ask src controller me mid n = Some (Some (mid, frames)) ∧
                                src mid n = Some frames ∧ length frames = n).
  { intros n Hn. destruct (Hsrc n) as (f & E & L). exists f. unfold ask.
    destruct Hw as [[-> ->]|(-> & Ne & Nz)].
    - replace (n =? 0) with false by (symmetry; apply Nat.eqb_neq; lia). rewrite E. auto.
    - apply N.eqb_neq in Nz. rewrite Nz, E. auto. }
  assert (Hloc : controller && (mid =? me)%N = false).
  { destruct Hw as [[-> _]|(-> & Ne & _)]; [reflexivity|]. apply N.eqb_neq. exact Ne. }
  unfold refill. rewrite Hloc, orb_false_r.
  destruct (0 <? nb) eqn:Z.
  - apply Nat.ltb_lt in Z. set (k := Nat.min (length (base (sh st))) nb).
    assert (Kd : k = Nat.min (length (base (sh st))) nb) by reflexivity. clearbody k.
    destruct (move_base_spec k (core st) (sh st)) as (c1 & s1 & E & P & A1 & A2 & A3 & A4 & A5 & A6 & A7 & A8);
      [lia|lia|].
    rewrite E.
    assert (H1 : Permutation (held (mkState c1 s1 (aff st))) (held st)).
    { unfold held. cbn [core sh]. rewrite A3, A4.
      rewrite (Permutation_count_occ N.eq_dec) in P |- *. intros z. specialize (P z).
      rewrite !count_occ_app in *. lia. }
    destruct ((nb - k =? 0) && ((if 0 <? nb - k then S nl else nl) =? 0)) eqn:D.
    + apply andb_true_iff in D as [D1 D2]. apply Nat.eqb_eq in D1.
      rewrite D1 in D2. cbn [Nat.ltb Nat.leb] in D2. apply Nat.eqb_eq in D2. subst nl.
      exists (mkState c1 s1 (aff st)), [], []. split; [reflexivity|]. split; [left; reflexivity|].
      cbn [core sh aff flat_map length]. rewrite !app_nil_r. split; [exact H1|].
      split; [intros X; contradiction|]. rewrite A3. split; [lia|]. split; [lia|]. split; [lia|].
      split; [lia|exact Haff].
    + assert (Hn : 0 < (if 0 <? nb - k then S nl else nl)).
      { destruct (0 <? nb - k) eqn:W; [lia|]. apply Nat.ltb_ge in W.
        replace (nb - k =? 0) with true in D by (symmetry; apply Nat.eqb_eq; lia).
        cbn [andb] in D. apply Nat.eqb_neq in D. lia. }
      destruct (Hask _ Hn) as (frames & Ea & Es & El).
      destruct (from_source_spec src controller me mid (mkState c1 s1 (aff st)) (nb - k) nl _ frames Ea
                  eq_refl El) as (c2 & s2 & lost & E2 & P2 & B1 & B2 & B3);
        cbn [core sh aff] in *; [rewrite A3, A7; lia|lia|lia|lia|].
      exists (mkState c2 s2 (Shared mid)), frames, lost. cbn [core sh aff].
      split; [exact E2|]. split; [right; rewrite El; exact Es|].
      split; [rewrite P2, H1; reflexivity|]. rewrite A5, A6 in B3. split; [exact B3|].
      split; [lia|]. rewrite A3 in B1. split; [exact B1|].
      split; [rewrite El; destruct (0 <? nb - k); lia|].
      split; [|reflexivity]. intros X. rewrite El.
      replace (0 <? nb - k) with false by (symmetry; apply Nat.ltb_ge; lia). reflexivity.
  - apply Nat.ltb_ge in Z. assert (nb = 0) by lia. subst nb.
    destruct (Hask nl ltac:(lia)) as (frames & Ea & Es & El).
    destruct (from_source_spec src controller me mid st 0 nl nl frames Ea eq_refl El)
      as (c2 & s2 & lost & E2 & P2 & B1 & B2 & B3); [lia|lia|lia|lia|].
    exists (mkState c2 s2 (Shared mid)), frames, lost. cbn [core sh aff].
    split; [exact E2|]. split; [right; rewrite El; exact Es|].
    split; [exact P2|]. split; [exact B3|]. split; [lia|]. split; [exact B1|].
    split; [lia|]. split; [intros _; exact El|reflexivity].
Qed.
Print Assumptions C81_refill_partial.

(** No page is held twice after such a refill if none was before and the pages
    given are new. *)
Theorem C81_distinct_partial src controller me mid st nb nl :
  (controller = false ∧ mid = me ∨ controller = true ∧ mid ≠ me ∧ mid ≠ 0%N) →
  aff st = Shared mid →
  0 < nb + nl → nb ≤ 512 →
  length (base (core st)) + nb ≤ base_cap (core st) →
  length (large (core st)) + nl ≤ large_cap (core st) →
  length (base (sh st)) ≤ base_cap (sh st) →
  (∀ n, ∃ frames, src mid n = Some frames ∧ length frames = n ∧
                  NoDup (held st ++ flat_map split frames)) →
  NoDup (held (refill src controller me mid st nb nl).2).
Proof.
  intros H1 H2 H3 H4 H5 H6 H7 H8.
  destruct (C81_refill_partial src controller me mid st nb nl H1 H2 H3 H4 H5 H6 H7)
    as (st' & frames & lost & E & F & P & _).
  { intros n. destruct (H8 n) as (f & A & B & _). exists f. split; assumption. }
  rewrite E. cbn [snd].
  assert (N : NoDup (held st ++ flat_map split frames)).
  { destruct F as [->|F].
    - destruct (H8 0) as (f & _ & B & N). destruct f; [exact N|discriminate].
    - destruct (H8 (length frames)) as (f & A & _ & N). rewrite F in A. injection A as ->. exact N. }
  rewrite <- P in N. apply NoDup_app in N. apply N.
Qed.
Print Assumptions C81_distinct_partial.

(** The controller's own memory, when its cache has the pages. *)
Theorem C81_local_partial src me st nb nl :
  nb ≤ length (base (sh st)) → nl ≤ length (large (sh st)) →
  length (base (core st)) + nb ≤ base_cap (core st) →
  length (large (core st)) + nl ≤ large_cap (core st) →
  ∃ st',
    refill src true me me st nb nl = (ROk, st') ∧
    Permutation (held st') (held st) ∧
    length (base (core st')) = length (base (core st)) + nb ∧
    length (large (core st')) = length (large (core st)) + nl ∧
    aff st' = aff st.
Proof.
  intros H1 H2 H3 H4. unfold refill. rewrite N.eqb_refl. cbn [andb]. rewrite orb_true_r.
  replace (Nat.min (length (base (sh st))) nb) with nb by lia.
  destruct (move_base_spec nb (core st) (sh st) H1 H3) as (c1 & s1 & E & P & A1 & A2 & A3 & A4 & A5 & A6 & A7 & A8).
  rewrite E, Nat.sub_diag. cbn [Nat.ltb Nat.leb Nat.eqb].
  destruct (move_large_spec nl c1 s1) as (c2 & s2 & E2 & P2 & B1 & B2 & B3).
  { rewrite A4. exact H2. }
  { rewrite A3, A7. exact H4. }
  rewrite E2. exists (mkState c2 s2 (aff st)). cbn [core sh aff]. split; [reflexivity|].
  split.
  { unfold held. cbn [core sh]. rewrite B2, B3.
    pose proof (flat_map_perm _ _ P2) as P3. rewrite !flat_map_app, A3, A4 in P3.
    rewrite (Permutation_count_occ N.eq_dec) in P, P3 |- *. intros z. specialize (P z). specialize (P3 z).
    rewrite !count_occ_app in *. lia. }
  rewrite B2, B1, A3. split; [exact A1|]. split; reflexivity.
Qed.
Print Assumptions C81_local_partial.

(** When the machine gives nothing, no page is lost.
    Missing: the core should go on taking memory from where it did before. *)
Theorem C81_refused_partial src controller me mid st nb nl :
  (controller = false ∧ mid = me ∨ controller = true ∧ mid ≠ me ∧ mid ≠ 0%N) →
  length (base (sh st)) < nb →
  length (base (core st)) + nb ≤ base_cap (core st) →
  (∀ n, src mid n = None) →
  ∃ st', refill src controller me mid st nb nl = (RErr, st') ∧ Permutation (held st') (held st).
Proof.
  intros Hw Hnb Hb Hsrc.
  assert (Hloc : controller && (mid =? me)%N = false).
  { destruct Hw as [[-> _]|(-> & Ne & _)]; [reflexivity|]. apply N.eqb_neq. exact Ne. }
  unfold refill. rewrite Hloc, orb_false_r.
  replace (0 <? nb) with true by (symmetry; apply Nat.ltb_lt; lia).
  replace (Nat.min (length (base (sh st))) nb) with (length (base (sh st))) by lia.
  destruct (move_base_spec (length (base (sh st))) (core st) (sh st)) as (c1 & s1 & E & P & A1 & A2 & A3 & A4 & _);
    [lia|lia|].
  rewrite E. replace (nb - length (base (sh st)) =? 0) with false by (symmetry; apply Nat.eqb_neq; lia).
  cbn [andb]. replace (0 <? nb - length (base (sh st))) with true by (symmetry; apply Nat.ltb_lt; lia).
  unfold from_source, ask. cbn [Nat.eqb].
  exists (mkState c1 s1 Node). split.
  { destruct Hw as [[-> ->]|(-> & Ne & Nz)].
    - rewrite Hsrc. reflexivity.
    - apply N.eqb_neq in Nz. rewrite Nz, Hsrc. reflexivity. }
  unfold held. cbn [core sh]. rewrite A3, A4.
  rewrite (Permutation_count_occ N.eq_dec) in P |- *. intros z. specialize (P z).
  rewrite !count_occ_app in *. lia.
Qed.
Print Assumptions C81_refused_partial.

(** ** What the full property fails on *)

Definition small (b l : list N) : cache := mkCache b l 381 128.
Definition giving : source := λ mid n, Some (map (λ i, (mid * 1000000 + N.of_nat i * 512)%N) (seq 0 n)).

(** After a refusal the core takes memory from its node instead. *)
Theorem C81_affinity_refuted :
  ¬ (∀ src st nb nl, aff st = Shared 1 →
       aff (refill src false 1 1 st nb nl).2 = Shared 1).
Proof.
  intros F. specialize (F (λ _ _, None) (mkState (small [] []) (small [] []) (Shared 1)) 1 0 eq_refl).
  vm_compute in F. discriminate.
Qed.
Print Assumptions C81_affinity_refuted.

(** The controller stops when its cache of base pages is too small, although it
    has large pages. *)
Theorem C81_controller_refuted :
  ∃ st, (refill giving true 0 0 st 1 0).1 = RPanic ∧
        aff st = Shared 0 ∧ base (core st) = [] ∧ large (sh st) = [512; 1024; 1536]%N.
Proof.
  exists (mkState (small [] []) (small [] [512; 1024; 1536]%N) (Shared 0)). vm_compute. repeat split.
Qed.
Print Assumptions C81_controller_refuted.

(** A client that refills memory of machine 2 gets memory of its own machine 1. *)
Theorem C81_machine_refuted :
  ∃ (st : state) (p : N) (n : nat) (frames : list N),
    (refill giving false 1 2 (mkState (small [] []) (small [] []) (Shared 2)) 1 0) = (ROk, st) ∧
    p ∈ base (core st) ∧ giving 1%N n = Some frames ∧ p ∈ flat_map split frames.
Proof.
  destruct (refill giving false 1 2 (mkState (small [] []) (small [] []) (Shared 2)) 1 0) as [r st] eqn:E.
  assert (C : r = ROk ∧ nth_error (base (core st)) 0 = Some 1000380%N).
  { assert (D : match refill giving false 1 2 (mkState (small [] []) (small [] []) (Shared 2)) 1 0 with
                | (r, st) => r = ROk ∧ nth_error (base (core st)) 0 = Some 1000380%N end)
      by (vm_compute; split; reflexivity).
    rewrite E in D. exact D. }
  destruct C as [-> C]. exists st, 1000380%N, 1, [1000000%N]. split; [reflexivity|]. split.
  { apply elem_of_list_In. eapply nth_error_In. exact C. }
  split; [reflexivity|]. apply (bool_decide_unpack _). vm_compute. exact Logic.I.
Qed.
Print Assumptions C81_machine_refuted.

(** ... and stops if it needs large pages. *)
Theorem C81_machine_panic_refuted :
  (refill giving false 1 2 (mkState (small [] []) (small [] []) (Shared 2)) 0 1).1 = RPanic.
Proof. vm_compute. reflexivity. Qed.
Print Assumptions C81_machine_panic_refuted.

(** A client whose cache is full, so that nothing can be added, stops. *)
Theorem C81_nothing_refuted src me mid st :
  (refill src false me mid st 0 0).1 = RPanic.
Proof. reflexivity. Qed.
Print Assumptions C81_nothing_refuted.

(** ** Concrete cases *)

(** A client needs five base pages, of which two are cached, and a large page: it
    gets two large pages and splits one. *)
Example C81_hyps_met :
  ∃ st, refill giving false 1 1 (mkState (small [7]%N [512]%N) (small [3; 4]%N []) (Shared 1)) 5 1 = (ROk, st) ∧
        large (core st) = [1000000; 512]%N ∧ length (base (core st)) = 381 ∧ length (base (sh st)) = 134.
Proof.
  eexists. split; [vm_compute; reflexivity|]. vm_compute. repeat split.
Qed.

Example C81_local_hyps_met :
  refill giving true 0 0 (mkState (small [7]%N []) (small [3; 4]%N [512; 1024]%N) (Shared 0)) 1 2 =
  (ROk, mkState (small [3; 7]%N [1024; 512]%N) (small [4]%N []) (Shared 0)).
Proof. vm_compute. reflexivity. Qed.
