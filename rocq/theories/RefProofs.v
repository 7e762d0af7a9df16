(** Proofs about refilling a cache of shared memory. *)
From Coq Require Import Sorting.Permutation.
From Verif Require Import Base RefModel RefSpec.

Lemma split_length l : length (split l) = 512.
Proof. unfold split. rewrite map_length, seq_length. reflexivity. Qed.

Lemma move_base_spec k core sh :
  k ≤ length (base sh) → length (base core) + k ≤ base_cap core →
  ∃ core' sh', move_base k core sh = Some (core', sh') ∧
    Permutation (base core' ++ base sh') (base core ++ base sh) ∧
    length (base core') = length (base core) + k ∧
    length (base sh') = length (base sh) - k ∧
    large core' = large core ∧ large sh' = large sh ∧
    base_cap core' = base_cap core ∧ base_cap sh' = base_cap sh ∧
    large_cap core' = large_cap core ∧ large_cap sh' = large_cap sh.
Proof.
  revert core sh. induction k as [|k IH]; intros core sh Hk Hc.
  - exists core, sh. cbn [move_base]. repeat (split; [solve [reflexivity|lia]|]). reflexivity.
  - destruct sh as [[|p r] l bc lc]; cbn [base length] in Hk; [lia|].
    cbn [move_base]. unfold pop_base. cbn [base large base_cap large_cap]. unfold grow_base.
    replace (length (base core) <? base_cap core) with true by (symmetry; apply Nat.ltb_lt; lia).
    destruct (IH (mkCache (p :: base core) (large core) (base_cap core) (large_cap core))
                 (mkCache r l bc lc)) as (c' & s' & E & P & A1 & A2 & A3).
    { cbn; lia. }
    { cbn; lia. }
    cbn [base large base_cap large_cap length] in *.
    exists c', s'. split; [exact E|]. split.
    { rewrite P. cbn [app]. apply Permutation_middle. }
    split; [lia|]. split; [lia|]. exact A3.
Qed.

Lemma move_large_spec k core sh :
  k ≤ length (large sh) → length (large core) + k ≤ large_cap core →
  ∃ core' sh', move_large k core sh = Some (core', sh') ∧
    Permutation (large core' ++ large sh') (large core ++ large sh) ∧
    length (large core') = length (large core) + k ∧
    base core' = base core ∧ base sh' = base sh.
Proof.
  revert core sh. induction k as [|k IH]; intros core sh Hk Hc.
  - exists core, sh. cbn [move_large]. repeat (split; [solve [reflexivity|lia]|]). reflexivity.
  - destruct sh as [b [|p r] bc lc]; cbn [large length] in Hk; [lia|].
    cbn [move_large]. unfold pop_large. cbn [base large base_cap large_cap]. unfold grow_large.
    replace (length (large core) <? large_cap core) with true by (symmetry; apply Nat.ltb_lt; lia).
    destruct (IH (mkCache (base core) (p :: large core) (base_cap core) (large_cap core))
                 (mkCache b r bc lc)) as (c' & s' & E & P & A1 & A3).
    { cbn; lia. }
    { cbn; lia. }
    cbn [base large base_cap large_cap length] in *.
    exists c', s'. split; [exact E|]. split.
    { rewrite P. cbn [app]. apply Permutation_middle. }
    split; [lia|]. exact A3.
Qed.

Lemma grow_at_spec k : ∀ i frames core,
  i + k ≤ length frames → length (large core) + k ≤ large_cap core →
  ∃ core', grow_at k i frames core = Some core' ∧
    Permutation (large core') (firstn k (skipn i frames) ++ large core) ∧
    base core' = base core ∧ base_cap core' = base_cap core.
Proof.
  induction k as [|k IH]; intros i frames core Hi Hc.
  - exists core. cbn [grow_at firstn app]. repeat (split; [reflexivity|]). reflexivity.
  - cbn [grow_at]. destruct (nth_error frames i) as [l|] eqn:E.
    2:{ apply nth_error_None in E. lia. }
    unfold grow_large.
    replace (length (large core) <? large_cap core) with true by (symmetry; apply Nat.ltb_lt; lia).
    destruct (IH (S i) frames (mkCache (base core) (l :: large core) (base_cap core) (large_cap core)))
      as (c' & E' & P & B); [lia|cbn; lia|].
    cbn [base large base_cap large_cap length] in *.
    exists c'. split; [exact E'|]. split; [|exact B].
    rewrite P.
    assert (S1 : skipn i frames = l :: skipn (S i) frames).
    { clear -E. revert frames E. induction i as [|i IHi]; intros [|x f] E; cbn in *; try discriminate.
      - injection E as ->. reflexivity.
      - apply IHi. exact E. }
    rewrite S1. cbn [firstn app]. symmetry. apply Permutation_middle.
Qed.

Lemma grow_bases_spec ps : ∀ c,
  length (base c) + length ps ≤ base_cap c →
  ∃ c', grow_bases ps c = Some c' ∧ Permutation (base c') (ps ++ base c) ∧
    large c' = large c ∧ base_cap c' = base_cap c.
Proof.
  induction ps as [|p ps IH]; intros c Hc.
  - exists c. repeat (split; [reflexivity|]). reflexivity.
  - cbn [grow_bases length] in *. unfold grow_base.
    replace (length (base c) <? base_cap c) with true by (symmetry; apply Nat.ltb_lt; lia).
    destruct (IH (mkCache (p :: base c) (large c) (base_cap c) (large_cap c))) as (c' & E & P & A);
      [cbn; lia|].
    cbn [base large base_cap large_cap length] in *.
    exists c'. split; [exact E|]. split; [|exact A].
    rewrite P. cbn [app]. symmetry. apply Permutation_middle.
Qed.

(** The last frame: what is lost is lost since both caches are full. *)
Lemma add_bases_spec st l :
  length (base (core st)) ≤ base_cap (core st) → length (base (sh st)) ≤ base_cap (sh st) →
  ∃ core' sh' lost,
    add_bases st l = (ROk, mkState core' sh' (aff st)) ∧
    Permutation (base core' ++ base sh' ++ lost) (split l ++ base (core st) ++ base (sh st)) ∧
    large core' = large (core st) ∧ large sh' = large (sh st) ∧
    length (base core') = length (base (core st)) + Nat.min 512 (spare_base (core st)) ∧
    (lost ≠ [] → length (base core') = base_cap (core st) ∧ length (base sh') = base_cap (sh st)).
Proof.
  intros Hc Hs. unfold add_bases. rewrite split_length.
  pose proof (split_length l) as SL. set (ps := split l) in *. clearbody ps.
  set (k := Nat.min 512 (spare_base (core st))).
  assert (Kd : k = Nat.min 512 (base_cap (core st) - length (base (core st)))) by reflexivity.
  clearbody k. unfold spare_base.
  assert (L1 : length (firstn k ps) = k) by (rewrite firstn_length; lia).
  destruct (grow_bases_spec (firstn k ps) (core st)) as (c' & E & P & A1 & A2); [lia|].
  rewrite E.
  assert (L2 : length (skipn k ps) = 512 - k) by (rewrite skipn_length; lia).
  rewrite L2. set (rest := skipn k ps) in *.
  set (m := Nat.min (512 - k) (base_cap (sh st) - length (base (sh st)))).
  assert (Md : m = Nat.min (512 - k) (base_cap (sh st) - length (base (sh st)))) by reflexivity.
  clearbody m.
  assert (L3 : length (firstn m rest) = m) by (rewrite firstn_length; lia).
  destruct (grow_bases_spec (firstn m rest) (sh st)) as (s' & E' & P' & B1 & B2); [lia|].
  rewrite E'. exists c', s', (skipn m rest). split; [reflexivity|].
  pose proof (Permutation_length P) as Q. rewrite app_length, L1 in Q.
  pose proof (Permutation_length P') as Q'. rewrite app_length, L3 in Q'.
  split.
  { rewrite P, P'. rewrite <- (firstn_skipn k ps) at 2. fold rest.
    rewrite <- (firstn_skipn m rest) at 3. rewrite <- !app_assoc.
    apply Permutation_app_head.
    rewrite (Permutation_app_comm (skipn m rest) (base (core st) ++ base (sh st))).
    rewrite <- !app_assoc.
    rewrite !app_assoc. do 2 apply Permutation_app_tail. apply Permutation_app_comm. }
  split; [exact A1|]. split; [exact B1|]. split; [lia|].
  intros Hl. destruct (Nat.eq_dec (length (skipn m rest)) 0) as [Z|Z].
  { exfalso. apply Hl. apply length_zero_iff_nil. exact Z. }
  rewrite skipn_length in Z. lia.
Qed.

Lemma flat_map_perm (l l' : list N) : Permutation l l' → Permutation (flat_map split l) (flat_map split l').
Proof. intros P. apply Permutation_flat_map. exact P. Qed.


Lemma from_source_spec src controller me mid st nb' nl nl' frames :
  ask src controller me mid nl' = Some (Some (mid, frames)) →
  nl' = (if 0 <? nb' then S nl else nl) → length frames = nl' →
  length (large (core st)) + nl ≤ large_cap (core st) →
  length (base (core st)) + nb' ≤ base_cap (core st) → length (base (sh st)) ≤ base_cap (sh st) →
  nb' ≤ 512 →
  ∃ core' sh' lost,
    from_source src controller me mid st nb' nl nl' = (ROk, mkState core' sh' (Shared mid)) ∧
    Permutation (held (mkState core' sh' (Shared mid)) ++ lost) (held st ++ flat_map split frames) ∧
    length (large core') = length (large (core st)) + nl ∧
    length (base (core st)) + nb' ≤ length (base core') ∧
    (lost ≠ [] → length (base core') = base_cap (core st) ∧ length (base sh') = base_cap (sh st)).
Proof.
  intros Ha Hn Hf Hl Hb Hs H512. unfold from_source. rewrite Ha, N.eqb_refl. cbn [negb].
  rewrite andb_false_r.
  destruct (grow_at_spec nl 0 frames (core st)) as (c1 & E & P & B1 & B2).
  { destruct (0 <? nb'); lia. }
  { exact Hl. }
  change (drop 0 frames) with frames in P. rewrite E.
  pose proof (Permutation_length P) as Q. rewrite app_length, firstn_length in Q.
  destruct (0 <? nb') eqn:Z.
  - apply Nat.ltb_lt in Z. replace (nl' - 1) with nl by lia.
    destruct (nth_error frames nl) as [l|] eqn:N1.
    2:{ apply nth_error_None in N1. lia. }
    assert (F : frames = firstn nl frames ++ [l]).
    { rewrite <- (firstn_skipn nl frames) at 1. f_equal.
      assert (S1 : ∀ (i : nat) (f : list N), nth_error f i = Some l → length f = S i → skipn i f = [l]).
      { clear. induction i as [|i IHi]; intros [|x f] N1 L; cbn in *; try discriminate.
        - injection N1 as ->. destruct f; [reflexivity|discriminate].
        - apply IHi; [exact N1|lia]. }
      apply S1; [exact N1|lia]. }
    destruct (add_bases_spec (mkState c1 (sh st) (Shared mid)) l) as (c2 & s2 & lost & E2 & P2 & A1 & A2 & A3 & A4).
    { cbn [core]. rewrite B1, B2. lia. }
    { exact Hs. }
    cbn [core sh aff] in *. exists c2, s2, lost. split; [exact E2|].
    split.
    { unfold held. cbn [core sh]. rewrite A1, A2. rewrite (flat_map_perm _ _ P).
      assert (FF : flat_map split frames = flat_map split (firstn nl frames) ++ split l).
      { rewrite F at 1. rewrite flat_map_app. cbn [flat_map]. rewrite app_nil_r. reflexivity. }
      rewrite FF, flat_map_app. rewrite B1 in P2.
      set (X := flat_map split (firstn nl frames)) in *. set (Y := split l) in *.
      clear FF. clearbody X Y.
      rewrite (Permutation_count_occ N.eq_dec) in P2 |- *. intros z. specialize (P2 z).
      rewrite !count_occ_app in *. lia. }
    rewrite A1. unfold spare_base in A3. rewrite B1, B2 in A3. split; [lia|]. split; [lia|].
    intros L. specialize (A4 L). rewrite B2 in A4. exact A4.
  - exists c1, (sh st), []. split; [reflexivity|]. split.
    { unfold held. cbn [core sh]. rewrite (flat_map_perm _ _ P), B1.
      rewrite (firstn_all2 frames) by lia. rewrite flat_map_app.
      rewrite (Permutation_count_occ N.eq_dec). intros z. rewrite !count_occ_app. cbn [count_occ]. lia. }
    apply Nat.ltb_ge in Z. split; [lia|]. rewrite B1. split; [lia|]. intros L. contradiction.
Qed.
