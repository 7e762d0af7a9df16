(** C17-C22: what mapping, unmapping and adjusting do to an address space. *)
From Verif Require Import Base VsModel VsSpec VsProofs.

Lemma reach_inv lg dbg s : reach lg dbg s → vinv lg s.
Proof.
  induction 1 as [|s b p sz a _ IH Hs Hb|s va _ IH Hv|s va a _ IH Hv].
  - apply vinv_init.
  - by apply map_frame_inv.
  - by apply unmap_inv.
  - by apply adjust_inv.
Qed.

Lemma resolve_none s va : vs_resolve s va = Err NotMapped ↔ walk (vs_pt s) va = None.
Proof. unfold vs_resolve, pt_resolve. by destruct (walk (vs_pt s) va) as [[l sz]|]. Qed.
Lemma resolve_leaf s va p b a sz : walk (vs_pt s) va = Some (mkLeaf p (entry_flags b a), sz) →
  vs_resolve s va = Ok ((p + va mod sz)%N, granted a).
Proof. unfold vs_resolve, pt_resolve. intros ->. cbn [l_pa l_fl]. by rewrite from_entry. Qed.
Lemma resolve_mapping lg s b mi va : vinv lg s → vs_map s !! b = Some mi → within b (mi_size mi) va →
  vs_resolve s va = Ok ((mi_pa mi + (va - b))%N, granted (mi_rights mi)).
Proof.
  intros I Hb [H1 H2]. destruct (vinv_cover _ _ _ _ _ I Hb H1 H2) as (Hva & W & E).
  rewrite (resolve_leaf _ _ _ _ _ _ W). do 2 f_equal.
  destruct (vi_rec _ _ I _ _ Hb) as (P & _). apply page_frame_pos in P.
  pose proof (N.mod_le va (mi_size mi) ltac:(lia)) as L.
  revert E L. generalize (va mod mi_size mi)%N. intros. lia.
Qed.

(** ** C17 *)

(** One page table, any size of frame, any previous contents: if map_generic returns, every
    address of the range translates to the frame with the requested rights, and no other
    address changes.  (2^48 bounds the addresses the hardware translates.) *)
Theorem C17_page_table_map lg t vb pb ps a t' n :
  pt_map lg t vb pb ps a = Ok (t', n) → (0 < ps)%N → (vb + ps <= 2 ^ 48)%N →
  (∀ x, within vb ps x → pt_resolve t' x = Ok ((pb + (x - vb))%N, granted a)) ∧
  (∀ x, (x < 2 ^ 48)%N → ¬ within vb ps x → pt_resolve t' x = pt_resolve t x).
Proof.
  intros H Hps Hb. apply map_generic_view in H as [H _]; [|done|done]. split.
  - intros x [H1 H2]. rewrite H by lia. by rewrite rng_true.
  - intros x Hx Hn. rewrite H by done. rewrite rng_false; [done|]. unfold within in Hn. lia.
Qed.
Print Assumptions C17_page_table_map.

(** A region of 5 MiB at a 1 MiB offset: 4 KiB pages, then 2 MiB pages, then 4 KiB pages. *)
Definition act_w := ma_write_.
Example C17_page_table_map_hyps_met :
  is_ok (pt_map true ∅ 0x100000 0x500000 0x500000 act_w) = true ∧
  (0 < 0x500000)%N ∧ (0x100000 + 0x500000 <= 2 ^ 48)%N.
Proof. split_and!; [by vm_compute|done|done]. Qed.

(** The bound on recursive calls in the model of map_generic is never the reason for a
    panic: any larger bound gives the same result. *)
Theorem C17_model_rounds_suffice lg t vb pb ps a f : (0 < ps)%N →
  (ps / BASE < N.of_nat f)%N → map_generic lg f t 0 vb pb ps a = pt_map lg t vb pb ps a.
Proof.
  intros Hps Hf. unfold pt_map. apply map_generic_fuel; [done| |done].
  generalize (ps / BASE)%N. clear. intros. lia.
Qed.
Print Assumptions C17_model_rounds_suffice.

Example C17_model_rounds_suffice_hyps_met : (0 < 8192)%N ∧ (8192 / BASE < N.of_nat 3)%N.
Proof. split; by vm_compute. Qed.

(** A frame of one page over unmapped addresses: the map succeeds, takes at most three new
    page tables, and does what C17 says. *)
Theorem C17_map_unmapped_range lg dbg s b p sz a :
  reach lg dbg s → page_sized lg sz → (b + sz <= 2 ^ 48)%N →
  (p mod sz = 0)%N → (b mod sz = 0)%N →
  (∀ x, within b sz x → vs_resolve s x = Err NotMapped) →
  ∃ s', vs_map_frame lg s b p sz a = (s', Ok tt) ∧
    (∀ x, within b sz x → vs_resolve s' x = Ok ((p + (x - b))%N, granted a)) ∧
    (∀ x, (x < 2 ^ 48)%N → ¬ within b sz x → vs_resolve s' x = vs_resolve s x) ∧
    ∃ t n, pt_map lg (vs_pt s) b p sz a = Ok (t, n) ∧ n <= 3.
Proof.
  intros R Hsz Hb Hp Hv Hu. apply reach_inv in R as I. pose proof (page_frame_pos _ _ Hsz) as Hpos.
  assert (∃ t n, pt_map lg (vs_pt s) b p sz a = Ok (t, n) ∧ n <= 3) as Hn.
  { destruct (map_page_ok lg (vs_pt s) 0 (N.to_nat (sz / BASE)) b p sz a) as (t & n & E & Hn & _); try done.
    - intros va H1 H2 _. by apply resolve_none, Hu.
    - by exists t, n. }
  destruct (map_frame_cases lg s b p sz a I Hsz Hb) as [[? _]|[(_ & ? & _)|(_ & _ & [Hc|Hc])]]; [done|done| |].
  - destruct Hc as (_ & _ & t & E & Hseg). eexists. split; [exact E|]. split_and!; [| |done].
    + intros x [H1 H2]. unfold vs_resolve. cbn [vs_pt].
      rewrite (seg_resolve _ _ _ _ _ _ _ _ x Hseg Hpos Hv) by lia. by rewrite rng_true.
    + intros x Hx Hnx. unfold vs_resolve. cbn [vs_pt].
      rewrite (seg_resolve _ _ _ _ _ _ _ _ x Hseg Hpos Hv) by done. rewrite rng_false; [done|].
      unfold within in Hnx. lia.
  - exfalso. destruct Hc as (k & mi & Hk & H1 & H2 & _).
    destruct (vi_rec _ _ I _ _ Hk) as (P & B & _). apply page_frame_pos in P.
    assert (∃ x, within b sz x ∧ within k (mi_size mi) x) as (x & Hx1 & Hx2).
    { exists (N.max b k). unfold within. lia. }
    pose proof (resolve_mapping _ _ _ _ _ I Hk Hx2) as E. by rewrite (Hu x Hx1) in E.
Qed.
Print Assumptions C17_map_unmapped_range.

(** A reachable, populated address space used by the examples: a 2 MiB page at 4 MiB, a 4 KiB
    page at 0x1000 and one at 0x3000. *)
Definition ex_vs : vspace :=
  fst (vs_map_frame true
    (fst (vs_map_frame true
      (fst (vs_map_frame true vs_init 0x400000 0xa00000 2097152 ma_write_))
      0x1000 0x5000 4096 ma_user))
    0x3000 0x7000 4096 ma_execute).
Lemma ex_vs_reach dbg : reach true dbg ex_vs.
Proof.
  repeat (apply reach_map; [|first [by left | by right]|done]). constructor.
Qed.
Example C17_map_unmapped_range_hyps_met :
  reach true false ex_vs ∧ page_sized true 4096 ∧
  vs_resolve ex_vs 0x2000 = Err NotMapped ∧ vs_resolve ex_vs 0x2fff = Err NotMapped ∧
  vs_resolve ex_vs 0x1004 = Ok (0x5004%N, ma_user) ∧
  is_ok (snd (vs_map_frame true ex_vs 0x2000 0x5000 4096 ma_user)) = true.
Proof. split_and!; [apply ex_vs_reach|by left|by vm_compute..]. Qed.

(** Every Ok of map on such an address space: either the above, or the identical mapping was
    already recorded at this base with at most this size, and nothing changes. *)
Theorem C17_map_ok lg dbg s b p sz a s' :
  reach lg dbg s → page_sized lg sz → (b + sz <= 2 ^ 48)%N →
  vs_map_frame lg s b p sz a = (s', Ok tt) →
  (∀ x, (x < 2 ^ 48)%N → ¬ within b sz x → vs_resolve s' x = vs_resolve s x) ∧
  ( (∀ x, within b sz x → vs_resolve s x = Err NotMapped ∧ vs_resolve s' x = Ok ((p + (x - b))%N, granted a))
  ∨ (s' = s ∧ ∃ sz0, page_sized lg sz0 ∧ (sz0 <= sz)%N ∧
       ∀ x, within b sz0 x → vs_resolve s x = Ok ((p + (x - b))%N, granted a)) ).
Proof.
  intros R Hsz Hb H. apply reach_inv in R as I. pose proof (page_frame_pos _ _ Hsz) as Hpos.
  destruct (map_frame_cases lg s b p sz a I Hsz Hb) as [[_ E]|[(_ & _ & E)|(Hp & Hv & [Hc|Hc])]];
    [by rewrite E in H|by rewrite E in H| |].
  - destruct Hc as (Hu & _ & t & E & Hseg). rewrite E in H. injection H as <-. split.
    + intros x Hx Hnx. unfold vs_resolve. cbn [vs_pt].
      rewrite (seg_resolve _ _ _ _ _ _ _ _ x Hseg Hpos Hv) by done. rewrite rng_false; [done|].
      unfold within in Hnx. lia.
    + left. intros x [H1 H2]. split; [apply resolve_none, Hu; lia|]. unfold vs_resolve. cbn [vs_pt].
      rewrite (seg_resolve _ _ _ _ _ _ _ _ x Hseg Hpos Hv) by lia. by rewrite rng_true.
  - destruct Hc as (k & mi & Hk & H1 & H2 & [(-> & <- & Hle & <- & E)|[_ E]]); rewrite E in H; [|done].
    injection H as <-. split; [done|]. right. split; [done|]. exists (mi_size mi).
    destruct (vi_rec _ _ I _ _ Hk) as (P & B & _). split; [done|]. split; [done|].
    intros x Hx. by eapply resolve_mapping.
Qed.
Print Assumptions C17_map_ok.

Example C17_map_ok_hyps_met :
  snd (vs_map_frame true ex_vs 0x600000 0xc00000 2097152 ma_write_) = Ok tt ∧
  snd (vs_map_frame true ex_vs 0x1000 0x5000 4096 ma_user) = Ok tt.
Proof. split; by vm_compute. Qed.

(** Mapping a list of page-sized frames one after the other over unmapped addresses: every
    address of the region goes to the frame laid out there. *)
Theorem C17_map_frames lg dbg fs : ∀ s b base,
  reach lg dbg s → Forall (fun f => page_sized lg f.1.2) fs →
  (b + fold_right (fun f n => (f.1.2 + n)%N) 0%N fs <= 2 ^ 48)%N →
  (∀ x, within b (fold_right (fun f n => (f.1.2 + n)%N) 0%N fs) x → vs_resolve s x = Err NotMapped) →
  ∀ s', vs_map_frames lg s base b fs = (s', Ok tt) →
  reach lg dbg s' ∧
  ∀ x, (x < 2 ^ 48)%N →
    vs_resolve s' x = match laid_out b fs x with
                      | Some (pa, a) => Ok (pa, granted a)
                      | None => vs_resolve s x
                      end.
Proof.
  induction fs as [|[[pa sz] a] fs IH]; intros s b base R Hf Hb Hu s' H; cbn [vs_map_frames fold_right fst snd laid_out] in *.
  { injection H as <-. done. }
  apply Forall_cons in Hf as [Hsz Hf]. cbn [fst snd] in Hsz.
  set (tot := fold_right (fun f n => (f.1.2 + n)%N) 0%N fs) in *. clearbody tot.
  assert (b + sz <= 2 ^ 48)%N as Hbs by lia. assert (b + sz + tot <= 2 ^ 48)%N as Hbs' by lia.
  destruct (vs_map_frame lg s b pa sz a) as [s1 [[]|e|]] eqn:E1; [|done|done].
  destruct (b + sz <? 2 ^ 64)%N; [|done].
  destruct (C17_map_ok _ _ _ _ _ _ _ _ R Hsz Hbs E1) as [Hout Hin].
  pose proof (page_frame_pos _ _ Hsz) as Hpos.
  destruct Hin as [Hin|(_ & z & Hz & Hle & Hin)].
  2:{ pose proof (page_frame_pos _ _ Hz). specialize (Hin b). rewrite Hu in Hin; [|unfold within; lia].
      exfalso. discriminate Hin. unfold within. lia. }
  assert (reach lg dbg s1) as R1.
  { pose proof (reach_map lg dbg s b pa sz a R Hsz Hbs) as R1. by rewrite E1 in R1. }
  destruct (IH s1 (b + sz)%N base R1 Hf Hbs') with (s' := s') as [R' Hv].
  { intros x Hx. unfold within in Hx. rewrite Hout; [apply Hu; unfold within; lia|lia|unfold within; lia]. }
  { done. }
  split; [done|]. intros x Hx. rewrite (Hv x Hx).
  assert (∀ c l y, (y < c)%N → laid_out c l y = None) as Hlow.
  { clear. intros c l. revert c. induction l as [|[[p z] a] l IHl]; intros c y Hy; [done|]. cbn [laid_out].
    rewrite rng_false by lia. apply IHl. lia. }
  destruct (N.leb_spec b x), (N.ltb_spec x (b + sz)); cbn [andb].
  - rewrite Hlow by done. apply Hin. unfold within. lia.
  - destruct (laid_out (b + sz) fs x) as [[]|]; [done|]. apply Hout; [done|]. unfold within. lia.
  - destruct (laid_out (b + sz) fs x) as [[]|]; [done|]. apply Hout; [done|]. unfold within. lia.
  - lia.
Qed.
Print Assumptions C17_map_frames.

Example C17_map_frames_hyps_met :
  let fs := [(0x9000%N, 4096%N, ma_write_); (0x20000%N, 4096%N, ma_user)] in
  Forall (fun f => page_sized true f.1.2) fs ∧
  snd (vs_map_frames true ex_vs 0x10000 0x10000 fs) = Ok tt.
Proof. split; [repeat constructor|by vm_compute]. Qed.

(** The unrestricted property is false: a frame that extends a smaller mapping with the same
    base, target and rights is acknowledged but not mapped. *)
Theorem C17_map_ok_without_mapping_refuted :
  ∃ s b p sz a s' x, reach true false s ∧ page_sized true sz ∧ (b + sz <= 2 ^ 48)%N ∧
    vs_map_frame true s b p sz a = (s', Ok tt) ∧ within b sz x ∧ vs_resolve s' x = Err NotMapped.
Proof.
  exists (fst (vs_map_frame true vs_init 0 0 4096 ma_user)), 0%N, 0%N, 2097152%N, ma_user,
    (fst (vs_map_frame true vs_init 0 0 4096 ma_user)), 4096%N.
  split_and!; try (by vm_compute).
  - apply reach_map; [constructor|by left|done].
  - by right.
Qed.
Print Assumptions C17_map_ok_without_mapping_refuted.

(** Frames of several pages: a page table left empty by an unmap makes a later map over it
    panic, although nothing is mapped there. *)
Theorem C17_leftover_table_panics_refuted :
  ∃ s b p sz a, reach true false s ∧ (p mod sz = 0)%N ∧ (b mod sz = 0)%N ∧
    (∀ x, (x < 2 ^ 48)%N → vs_resolve s x = Err NotMapped) ∧
    snd (vs_map_frame true s b p sz a) = Panic.
Proof.
  exists (fst (vs_unmap false (fst (vs_map_frame true vs_init 0x200000 0 4096 ma_user)) 0x200000)),
    0%N, 0%N, 0x400000%N, ma_user.
  assert (reach true false (fst (vs_map_frame true vs_init 0x200000 0 4096 ma_user))) as R.
  { apply reach_map; [constructor|by left|done]. }
  split_and!; [|by vm_compute|by vm_compute| |by vm_compute].
  - by apply reach_unmap.
  - intros x Hx. pose proof (reach_unmap _ _ _ 0x200000%N R ltac:(done)) as R'. apply reach_inv in R'.
    apply resolve_none. destruct (walk _ x) as [[l sz]|] eqn:E; [|done].
    destruct (vinv_walk _ _ _ _ _ R' Hx E) as (mi & Hm & _).
    assert (vs_map (fst (vs_unmap false (fst (vs_map_frame true vs_init 0x200000 0 4096 ma_user)) 0x200000)) = ∅)
      as Em by (apply map_to_list_empty_iff; by vm_compute).
    rewrite Em in Hm. by rewrite lookup_empty in Hm.
Qed.
Print Assumptions C17_leftover_table_panics_refuted.

(** Addresses at or above 2^48 are not rejected: they alias the translated ones. *)
Theorem C17_noncanonical_alias_refuted :
  ∃ s b x, snd (vs_map_frame true vs_init b 0x5000 4096 ma_user) = Ok tt ∧
    s = fst (vs_map_frame true vs_init b 0x5000 4096 ma_user) ∧
    ¬ within b 4096 x ∧ vs_resolve s x = Ok (0x5000%N, ma_user).
Proof.
  exists (fst (vs_map_frame true vs_init (2 ^ 48) 0x5000 4096 ma_user)), (2 ^ 48)%N, 0%N.
  split_and!; try (by vm_compute). unfold within. lia.
Qed.
Print Assumptions C17_noncanonical_alias_refuted.

(** ** C18 *)

(** A page table never gives an address another target or other rights on map: if map
    returns, each address of the range was unmapped or had exactly this translation. *)
Theorem C18_page_table_never_overwrites lg t vb pb ps a t' n :
  pt_map lg t vb pb ps a = Ok (t', n) → (0 < ps)%N → (vb + ps <= 2 ^ 48)%N →
  ∀ x, within vb ps x →
    pt_resolve t x = Err NotMapped ∨ pt_resolve t x = Ok ((pb + (x - vb))%N, a).
Proof.
  intros H Hps Hb x [H1 H2]. apply map_generic_view in H as [_ H]; [|done|done]. apply H; lia.
Qed.
Print Assumptions C18_page_table_never_overwrites.

Example C18_page_table_never_overwrites_hyps_met :
  is_ok (pt_map true (vs_pt ex_vs) 0x2000 0x6000 8192 ma_execute) = true ∧
  pt_resolve (vs_pt ex_vs) 0x3000 = Ok (0x7000%N, ma_execute) ∧
  pt_map true (vs_pt ex_vs) 0x2000 0x6000 8192 ma_write_ = Panic.
Proof. split_and!; by vm_compute. Qed.

(** Mapping over a range where something is mapped: the address space does not change at
    all, and the answer is AlreadyMapped with the base of a mapping that intersects the
    range, or Ok if the mapping at this base has this target, these rights and at most this
    size. *)
Theorem C18_conflict lg dbg s b p sz a x :
  reach lg dbg s → page_sized lg sz → (b + sz <= 2 ^ 48)%N →
  (p mod sz = 0)%N → (b mod sz = 0)%N → within b sz x → vs_resolve s x ≠ Err NotMapped →
  fst (vs_map_frame lg s b p sz a) = s ∧
  ( (∃ k z y, snd (vs_map_frame lg s b p sz a) = Err (AlreadyMapped k) ∧
       page_sized lg z ∧ within k z y ∧ within b sz y ∧
       (∀ w, within k z w → vs_resolve s w ≠ Err NotMapped)) ∨
    (snd (vs_map_frame lg s b p sz a) = Ok tt ∧ vs_resolve s b = Ok (p, granted a)) ).
Proof.
  intros R Hsz Hb Hp Hv [H1 H2] Hx. apply reach_inv in R as I. pose proof (page_frame_pos _ _ Hsz) as Hpos.
  destruct (map_frame_cases lg s b p sz a I Hsz Hb) as [[? _]|[(_ & ? & _)|(_ & _ & [Hc|Hc])]]; [done|done| |].
  { destruct Hc as (Hu & _). exfalso. apply Hx, resolve_none, Hu; lia. }
  destruct Hc as (k & mi & Hk & L1 & L2 & Hc).
  destruct (vi_rec _ _ I _ _ Hk) as (P & B & _). apply page_frame_pos in P as Hpos'.
  destruct Hc as [(-> & <- & Hle & <- & E)|[_ E]]; rewrite E; (split; [done|]).
  - right. split; [done|]. rewrite (resolve_mapping _ _ _ _ b I Hk) by (unfold within; lia).
    do 2 f_equal. lia.
  - left. exists k, (mi_size mi), (N.max b k). split; [done|]. split; [done|].
    split; [unfold within; lia|]. split; [unfold within; lia|].
    intros w Hw. by rewrite (resolve_mapping _ _ _ _ w I Hk Hw).
Qed.
Print Assumptions C18_conflict.

Example C18_conflict_hyps_met :
  vs_resolve ex_vs 0x3010 ≠ Err NotMapped ∧
  snd (vs_map_frame true ex_vs 0x0 0x0 2097152 ma_user) = Err (AlreadyMapped 0x3000) ∧
  snd (vs_map_frame true ex_vs 0x401000 0x9000 4096 ma_user) = Err (AlreadyMapped 0x400000) ∧
  snd (vs_map_frame true ex_vs 0x3000 0x7000 4096 ma_execute) = Ok tt.
Proof. split_and!; by vm_compute. Qed.

(** With frames of one size, Ok on a mapped range means that the whole range already has the
    requested translation. *)
Theorem C18_ok_is_repetition lg dbg s b p sz a x :
  reach lg dbg s → page_sized lg sz → (b + sz <= 2 ^ 48)%N → within b sz x →
  vs_resolve s x ≠ Err NotMapped → (∀ k mi, vs_map s !! k = Some mi → mi_size mi = sz) →
  snd (vs_map_frame lg s b p sz a) = Ok tt →
  ∀ y, within b sz y → vs_resolve s y = Ok ((p + (y - b))%N, granted a).
Proof.
  intros R Hsz Hb [H1 H2] Hx Hall H. apply reach_inv in R as I. pose proof (page_frame_pos _ _ Hsz) as Hpos.
  destruct (map_frame_cases lg s b p sz a I Hsz Hb) as [[_ E]|[(_ & _ & E)|(_ & _ & [Hc|Hc])]];
    [by rewrite E in H|by rewrite E in H| |].
  { destruct Hc as (Hu & _). exfalso. apply Hx, resolve_none, Hu; lia. }
  destruct Hc as (k & mi & Hk & L1 & L2 & [(-> & <- & Hle & <- & E)|[_ E]]); [|by rewrite E in H].
  intros y Hy. apply (resolve_mapping _ _ _ _ _ I Hk). by rewrite (Hall _ _ Hk).
Qed.
Print Assumptions C18_ok_is_repetition.

Example C18_ok_is_repetition_hyps_met :
  let s := fst (vs_map_frame true vs_init 0x1000 0x5000 4096 ma_user) in
  vs_resolve s 0x1fff ≠ Err NotMapped ∧ snd (vs_map_frame true s 0x1000 0x5000 4096 ma_user) = Ok tt.
Proof. split; by vm_compute. Qed.

(** map_frames is not atomic: a conflict in the middle leaves the first frames mapped. *)
Theorem C18_map_frames_not_atomic_refuted :
  ∃ s fs b e x, reach true false s ∧ Forall (fun f => page_sized true f.1.2) fs ∧
    snd (vs_map_frames true s b b fs) = Err e ∧ (x < 2 ^ 48)%N ∧
    vs_resolve (fst (vs_map_frames true s b b fs)) x ≠ vs_resolve s x.
Proof.
  exists ex_vs, [(0x9000%N, 4096%N, ma_user); (0xa000%N, 4096%N, ma_user)], 0x2000%N,
    (AlreadyMapped 0x3000), 0x2000%N.
  split_and!; [apply ex_vs_reach|repeat constructor|by vm_compute..].
Qed.
Print Assumptions C18_map_frames_not_atomic_refuted.

(** ** C19 *)

(** One page table, whatever it holds: unmap of an aligned address that translates removes
    exactly its page and reports it. *)
Theorem C19_page_table_unmap t va :
  (va < 2 ^ 48)%N → (va mod 4096 = 0)%N →
  match pt_resolve t va with
  | Ok _ => ∃ t' vb p sz a, pt_unmap t va = (t', Ok (vb, p, sz, a)) ∧
      sz ∈ [4096; 2097152; 1073741824]%N ∧ (vb mod sz = 0)%N ∧ within vb sz va ∧
      (∀ x, within vb sz x → (x < 2 ^ 48)%N →
         pt_resolve t x = Ok ((p + (x - vb))%N, a) ∧ pt_resolve t' x = Err NotMapped) ∧
      (∀ x, (x < 2 ^ 48)%N → ¬ within vb sz x → pt_resolve t' x = pt_resolve t x)
  | _ => pt_unmap t va = (t, Err NotMapped)
  end.
Proof.
  intros Hva Ha. unfold pt_unmap. change BASE with 4096%N. rewrite Ha. cbn [negb N.eqb].
  unfold pt_resolve at 1. destruct (walk t va) as [[l sz]|] eqn:Ew; [|by apply modify_none].
  destruct (modify_some _ _ MUnmap _ _ Ew Hva) as (t' & E & Hv). cbn [mod_leaf] in Hv.
  destruct (page_block _ _ _ _ Ew Hva) as [Hps Hblk]. pose proof (page_size_pos _ Hps) as Hpos.
  pose proof (N.mod_lt va sz ltac:(lia)) as L. pose proof (N.mod_le va sz ltac:(lia)) as L'.
  pose proof (N.div_mod va sz ltac:(lia)) as D.
  assert ((va - va mod sz) = sz * (va / sz))%N as Eb.
  { revert D L'. generalize (va mod sz)%N. intros. lia. }
  exists t', (va - va mod sz)%N, (l_pa l), sz, (from_flags (l_fl l)). split; [exact E|].
  split_and!.
  - destruct Hps as [-> | [-> | ->]]; set_solver.
  - rewrite Eb, N.mul_comm. apply N.mod_mul. lia.
  - revert L L'. generalize (va mod sz)%N. intros. unfold within. lia.
  - intros x [X1 X2] Hx. assert ((x / sz =? va / sz)%N = true) as Ex.
    { rewrite same_page by done. by apply rng_true. }
    unfold pt_resolve. rewrite (Hv x Hx), Ex. apply N.eqb_eq in Ex. rewrite (Hblk x Hx Ex).
    split; [|done]. do 3 f_equal. rewrite Eb, <- Ex.
    pose proof (N.div_mod x sz ltac:(lia)) as Dx. revert Dx.
    generalize (x mod sz)%N. intros. lia.
  - intros x Hx Hn. unfold pt_resolve. rewrite (Hv x Hx). rewrite same_page by done.
    rewrite rng_false; [done|]. unfold within in Hn. lia.
Qed.
Print Assumptions C19_page_table_unmap.

Example C19_page_table_unmap_hyps_met :
  is_ok (pt_resolve (vs_pt ex_vs) 0x401000) = true ∧
  snd (pt_unmap (vs_pt ex_vs) 0x401000) = Ok (0x400000%N, 0xa00000%N, 2097152%N, ma_write_).
Proof. split; by vm_compute. Qed.

(** Address spaces: the bookkeeping follows, and the removed range is one recorded mapping. *)
Theorem C19_unmap lg dbg s va :
  reach lg dbg s → (va < 2 ^ 48)%N →
  match vs_resolve s va with
  | Ok _ =>
      ((va mod 4096 ≠ 0)%N ∧ vs_unmap dbg s va = (s, Err InvalidBase)) ∨
      ((va mod 4096 = 0)%N ∧
       ∃ s' vb p sz a, vs_unmap dbg s va = (s', Ok (vb, p, sz, granted a)) ∧
         page_sized lg sz ∧ within vb sz va ∧
         vs_map s !! vb = Some (mkMI p sz a) ∧ vs_map s' = delete vb (vs_map s) ∧
         (∀ x, within vb sz x → vs_resolve s x = Ok ((p + (x - vb))%N, granted a) ∧ vs_resolve s' x = Err NotMapped) ∧
         (∀ x, (x < 2 ^ 48)%N → ¬ within vb sz x → vs_resolve s' x = vs_resolve s x))
  | _ => ∃ e, vs_unmap dbg s va = (s, Err e) ∧ (e = NotMapped ∨ e = InvalidBase ∧ (va mod 4096 ≠ 0)%N)
  end.
Proof.
  intros R Hva. apply reach_inv in R as I.
  destruct (unmap_cases lg dbg s va I Hva) as [(Ew & He)|(l & sz & mi & Ew & Hm & Hc)].
  { assert (vs_resolve s va = Err NotMapped) as -> by (by apply resolve_none). done. }
  destruct (vinv_walk _ _ _ _ _ I Hva Ew) as (mi' & Hm' & Hs & L1 & L2 & P & El).
  rewrite Hm in Hm'. injection Hm' as <-. pose proof (page_frame_pos _ _ P) as Hpos.
  assert (∀ x, within (va - va mod sz) sz x → (x < 2 ^ 48)%N ∧ vs_resolve s x = Ok ((mi_pa mi + (x - (va - va mod sz)))%N, granted (mi_rights mi)))
    as Hin.
  { intros x Hx. rewrite <- Hs in Hx at 2. pose proof Hx as [X1 X2].
    destruct (vinv_cover _ _ _ _ _ I Hm X1 X2) as (Hx48 & _). split; [done|].
    by apply (resolve_mapping _ _ _ _ _ I Hm). }
  destruct (Hin va) as [_ ->]; [by split|].
  destruct Hc as [[Ha E]|(Ha & t & E & Hv)]; [by left|right]. split; [done|].
  exists (mkVS (delete (va - va mod sz)%N (vs_map s)) t), (va - va mod sz)%N, (mi_pa mi), sz, (mi_rights mi).
  rewrite E, El. cbn [l_pa l_fl]. rewrite from_entry.
  split; [done|]. split; [done|]. split; [by split|].
  split; [rewrite Hm; f_equal; rewrite <- Hs; by destruct mi|]. split; [done|].
  split.
  - intros x Hx. destruct (Hin x Hx) as [Hx48 Hr]. split; [done|]. apply resolve_none. cbn [vs_pt].
    rewrite Hv by done. rewrite same_page by done. by rewrite rng_true.
  - intros x Hx Hn. unfold vs_resolve, pt_resolve. cbn [vs_pt]. rewrite Hv by done.
    rewrite same_page by done. rewrite rng_false; [done|]. unfold within in Hn. lia.
Qed.
Print Assumptions C19_unmap.

Example C19_unmap_hyps_met :
  snd (vs_unmap true ex_vs 0x5ff000) = Ok (0x400000%N, 0xa00000%N, 2097152%N, ma_write_) ∧
  snd (vs_unmap true ex_vs 0x2000) = Err NotMapped ∧ snd (vs_unmap true ex_vs 0x1001) = Err InvalidBase.
Proof. split_and!; by vm_compute. Qed.

(** Frames of several pages: unmap forgets the whole mapping but removes only one page from
    the page table.  The rest stays accessible, and mapping something else there panics. *)
Theorem C19_multi_page_frame_refuted :
  ∃ s s' r, snd (vs_map_frame true vs_init 0 0x10000 8192 ma_write_) = Ok tt ∧
    s = fst (vs_map_frame true vs_init 0 0x10000 8192 ma_write_) ∧
    s' = fst (vs_unmap true s 0) ∧ snd (vs_unmap true s 0) = Ok r ∧ map_to_list (vs_map s') = [] ∧
    vs_resolve s' 4096 = Ok (0x11000%N, ma_write_) ∧
    snd (vs_map_frame true s' 4096 0x30000 4096 ma_write_) = Panic.
Proof.
  exists (fst (vs_map_frame true vs_init 0 0x10000 8192 ma_write_)),
    (fst (vs_unmap true (fst (vs_map_frame true vs_init 0 0x10000 8192 ma_write_)) 0)),
    (0%N, 0x10000%N, 4096%N, ma_write_).
  split_and!; [by vm_compute|reflexivity|reflexivity|by vm_compute..].
Qed.
Print Assumptions C19_multi_page_frame_refuted.

(** The same with a 2 MiB frame when the feature pages-4k is on. *)
Theorem C19_pages_4k_large_frame_refuted :
  ∃ s s' r, snd (vs_map_frame false vs_init 0x200000 0x600000 2097152 ma_write_) = Ok tt ∧
    s = fst (vs_map_frame false vs_init 0x200000 0x600000 2097152 ma_write_) ∧
    s' = fst (vs_unmap true s 0x200000) ∧ snd (vs_unmap true s 0x200000) = Ok r ∧ map_to_list (vs_map s') = [] ∧
    vs_resolve s' 0x201000 = Ok (0x601000%N, ma_write_).
Proof.
  exists (fst (vs_map_frame false vs_init 0x200000 0x600000 2097152 ma_write_)),
    (fst (vs_unmap true (fst (vs_map_frame false vs_init 0x200000 0x600000 2097152 ma_write_)) 0x200000)),
    (0x200000%N, 0x600000%N, 4096%N, ma_write_).
  split_and!; [by vm_compute|reflexivity|reflexivity|by vm_compute..].
Qed.
Print Assumptions C19_pages_4k_large_frame_refuted.

(** ** C20 *)

Theorem C20_page_table_adjust t va a :
  (va < 2 ^ 48)%N → (va mod 4096 = 0)%N →
  match pt_resolve t va with
  | Ok _ => ∃ t' vb sz, pt_adjust t va a = (t', Ok (vb, sz)) ∧
      sz ∈ [4096; 2097152; 1073741824]%N ∧ (vb mod sz = 0)%N ∧ within vb sz va ∧
      (∀ x, within vb sz x → (x < 2 ^ 48)%N →
         ∃ p r, pt_resolve t x = Ok (p, r) ∧ pt_resolve t' x = Ok (p, granted a)) ∧
      (∀ x, (x < 2 ^ 48)%N → ¬ within vb sz x → pt_resolve t' x = pt_resolve t x)
  | _ => pt_adjust t va a = (t, Err NotMapped)
  end.
Proof.
  intros Hva Ha. unfold pt_adjust. change BASE with 4096%N. rewrite Ha. cbn [negb N.eqb].
  unfold pt_resolve at 1. destruct (walk t va) as [[l sz]|] eqn:Ew; [|by rewrite modify_none].
  destruct (modify_some _ _ (MUpdate a) _ _ Ew Hva) as (t' & E & Hv). cbn [mod_leaf] in Hv.
  destruct (page_block _ _ _ _ Ew Hva) as [Hps Hblk]. pose proof (page_size_pos _ Hps) as Hpos.
  pose proof (N.mod_lt va sz ltac:(lia)) as L. pose proof (N.mod_le va sz ltac:(lia)) as L'.
  pose proof (N.div_mod va sz ltac:(lia)) as D.
  assert ((va - va mod sz) = sz * (va / sz))%N as Eb.
  { revert D L'. generalize (va mod sz)%N. intros. lia. }
  rewrite E. exists t', (va - va mod sz)%N, sz. split; [done|].
  split_and!.
  - destruct Hps as [-> | [-> | ->]]; set_solver.
  - rewrite Eb, N.mul_comm. apply N.mod_mul. lia.
  - revert L L'. generalize (va mod sz)%N. intros. unfold within. lia.
  - intros x [X1 X2] Hx. assert ((x / sz =? va / sz)%N = true) as Ex.
    { rewrite same_page by done. by apply rng_true. }
    unfold pt_resolve. rewrite (Hv x Hx), Ex. apply N.eqb_eq in Ex. rewrite (Hblk x Hx Ex).
    cbn [l_pa l_fl]. rewrite from_entry. eauto.
  - intros x Hx Hn. unfold pt_resolve. rewrite (Hv x Hx). rewrite same_page by done.
    rewrite rng_false; [done|]. unfold within in Hn. lia.
Qed.
Print Assumptions C20_page_table_adjust.

Example C20_page_table_adjust_hyps_met :
  pt_resolve (vs_pt ex_vs) 0x401004 = Ok (0xa01004%N, ma_write_) ∧
  pt_resolve (fst (pt_adjust (vs_pt ex_vs) 0x500000 ma_user)) 0x401004 = Ok (0xa01004%N, ma_user).
Proof. split; by vm_compute. Qed.

Theorem C20_adjust lg dbg s va a :
  reach lg dbg s → (va < 2 ^ 48)%N →
  ((va mod 4096 ≠ 0)%N ∧ vs_adjust s va a = (s, Err InvalidBase)) ∨
  ((va mod 4096 = 0)%N ∧ vs_resolve s va = Err NotMapped ∧ vs_adjust s va a = (s, Err NotMapped)) ∨
  ((va mod 4096 = 0)%N ∧
   ∃ s' vb p sz a0, vs_adjust s va a = (s', Ok (vb, sz)) ∧ page_sized lg sz ∧ within vb sz va ∧
     vs_map s !! vb = Some (mkMI p sz a0) ∧ vs_map s' = <[vb := mkMI p sz a]> (vs_map s) ∧
     (∀ x, within vb sz x → vs_resolve s x = Ok ((p + (x - vb))%N, granted a0) ∧
                            vs_resolve s' x = Ok ((p + (x - vb))%N, granted a)) ∧
     (∀ x, (x < 2 ^ 48)%N → ¬ within vb sz x → vs_resolve s' x = vs_resolve s x)).
Proof.
  intros R Hva. apply reach_inv in R as I.
  pose proof (adjust_inv lg s va a I Hva) as I'.
  destruct (adjust_cases lg s va a I Hva) as [?|[(? & Ew & ?)|(Ha & l & sz & mi & Ew & Hm & t & E & Hv)]];
    [by left|right; left; split_and!; try done; by apply resolve_none|right; right].
  split; [done|]. rewrite E in I'. cbn [fst] in I'.
  destruct (vinv_walk _ _ _ _ _ I Hva Ew) as (mi' & Hm' & Hs & L1 & L2 & P & El).
  rewrite Hm in Hm'. injection Hm' as <-. pose proof (page_frame_pos _ _ P) as Hpos.
  eexists _, (va - va mod sz)%N, (mi_pa mi), sz, (mi_rights mi). split; [exact E|].
  split; [done|]. split; [by split|].
  split; [rewrite Hm; f_equal; rewrite <- Hs; by destruct mi|].
  split; [cbn [vs_map]; by rewrite Hs|]. split.
  - intros x Hx. split.
    + apply (resolve_mapping _ _ _ _ _ I Hm). by rewrite Hs.
    + apply (resolve_mapping _ _ _ (mkMI (mi_pa mi) (mi_size mi) a) _ I'); cbn [vs_map mi_size].
      * by rewrite lookup_insert.
      * by rewrite Hs.
  - intros x Hx Hn. unfold vs_resolve, pt_resolve. cbn [vs_pt]. rewrite Hv by done.
    rewrite same_page by done. rewrite rng_false; [done|]. unfold within in Hn. lia.
Qed.
Print Assumptions C20_adjust.

Example C20_adjust_hyps_met :
  snd (vs_adjust ex_vs 0x3000 ma_user) = Ok (0x3000%N, 4096%N) ∧
  vs_resolve (fst (vs_adjust ex_vs 0x3000 ma_user)) 0x3001 = Ok (0x7001%N, ma_user).
Proof. split; by vm_compute. Qed.

(** ** C21 *)

(** After any history with page-sized frames the recorded mappings are exactly what the
    page table translates; they do not overlap; no operation panics. *)
Theorem C21_bookkeeping lg dbg s :
  reach lg dbg s →
  (∀ b mi x, vs_map s !! b = Some mi → within b (mi_size mi) x →
     (x < 2 ^ 48)%N ∧ vs_resolve s x = Ok ((mi_pa mi + (x - b))%N, granted (mi_rights mi))) ∧
  (∀ x p r, (x < 2 ^ 48)%N → vs_resolve s x = Ok (p, r) →
     ∃ b mi, vs_map s !! b = Some mi ∧ within b (mi_size mi) x ∧
       p = (mi_pa mi + (x - b))%N ∧ r = granted (mi_rights mi)) ∧
  (∀ b b' mi mi' x, vs_map s !! b = Some mi → vs_map s !! b' = Some mi' →
     within b (mi_size mi) x → within b' (mi_size mi') x → b = b').
Proof.
  intros R. apply reach_inv in R as I. split_and!.
  - intros b mi x Hb Hx. pose proof Hx as [X1 X2]. destruct (vinv_cover _ _ _ _ _ I Hb X1 X2) as (? & _).
    split; [done|]. by eapply resolve_mapping.
  - intros x p r Hx Hr. destruct (walk (vs_pt s) x) as [[l sz]|] eqn:Ew.
    2:{ apply resolve_none in Ew. congruence. }
    destruct (vinv_walk _ _ _ _ _ I Hx Ew) as (mi & Hm & Hs & L1 & L2 & P & El).
    eexists _, mi. split; [exact Hm|]. assert (within (x - x mod sz) (mi_size mi) x) as W by (rewrite Hs; by split).
    split; [done|]. rewrite (resolve_mapping _ _ _ _ _ I Hm W) in Hr. by injection Hr as <- <-.
  - intros b b' mi mi' x H1 H2 [? ?] [? ?]. by destruct (vinv_disj _ _ _ _ _ _ x I H1 H2).
Qed.
Print Assumptions C21_bookkeeping.

Example C21_bookkeeping_hyps_met :
  reach true true ex_vs ∧ vs_map ex_vs !! 0x400000%N = Some (mkMI 0xa00000 2097152 ma_write_) ∧
  vs_resolve ex_vs 0x5fffff = Ok (0xbfffff%N, ma_write_).
Proof. split_and!; [apply ex_vs_reach|by vm_compute..]. Qed.

Theorem C21_no_panic lg dbg s :
  reach lg dbg s →
  (∀ b p sz a, page_sized lg sz → (b + sz <= 2 ^ 48)%N → snd (vs_map_frame lg s b p sz a) ≠ Panic) ∧
  (∀ va, (va < 2 ^ 48)%N → snd (vs_unmap dbg s va) ≠ Panic) ∧
  (∀ va a, (va < 2 ^ 48)%N → snd (vs_adjust s va a) ≠ Panic).
Proof.
  intros R. apply reach_inv in R as I. split_and!.
  - intros b p sz a Hsz Hb.
    destruct (map_frame_cases lg s b p sz a I Hsz Hb) as [[_ ->]|[(_ & _ & ->)|(_ & _ & [Hc|Hc])]]; try done.
    + by destruct Hc as (_ & _ & t & -> & _).
    + by destruct Hc as (k & mi & _ & _ & _ & [(_ & _ & _ & _ & ->)|[_ ->]]).
  - intros va Hva.
    destruct (unmap_cases lg dbg s va I Hva) as [(_ & e & -> & _)|(l & sz & mi & _ & _ & [[_ ->]|(_ & t & -> & _)])]; done.
  - intros va a Hva.
    destruct (adjust_cases lg s va a I Hva) as [[_ ->]|[(_ & _ & ->)|(_ & l & sz & mi & _ & _ & t & -> & _)]]; done.
Qed.
Print Assumptions C21_no_panic.

Example C21_no_panic_hyps_met : reach true true ex_vs ∧ is_ok (snd (vs_unmap true ex_vs 0x1000)) = true.
Proof. split; [apply ex_vs_reach|by vm_compute]. Qed.

(** ** C22 *)

(** What the processor allows through an installed entry of any page size is exactly what
    the rights say. *)
Theorem C22_hardware_rights big a user write exec :
  cpu_allows (entry_flags big a) user write exec ↔
  (user = true → ma_kernel a = false) ∧ (write = true → ma_write a = true) ∧ (exec = true → ma_exec a = true).
Proof.
  unfold cpu_allows, entry_flags, to_rights. cbn [fl_p fl_us fl_rw fl_xd].
  rewrite negb_true_iff, negb_false_iff. tauto.
Qed.
Print Assumptions C22_hardware_rights.

Example C22_hardware_rights_hyps_met :
  cpu_allows (entry_flags true ma_write_) true true false ∧ ¬ cpu_allows (entry_flags true ma_write_) true true true.
Proof. unfold cpu_allows. cbn. naive_solver. Qed.

(** Reading the rights of an installed entry back. *)
Theorem C22_read_back big a :
  from_flags (entry_flags big a) = granted a ∧
  (ma_present a = true → ma_nocache a = false → from_flags (entry_flags big a) = a).
Proof. split; [apply from_entry|]. rewrite from_entry. by destruct a as [[] ? ? ? [] ?]. Qed.
Print Assumptions C22_read_back.

Example C22_read_back_hyps_met :
  let a := ma_or ma_user (ma_or ma_write_ ma_aliased) in
  ma_present a = true ∧ ma_nocache a = false ∧ ma_alias (from_flags (entry_flags false a)) = true.
Proof. done. Qed.

(** Combining rights with [|]: write and execute permissions add up, and the result is
    accessible from user space only if both parts are. *)
Theorem C22_combined_rights big a b user write exec :
  cpu_allows (entry_flags big (ma_or a b)) user write exec ↔
  (user = true → ma_kernel a = false ∧ ma_kernel b = false) ∧
  (write = true → ma_write a = true ∨ ma_write b = true) ∧
  (exec = true → ma_exec a = true ∨ ma_exec b = true).
Proof.
  rewrite C22_hardware_rights. unfold ma_or. cbn [ma_kernel ma_write ma_exec].
  rewrite !orb_true_iff, orb_false_iff. done.
Qed.
Print Assumptions C22_combined_rights.

Example C22_combined_rights_hyps_met :
  cpu_allows (entry_flags false (ma_or ma_kernel_ ma_write_)) false true false ∧
  ¬ cpu_allows (entry_flags false (ma_or ma_kernel_ ma_write_)) true true false.
Proof. unfold cpu_allows. cbn. naive_solver. Qed.

(** End to end: the rights an address gets through map and adjust are those of the last
    call, with the entry the processor sees. *)
Theorem C22_mapped_rights lg dbg s b mi x user write exec :
  reach lg dbg s → vs_map s !! b = Some mi → within b (mi_size mi) x →
  ∃ l sz, walk (vs_pt s) x = Some (l, sz) ∧
    (cpu_allows (l_fl l) user write exec ↔
     (user = true → ma_kernel (mi_rights mi) = false) ∧ (write = true → ma_write (mi_rights mi) = true) ∧
     (exec = true → ma_exec (mi_rights mi) = true)).
Proof.
  intros R Hb [X1 X2]. apply reach_inv in R as I.
  destruct (vinv_cover _ _ _ _ _ I Hb X1 X2) as (_ & W & _). eexists _, _. split; [exact W|].
  cbn [l_fl]. apply C22_hardware_rights.
Qed.
Print Assumptions C22_mapped_rights.

Example C22_mapped_rights_hyps_met :
  reach true true ex_vs ∧ vs_map ex_vs !! 0x3000%N = Some (mkMI 0x7000 4096 ma_execute) ∧ within 0x3000 4096 0x3abc.
Proof. split; [apply ex_vs_reach|]. split; [by vm_compute|]. by unfold within. Qed.

(** Two requests are not honoured: rights without "present" give a present page, and
    "not cached" is dropped. *)
Theorem C22_none_is_readable_refuted :
  ma_present ma_none = false ∧ cpu_allows (entry_flags false ma_none) true false false ∧
  vs_resolve (fst (vs_map_frame true vs_init 0 0 4096 ma_none)) 0 = Ok (0%N, ma_user).
Proof. split; [done|]. split; [unfold cpu_allows; cbn; naive_solver|by vm_compute]. Qed.
Print Assumptions C22_none_is_readable_refuted.

Theorem C22_no_cache_dropped_refuted :
  ∀ big, ma_nocache ma_no_cache = true ∧ fl_pcd (entry_flags big ma_no_cache) = false.
Proof. done. Qed.
Print Assumptions C22_no_cache_dropped_refuted.
