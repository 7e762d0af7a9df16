(** Lemmas about the page table and the address space of [VsModel]. *)
From Verif Require Import Base VsModel.

Ltac nn := unfold BASE, LARGE, HUGE, SLOT in *.
Local Arguments base_loop : simpl never.
Local Arguments large_loop : simpl never.
Local Arguments huge_loop : simpl never.
Local Arguments map_generic : simpl never.

(** ** Address arithmetic *)

Lemma dec_va va : (va < 2 ^ 48)%N →
  va = (SLOT * i4 va + HUGE * i3 va + LARGE * i2 va + BASE * i1 va + va mod BASE)%N ∧
  (i4 va < 512)%N ∧ (i3 va < 512)%N ∧ (i2 va < 512)%N ∧ (i1 va < 512)%N ∧ (va mod BASE < BASE)%N.
Proof.
  intros H. unfold i4, i3, i2, i1.
  assert (Hs : (va / SLOT < 512)%N) by (apply N.div_lt_upper_bound; [done|]; nn; lia).
  rewrite (N.mod_small (va / SLOT)) by done.
  pose proof (N.div_mod va BASE ltac:(done)).
  pose proof (N.div_mod (va / BASE) 512 ltac:(done)).
  pose proof (N.div_mod (va / LARGE) 512 ltac:(done)).
  pose proof (N.div_mod (va / HUGE) 512 ltac:(done)).
  assert (va / LARGE = va / BASE / 512)%N as E1 by (rewrite N.div_div by done; done).
  assert (va / HUGE = va / LARGE / 512)%N as E2 by (rewrite N.div_div by done; done).
  assert (va / SLOT = va / HUGE / 512)%N as E3 by (rewrite N.div_div by done; done).
  pose proof (N.mod_lt va BASE ltac:(done)).
  pose proof (N.mod_lt (va / BASE) 512 ltac:(done)).
  pose proof (N.mod_lt (va / LARGE) 512 ltac:(done)).
  pose proof (N.mod_lt (va / HUGE) 512 ltac:(done)).
  split_and!; try done. nn. lia.
Qed.

Lemma out_block vb va m S : (0 < S)%N → (vb mod S + m <= S)%N → (vb / S ≠ va / S)%N →
  (va < vb ∨ vb + m <= va)%N.
Proof.
  intros HS Hm Hne. pose proof (N.div_mod vb S ltac:(lia)) as E1. pose proof (N.div_mod va S ltac:(lia)) as E2.
  pose proof (N.mod_lt va S ltac:(lia)) as L. revert Hm Hne E1 E2 L.
  generalize (va mod S)%N (vb mod S)%N (va / S)%N (vb / S)%N. intros r r' q q' Hm Hne E1 E2 L.
  apply N.lt_gt_cases in Hne as [Hlt|Hlt]; subst; [right|left]; nia.
Qed.

Lemma dec_mod va : (va < 2 ^ 48)%N →
  (va mod LARGE = BASE * i1 va + va mod BASE)%N ∧
  (va mod HUGE = LARGE * i2 va + BASE * i1 va + va mod BASE)%N ∧
  (va mod SLOT = HUGE * i3 va + LARGE * i2 va + BASE * i1 va + va mod BASE)%N.
Proof.
  intros H. destruct (dec_va va H) as (E & ? & ? & ? & ? & ?). split_and!.
  - symmetry. apply (N.mod_unique va LARGE (SLOT / LARGE * i4 va + HUGE / LARGE * i3 va + i2 va)).
    { nn. lia. }
    change (SLOT / LARGE)%N with 262144%N. change (HUGE / LARGE)%N with 512%N. nn. lia.
  - symmetry. apply (N.mod_unique va HUGE (SLOT / HUGE * i4 va + i3 va)).
    { nn. lia. }
    change (SLOT / HUGE)%N with 512%N. nn. lia.
  - symmetry. apply (N.mod_unique va SLOT (i4 va)); nn; lia.
Qed.

Ltac cleardm :=
  repeat match goal with
  | H : context [N.modulo _ _] |- _ => clear H
  | H : context [N.div _ _] |- _ => clear H
  end.
(** linear arithmetic on the digits of two addresses: the remainders are variables *)
Ltac dl va vb :=
  try match goal with E : va = (_ + va mod BASE)%N, L : (va mod BASE < BASE)%N |- _ =>
    revert E L; generalize (va mod BASE)%N; intros end;
  try match goal with E : vb = (_ + vb mod BASE)%N, L : (vb mod BASE < BASE)%N |- _ =>
    revert E L; generalize (vb mod BASE)%N; intros end;
  cleardm; nn; lia.

Lemma idx_ne va vb :
  (i4 vb ≠ i4 va → vb / SLOT ≠ va / SLOT)%N ∧ (i3 vb ≠ i3 va → vb / HUGE ≠ va / HUGE)%N ∧
  (i2 vb ≠ i2 va → vb / LARGE ≠ va / LARGE)%N.
Proof. unfold i4, i3, i2. split_and!; intros H E; apply H; by rewrite E. Qed.

(** ** Walks by level *)

Definition w1 (pt : gmap N leaf) (va : N) : option (leaf * N) :=
  match pt !! i1 va with None => None | Some l => Some (l, BASE) end.
Definition w2 (pd : gmap N pde) (va : N) : option (leaf * N) :=
  match pd !! i2 va with
  | None => None | Some (PDPage l) => Some (l, LARGE) | Some (PDTab pt) => w1 pt va end.
Definition w3 (pdpt : gmap N pdpte) (va : N) : option (leaf * N) :=
  match pdpt !! i3 va with
  | None => None | Some (P3Page l) => Some (l, HUGE) | Some (P3Tab pd) => w2 pd va end.
Definition w4 (t : gmap N (gmap N pdpte)) (va : N) : option (leaf * N) :=
  match t !! i4 va with None => None | Some p => w3 p va end.
Lemma walk_w4 t va : walk t va = w4 t va. Proof. reflexivity. Qed.

Lemma w4_insert t k p va :
  w4 (<[k := p]> t) va = if (k =? i4 va)%N then w3 p va else w4 t va.
Proof.
  unfold w4. destruct (N.eqb_spec k (i4 va)) as [->|]; [by rewrite lookup_insert|by rewrite lookup_insert_ne].
Qed.
Lemma w3_insert t k p va :
  w3 (<[k := P3Tab p]> t) va = if (k =? i3 va)%N then w2 p va else w3 t va.
Proof.
  unfold w3. destruct (N.eqb_spec k (i3 va)) as [->|]; [by rewrite lookup_insert|by rewrite lookup_insert_ne].
Qed.
Lemma w2_insert t k p va :
  w2 (<[k := PDTab p]> t) va = if (k =? i2 va)%N then w1 p va else w2 t va.
Proof.
  unfold w2. destruct (N.eqb_spec k (i2 va)) as [->|]; [by rewrite lookup_insert|by rewrite lookup_insert_ne].
Qed.
Lemma w1_empty va : w1 ∅ va = None. Proof. unfold w1. by rewrite lookup_empty. Qed.
Lemma w2_empty va : w2 ∅ va = None. Proof. unfold w2. by rewrite lookup_empty. Qed.
Lemma w3_empty va : w3 ∅ va = None. Proof. unfold w3. by rewrite lookup_empty. Qed.

(** ** The three loops *)

Lemma base_loop_S fuel m0 idx pb ps mapped a :
  base_loop (S fuel) m0 idx pb ps mapped a =
  if (mapped <? ps)%N && (idx <? 512)%N then
    if match m0 !! idx with Some l => leaf_conflict l (pb + mapped) a | None => false end then Panic
    else base_loop fuel (<[idx := (mkLeaf (pb + mapped) (entry_flags false a))]> m0)
           (idx + 1) pb ps (mapped + BASE) a
  else Ok (m0, mapped).
Proof. reflexivity. Qed.

Lemma base_loop_ok fuel : ∀ m0 idx pb p m a m0' m',
  base_loop fuel m0 idx pb (BASE * p) (BASE * m) a = Ok (m0', m') →
  (idx <= 512)%N → (512 <= idx + N.of_nat fuel)%N → (BASE * m <= BASE * p)%N →
  ∃ k, m' = (BASE * (m + k))%N ∧ (idx + k <= 512)%N ∧ (BASE * (m + k) <= BASE * p)%N ∧
    ((BASE * p < BASE * (m + k) + BASE)%N ∨ (idx + k = 512)%N) ∧
    (∀ j, m0' !! j = if (idx <=? j)%N && (j <? idx + k)%N
       then Some ((mkLeaf (pb + BASE * (m + (j - idx))) (entry_flags false a))) else m0 !! j) ∧
    (∀ j x, (idx <= j)%N → (j < idx + k)%N → m0 !! j = Some x →
       ∃ l, x = l ∧ l_pa l = (pb + BASE * (m + (j - idx)))%N ∧ from_flags (l_fl l) = a).
Proof.
  induction fuel as [|fuel IH]; intros m0 idx pb p m a m0' m' H Hi Hf Hm.
  - change (Ok (m0, (BASE * m)%N) = Ok (m0', m')) in H. injection H as <- <-.
    exists 0%N. rewrite !N.add_0_r. split_and!; try done; try (intros; lia).
    intros j. destruct (N.leb_spec idx j), (N.ltb_spec j idx); try done; lia.
  - rewrite base_loop_S in H.
    match type of H with context [if ?c then (if _ then _ else _) else _] => destruct c eqn:Eg end.
    2:{ injection H as <- <-. exists 0%N. rewrite !N.add_0_r. split_and!; try done; try (intros; lia).
        + rewrite ?andb_false_iff, ?N.ltb_ge, ?N.leb_gt in Eg. nn. lia.
        + intros j. destruct (N.leb_spec idx j), (N.ltb_spec j idx); try done; lia. }
    match type of H with context [if ?c then Panic else _] => destruct c eqn:Ec end; [done|].
    rewrite ?andb_true_iff, ?N.ltb_lt, ?N.leb_le in Eg.
    replace (BASE * m + BASE)%N with (BASE * (m + 1))%N in H by lia.
    apply IH in H as (k & -> & Hk & Hkp & Hd & Hl & Hold); [|lia|lia|nn; lia].
    exists (k + 1)%N. replace (m + (k + 1))%N with (m + 1 + k)%N by lia.
    split_and!; try done; try lia.
    + intros j. rewrite Hl.
      destruct (N.eq_dec j idx) as [->|Hne].
      * rewrite lookup_insert.
        destruct (N.leb_spec (idx + 1) idx); [lia|]. cbn [andb].
        destruct (N.leb_spec idx idx); [|lia]. destruct (N.ltb_spec idx (idx + (k + 1))); [|lia].
        cbn [andb]. rewrite N.sub_diag, N.add_0_r. done.
      * rewrite lookup_insert_ne by done.
        destruct (N.leb_spec (idx + 1) j), (N.leb_spec idx j); try lia; cbn [andb]; [|done].
        destruct (N.ltb_spec j (idx + 1 + k)), (N.ltb_spec j (idx + (k + 1))); try lia; [|done].
        replace (m + 1 + (j - (idx + 1)))%N with (m + (j - idx))%N by lia. done.
    + intros j x Hj1 Hj2 Hjl. destruct (N.eq_dec j idx) as [->|Hne].
      * rewrite Hjl in Ec. rename x into l. exists l. split; [done|]. unfold leaf_conflict in Ec.
        apply negb_false_iff, andb_true_iff in Ec as [E1 E2].
        apply N.eqb_eq in E1. apply bool_decide_eq_true in E2. split; [|done]. rewrite E1.
        by rewrite N.sub_diag, N.add_0_r.
      * destruct (Hold j x) as (l & -> & E1 & E2); [lia|lia|by rewrite lookup_insert_ne by done|].
        exists l. split_and!; try done. rewrite E1. do 2 f_equal. lia.
Qed.

Lemma base_loop_no_panic fuel : ∀ m0 idx pb ps mapped a,
  (∀ j, (idx <= j)%N → (BASE * (j - idx) + mapped < ps)%N → m0 !! j = None) →
  is_panic (base_loop fuel m0 idx pb ps mapped a) = false ∧
  ∀ e, base_loop fuel m0 idx pb ps mapped a ≠ Err e.
Proof.
  induction fuel as [|fuel IH]; intros m0 idx pb ps mapped a H; [done|].
  rewrite base_loop_S.
  match goal with |- context [if ?c then (if _ then _ else _) else _] => destruct c eqn:Eg end; [|done].
  rewrite ?andb_true_iff, ?N.ltb_lt, ?N.leb_le in Eg.
  rewrite (H idx) by (rewrite ?N.sub_diag; lia).
  apply IH. intros j Hj1 Hj2. rewrite lookup_insert_ne by lia. apply H; nn; lia.
Qed.

Lemma large_loop_S fuel m0 idx pb ps mapped a :
  large_loop (S fuel) m0 idx pb ps mapped a =
  if (mapped <? ps)%N && (LARGE <=? ps - mapped)%N && (idx <? 512)%N then
    if match m0 !! idx with Some (PDPage l) => leaf_conflict l (pb + mapped) a | Some (PDTab _) => true | None => false end then Panic
    else large_loop fuel (<[idx := PDPage (mkLeaf (pb + mapped) (entry_flags true a))]> m0)
           (idx + 1) pb ps (mapped + LARGE) a
  else Ok (m0, mapped).
Proof. reflexivity. Qed.

Lemma large_loop_ok fuel : ∀ m0 idx pb p m a m0' m',
  large_loop fuel m0 idx pb (BASE * p) (LARGE * m) a = Ok (m0', m') →
  (idx <= 512)%N → (512 <= idx + N.of_nat fuel)%N → (LARGE * m <= BASE * p)%N →
  ∃ k, m' = (LARGE * (m + k))%N ∧ (idx + k <= 512)%N ∧ (LARGE * (m + k) <= BASE * p)%N ∧
    ((BASE * p < LARGE * (m + k) + LARGE)%N ∨ (idx + k = 512)%N) ∧
    (∀ j, m0' !! j = if (idx <=? j)%N && (j <? idx + k)%N
       then Some (PDPage (mkLeaf (pb + LARGE * (m + (j - idx))) (entry_flags true a))) else m0 !! j) ∧
    (∀ j x, (idx <= j)%N → (j < idx + k)%N → m0 !! j = Some x →
       ∃ l, x = PDPage l ∧ l_pa l = (pb + LARGE * (m + (j - idx)))%N ∧ from_flags (l_fl l) = a).
Proof.
  induction fuel as [|fuel IH]; intros m0 idx pb p m a m0' m' H Hi Hf Hm.
  - change (Ok (m0, (LARGE * m)%N) = Ok (m0', m')) in H. injection H as <- <-.
    exists 0%N. rewrite !N.add_0_r. split_and!; try done; try (intros; lia).
    intros j. destruct (N.leb_spec idx j), (N.ltb_spec j idx); try done; lia.
  - rewrite large_loop_S in H.
    match type of H with context [if ?c then (if _ then _ else _) else _] => destruct c eqn:Eg end.
    2:{ injection H as <- <-. exists 0%N. rewrite !N.add_0_r. split_and!; try done; try (intros; lia).
        + rewrite ?andb_false_iff, ?N.ltb_ge, ?N.leb_gt in Eg. nn. lia.
        + intros j. destruct (N.leb_spec idx j), (N.ltb_spec j idx); try done; lia. }
    match type of H with context [if ?c then Panic else _] => destruct c eqn:Ec end; [done|].
    rewrite ?andb_true_iff, ?N.ltb_lt, ?N.leb_le in Eg.
    replace (LARGE * m + LARGE)%N with (LARGE * (m + 1))%N in H by lia.
    apply IH in H as (k & -> & Hk & Hkp & Hd & Hl & Hold); [|lia|lia|nn; lia].
    exists (k + 1)%N. replace (m + (k + 1))%N with (m + 1 + k)%N by lia.
    split_and!; try done; try lia.
    + intros j. rewrite Hl.
      destruct (N.eq_dec j idx) as [->|Hne].
      * rewrite lookup_insert.
        destruct (N.leb_spec (idx + 1) idx); [lia|]. cbn [andb].
        destruct (N.leb_spec idx idx); [|lia]. destruct (N.ltb_spec idx (idx + (k + 1))); [|lia].
        cbn [andb]. rewrite N.sub_diag, N.add_0_r. done.
      * rewrite lookup_insert_ne by done.
        destruct (N.leb_spec (idx + 1) j), (N.leb_spec idx j); try lia; cbn [andb]; [|done].
        destruct (N.ltb_spec j (idx + 1 + k)), (N.ltb_spec j (idx + (k + 1))); try lia; [|done].
        replace (m + 1 + (j - (idx + 1)))%N with (m + (j - idx))%N by lia. done.
    + intros j x Hj1 Hj2 Hjl. destruct (N.eq_dec j idx) as [->|Hne].
      * rewrite Hjl in Ec. destruct x as [l|]; [|done]. exists l. split; [done|]. unfold leaf_conflict in Ec.
        apply negb_false_iff, andb_true_iff in Ec as [E1 E2].
        apply N.eqb_eq in E1. apply bool_decide_eq_true in E2. split; [|done]. rewrite E1.
        by rewrite N.sub_diag, N.add_0_r.
      * destruct (Hold j x) as (l & -> & E1 & E2); [lia|lia|by rewrite lookup_insert_ne by done|].
        exists l. split_and!; try done. rewrite E1. do 2 f_equal. lia.
Qed.

Lemma large_loop_no_panic fuel : ∀ m0 idx pb ps mapped a,
  (∀ j, (idx <= j)%N → (LARGE * (j - idx) + mapped < ps)%N → m0 !! j = None) →
  is_panic (large_loop fuel m0 idx pb ps mapped a) = false ∧
  ∀ e, large_loop fuel m0 idx pb ps mapped a ≠ Err e.
Proof.
  induction fuel as [|fuel IH]; intros m0 idx pb ps mapped a H; [done|].
  rewrite large_loop_S.
  match goal with |- context [if ?c then (if _ then _ else _) else _] => destruct c eqn:Eg end; [|done].
  rewrite ?andb_true_iff, ?N.ltb_lt, ?N.leb_le in Eg.
  rewrite (H idx) by (rewrite ?N.sub_diag; lia).
  apply IH. intros j Hj1 Hj2. rewrite lookup_insert_ne by lia. apply H; nn; lia.
Qed.

Lemma huge_loop_S fuel m0 idx pb ps mapped a :
  huge_loop (S fuel) m0 idx pb ps mapped a =
  if (mapped <? ps)%N && (HUGE <=? ps - mapped)%N && (idx <? 512)%N then
    if match m0 !! idx with Some (P3Page l) => leaf_conflict l (pb + mapped) a | Some (P3Tab _) => true | None => false end then Panic
    else huge_loop fuel (<[idx := P3Page (mkLeaf (pb + mapped) (entry_flags true a))]> m0)
           (idx + 1) pb ps (mapped + HUGE) a
  else Ok (m0, mapped).
Proof. reflexivity. Qed.

Lemma huge_loop_ok fuel : ∀ m0 idx pb p m a m0' m',
  huge_loop fuel m0 idx pb (BASE * p) (HUGE * m) a = Ok (m0', m') →
  (idx <= 512)%N → (512 <= idx + N.of_nat fuel)%N → (HUGE * m <= BASE * p)%N →
  ∃ k, m' = (HUGE * (m + k))%N ∧ (idx + k <= 512)%N ∧ (HUGE * (m + k) <= BASE * p)%N ∧
    ((BASE * p < HUGE * (m + k) + HUGE)%N ∨ (idx + k = 512)%N) ∧
    (∀ j, m0' !! j = if (idx <=? j)%N && (j <? idx + k)%N
       then Some (P3Page (mkLeaf (pb + HUGE * (m + (j - idx))) (entry_flags true a))) else m0 !! j) ∧
    (∀ j x, (idx <= j)%N → (j < idx + k)%N → m0 !! j = Some x →
       ∃ l, x = P3Page l ∧ l_pa l = (pb + HUGE * (m + (j - idx)))%N ∧ from_flags (l_fl l) = a).
Proof.
  induction fuel as [|fuel IH]; intros m0 idx pb p m a m0' m' H Hi Hf Hm.
  - change (Ok (m0, (HUGE * m)%N) = Ok (m0', m')) in H. injection H as <- <-.
    exists 0%N. rewrite !N.add_0_r. split_and!; try done; try (intros; lia).
    intros j. destruct (N.leb_spec idx j), (N.ltb_spec j idx); try done; lia.
  - rewrite huge_loop_S in H.
    match type of H with context [if ?c then (if _ then _ else _) else _] => destruct c eqn:Eg end.
    2:{ injection H as <- <-. exists 0%N. rewrite !N.add_0_r. split_and!; try done; try (intros; lia).
        + rewrite ?andb_false_iff, ?N.ltb_ge, ?N.leb_gt in Eg. nn. lia.
        + intros j. destruct (N.leb_spec idx j), (N.ltb_spec j idx); try done; lia. }
    match type of H with context [if ?c then Panic else _] => destruct c eqn:Ec end; [done|].
    rewrite ?andb_true_iff, ?N.ltb_lt, ?N.leb_le in Eg.
    replace (HUGE * m + HUGE)%N with (HUGE * (m + 1))%N in H by lia.
    apply IH in H as (k & -> & Hk & Hkp & Hd & Hl & Hold); [|lia|lia|nn; lia].
    exists (k + 1)%N. replace (m + (k + 1))%N with (m + 1 + k)%N by lia.
    split_and!; try done; try lia.
    + intros j. rewrite Hl.
      destruct (N.eq_dec j idx) as [->|Hne].
      * rewrite lookup_insert.
        destruct (N.leb_spec (idx + 1) idx); [lia|]. cbn [andb].
        destruct (N.leb_spec idx idx); [|lia]. destruct (N.ltb_spec idx (idx + (k + 1))); [|lia].
        cbn [andb]. rewrite N.sub_diag, N.add_0_r. done.
      * rewrite lookup_insert_ne by done.
        destruct (N.leb_spec (idx + 1) j), (N.leb_spec idx j); try lia; cbn [andb]; [|done].
        destruct (N.ltb_spec j (idx + 1 + k)), (N.ltb_spec j (idx + (k + 1))); try lia; [|done].
        replace (m + 1 + (j - (idx + 1)))%N with (m + (j - idx))%N by lia. done.
    + intros j x Hj1 Hj2 Hjl. destruct (N.eq_dec j idx) as [->|Hne].
      * rewrite Hjl in Ec. destruct x as [l|]; [|done]. exists l. split; [done|]. unfold leaf_conflict in Ec.
        apply negb_false_iff, andb_true_iff in Ec as [E1 E2].
        apply N.eqb_eq in E1. apply bool_decide_eq_true in E2. split; [|done]. rewrite E1.
        by rewrite N.sub_diag, N.add_0_r.
      * destruct (Hold j x) as (l & -> & E1 & E2); [lia|lia|by rewrite lookup_insert_ne by done|].
        exists l. split_and!; try done. rewrite E1. do 2 f_equal. lia.
Qed.

Lemma huge_loop_no_panic fuel : ∀ m0 idx pb ps mapped a,
  (∀ j, (idx <= j)%N → (HUGE * (j - idx) + mapped < ps)%N → m0 !! j = None) →
  is_panic (huge_loop fuel m0 idx pb ps mapped a) = false ∧
  ∀ e, huge_loop fuel m0 idx pb ps mapped a ≠ Err e.
Proof.
  induction fuel as [|fuel IH]; intros m0 idx pb ps mapped a H; [done|].
  rewrite huge_loop_S.
  match goal with |- context [if ?c then (if _ then _ else _) else _] => destruct c eqn:Eg end; [|done].
  rewrite ?andb_true_iff, ?N.ltb_lt, ?N.leb_le in Eg.
  rewrite (H idx) by (rewrite ?N.sub_diag; lia).
  apply IH. intros j Hj1 Hj2. rewrite lookup_insert_ne by lia. apply H; nn; lia.
Qed.

(** ** One round of map_generic *)

(** In the new tree the [m] bytes from [vb] go to [pb] in pages of size [sz]; the rest is
    as before. *)
Definition seg (t t1 : gmap N (gmap N pdpte)) (vb pb m sz : N) (fl : flags) : Prop :=
  ∀ va, (va < 2 ^ 48)%N →
    walk t1 va = if (vb <=? va)%N && (va <? vb + m)%N
                 then Some (mkLeaf (pb + sz * ((va - vb) / sz)) fl, sz)
                 else walk t va.

Lemma rng_false vb va m : (va < vb ∨ vb + m <= va)%N →
  (vb <=? va)%N && (va <? vb + m)%N = false.
Proof. intros. destruct (N.leb_spec vb va), (N.ltb_spec va (vb + m)); try done; lia. Qed.
Lemma rng_true vb va m : (vb <= va ∧ va < vb + m)%N →
  (vb <=? va)%N && (va <? vb + m)%N = true.
Proof. intros. destruct (N.leb_spec vb va), (N.ltb_spec va (vb + m)); try done; lia. Qed.

Lemma seg_base t pdpt pd pt pt' vb pb k fl :
  (vb < 2 ^ 48)%N → (vb mod BASE = 0)%N → (i1 vb + k <= 512)%N →
  (∀ va, i4 va = i4 vb → w4 t va = w3 pdpt va) →
  (∀ va, i3 va = i3 vb → w3 pdpt va = w2 pd va) →
  (∀ va, i2 va = i2 vb → w2 pd va = w1 pt va) →
  (∀ j, pt' !! j = if (i1 vb <=? j)%N && (j <? i1 vb + k)%N
       then Some (mkLeaf (pb + BASE * (j - i1 vb)) fl) else pt !! j) →
  seg t (<[i4 vb := <[i3 vb := P3Tab (<[i2 vb := PDTab pt']> pd)]> pdpt]> t) vb pb (BASE * k) BASE fl.
Proof.
  intros Hvb Ha Hk H4 H3 H2 Hl va Hva.
  destruct (dec_va va Hva) as (Ev & ? & ? & ? & ? & ?).
  destruct (dec_va vb Hvb) as (Eb & ? & ? & ? & ? & ?).
  destruct (dec_mod vb Hvb) as (M2 & M3 & M4). rewrite Ha in Eb, M2, M3, M4.
  destruct (idx_ne va vb) as (N4 & N3 & N2).
  rewrite !walk_w4, w4_insert.
  destruct (N.eqb_spec (i4 vb) (i4 va)) as [E4|E4].
  2:{ rewrite rng_false; [done|]. apply (out_block _ _ _ SLOT); [done| |auto]. rewrite M4. nn. lia. }
  rewrite w3_insert. destruct (N.eqb_spec (i3 vb) (i3 va)) as [E3|E3].
  2:{ rewrite rng_false; [by rewrite H4|]. apply (out_block _ _ _ HUGE); [done| |auto]. rewrite M3. nn. lia. }
  rewrite w2_insert. destruct (N.eqb_spec (i2 vb) (i2 va)) as [E2|E2].
  2:{ rewrite rng_false; [by rewrite H4, H3|]. apply (out_block _ _ _ LARGE); [done| |auto]. rewrite M2. nn. lia. }
  rewrite H4, H3, H2 by done. unfold w1 at 1. rewrite Hl.
  destruct (N.leb_spec (i1 vb) (i1 va)), (N.ltb_spec (i1 va) (i1 vb + k)); cbn [andb].
  - rewrite rng_true by (dl va vb). do 5 f_equal.
    apply N.div_unique with (va mod BASE)%N; [done|]. dl va vb.
  - rewrite rng_false by (dl va vb). done.
  - rewrite rng_false by (dl va vb). done.
  - lia.
Qed.

Lemma seg_large t pdpt pd pd' vb pb k fl :
  (vb < 2 ^ 48)%N → vb = (SLOT * i4 vb + HUGE * i3 vb + LARGE * i2 vb)%N → (i2 vb + k <= 512)%N →
  (∀ va, i4 va = i4 vb → w4 t va = w3 pdpt va) →
  (∀ va, i3 va = i3 vb → w3 pdpt va = w2 pd va) →
  (∀ j, pd' !! j = if (i2 vb <=? j)%N && (j <? i2 vb + k)%N
       then Some (PDPage (mkLeaf (pb + LARGE * (j - i2 vb)) fl)) else pd !! j) →
  seg t (<[i4 vb := <[i3 vb := P3Tab pd']> pdpt]> t) vb pb (LARGE * k) LARGE fl.
Proof.
  intros Hvb Ha Hk H4 H3 Hl va Hva.
  destruct (dec_va va Hva) as (Ev & ? & ? & ? & ? & ?).
  destruct (dec_va vb Hvb) as (Eb & ? & ? & ? & ? & ?).
  destruct (dec_mod vb Hvb) as (M2 & M3 & M4).
  destruct (idx_ne va vb) as (N4 & N3 & N2).
  rewrite !walk_w4, w4_insert.
  destruct (N.eqb_spec (i4 vb) (i4 va)) as [E4|E4].
  2:{ rewrite rng_false; [done|]. apply (out_block _ _ _ SLOT); [done| |auto]. rewrite M4. nn. lia. }
  rewrite w3_insert. destruct (N.eqb_spec (i3 vb) (i3 va)) as [E3|E3].
  2:{ rewrite rng_false; [by rewrite H4|]. apply (out_block _ _ _ HUGE); [done| |auto]. rewrite M3. nn. lia. }
  rewrite H4, H3 by done. unfold w2 at 1. rewrite Hl.
  destruct (N.leb_spec (i2 vb) (i2 va)), (N.ltb_spec (i2 va) (i2 vb + k)); cbn [andb].
  - rewrite rng_true by (dl va vb). do 5 f_equal.
    apply N.div_unique with (va mod LARGE)%N; [by apply N.mod_lt|].
    destruct (dec_mod va Hva) as (-> & _ & _). dl va vb.
  - rewrite rng_false by (dl va vb). done.
  - rewrite rng_false by (dl va vb). done.
  - lia.
Qed.

Lemma seg_huge t pdpt pdpt' vb pb k fl :
  (vb < 2 ^ 48)%N → vb = (SLOT * i4 vb + HUGE * i3 vb)%N → (i3 vb + k <= 512)%N →
  (∀ va, i4 va = i4 vb → w4 t va = w3 pdpt va) →
  (∀ j, pdpt' !! j = if (i3 vb <=? j)%N && (j <? i3 vb + k)%N
       then Some (P3Page (mkLeaf (pb + HUGE * (j - i3 vb)) fl)) else pdpt !! j) →
  seg t (<[i4 vb := pdpt']> t) vb pb (HUGE * k) HUGE fl.
Proof.
  intros Hvb Ha Hk H4 Hl va Hva.
  destruct (dec_va va Hva) as (Ev & ? & ? & ? & ? & ?).
  destruct (dec_va vb Hvb) as (Eb & ? & ? & ? & ? & ?).
  destruct (dec_mod vb Hvb) as (M2 & M3 & M4).
  destruct (idx_ne va vb) as (N4 & N3 & N2).
  rewrite !walk_w4, w4_insert.
  destruct (N.eqb_spec (i4 vb) (i4 va)) as [E4|E4].
  2:{ rewrite rng_false; [done|]. apply (out_block _ _ _ SLOT); [done| |auto]. rewrite M4. nn. lia. }
  rewrite H4 by done. unfold w3 at 1. rewrite Hl.
  destruct (N.leb_spec (i3 vb) (i3 va)), (N.ltb_spec (i3 va) (i3 vb + k)); cbn [andb].
  - rewrite rng_true by (dl va vb). do 5 f_equal.
    apply N.div_unique with (va mod HUGE)%N; [by apply N.mod_lt|].
    destruct (dec_mod va Hva) as (_ & -> & _). dl va vb.
  - rewrite rng_false by (dl va vb). done.
  - rewrite rng_false by (dl va vb). done.
  - lia.
Qed.

Lemma tab_empty_true {A} (m : gmap N A) : tab_empty m = true ↔ ∀ i, (i < 512)%N → m !! i = None.
Proof.
  unfold tab_empty. rewrite forallb_forall. split.
  - intros H i Hi. specialize (H i). destruct (m !! i); [|done].
    exfalso. assert (false = true); [|done]. apply H, in_map_iff.
    exists (N.to_nat i). rewrite N2Nat.id, in_seq. split; [done|lia].
  - intros H i Hi. apply in_map_iff in Hi as (x & <- & Hx). apply in_seq in Hx.
    rewrite H; [done|]. lia.
Qed.
Lemma idx_lt va : (i4 va < 512 ∧ i3 va < 512 ∧ i2 va < 512 ∧ i1 va < 512)%N.
Proof. unfold i4, i3, i2, i1. split_and!; by apply N.mod_lt. Qed.

Lemma can_huge_ok pdpt vb pb ps b pdpt' : can_huge pdpt vb pb ps = Ok (b, pdpt') →
  (∀ va, w3 pdpt' va = w3 pdpt va) ∧ (b = false → pdpt' = pdpt) ∧
  (b = true → vb = (SLOT * i4 vb + HUGE * i3 vb)%N ∧ (pb mod HUGE = 0)%N ∧ (HUGE <= ps)%N ∧
     pdpt' !! i3 vb = None).
Proof.
  unfold can_huge.
  destruct (N.eqb_spec vb (SLOT * i4 vb + HUGE * i3 vb)) as [E1|E1]; cbn [negb orb].
  2:{ intros [= <- <-]. done. }
  destruct (N.eqb_spec (pb mod HUGE) 0) as [E2|E2]; cbn [negb orb].
  2:{ intros [= <- <-]. done. }
  destruct (N.leb_spec HUGE ps) as [E3|E3]; cbn [negb].
  2:{ intros [= <- <-]. done. }
  destruct (pdpt !! i3 vb) as [[l|pd]|] eqn:El; [done| |].
  - destruct (tab_empty pd) eqn:Es; intros [= <- <-]; [|done].
    rewrite tab_empty_true in Es.
    split; [|split; [done|intros _; split_and!; try done; by rewrite lookup_delete]].
    intros va. unfold w3. destruct (N.eq_dec (i3 vb) (i3 va)) as [<-|Hne].
    + rewrite lookup_delete, El. unfold w2. by rewrite Es by apply idx_lt.
    + by rewrite lookup_delete_ne.
  - intros [= <- <-]. done.
Qed.

Lemma can_large_ok lg pd vb pb ps b pd' : can_large lg pd vb pb ps = Ok (b, pd') →
  (∀ va, w2 pd' va = w2 pd va) ∧ (b = false → pd' = pd) ∧
  (b = true → lg = true ∧ vb = (SLOT * i4 vb + HUGE * i3 vb + LARGE * i2 vb)%N ∧ (pb mod LARGE = 0)%N ∧
     (LARGE <= ps)%N ∧ pd' !! i2 vb = None).
Proof.
  unfold can_large. destruct lg; cbn [negb orb].
  2:{ intros [= <- <-]. done. }
  destruct (N.eqb_spec vb (SLOT * i4 vb + HUGE * i3 vb + LARGE * i2 vb)) as [E1|E1]; cbn [negb orb].
  2:{ intros [= <- <-]. done. }
  destruct (N.eqb_spec (pb mod LARGE) 0) as [E2|E2]; cbn [negb orb].
  2:{ intros [= <- <-]. done. }
  destruct (N.leb_spec LARGE ps) as [E3|E3]; cbn [negb].
  2:{ intros [= <- <-]. done. }
  destruct (pd !! i2 vb) as [[l|pt]|] eqn:El; [done| |].
  - destruct (tab_empty pt) eqn:Es; intros [= <- <-]; [|done].
    rewrite tab_empty_true in Es.
    split; [|split; [done|intros _; split_and!; try done; by rewrite lookup_delete]].
    intros va. unfold w2. destruct (N.eq_dec (i2 vb) (i2 va)) as [<-|Hne].
    + rewrite lookup_delete, El. unfold w1. by rewrite Es by apply idx_lt.
    + by rewrite lookup_delete_ne.
  - intros [= <- <-]. done.
Qed.

(** Nothing in the range had another target or other rights. *)
Definition agrees (t : gmap N (gmap N pdpte)) (vb pb m : N) (a : mapact) : Prop :=
  ∀ va, (vb <= va)%N → (va < vb + m)%N → (va < 2 ^ 48)%N →
    pt_resolve t va = Err NotMapped ∨ pt_resolve t va = Ok ((pb + (va - vb))%N, a).

Definition is_page_size (sz : N) : Prop := sz = BASE ∨ sz = LARGE ∨ sz = HUGE.

Lemma base_loop0 m0 idx pb ps a m0' m' :
  base_loop 512 m0 idx pb ps 0 a = Ok (m0', m') → (ps mod BASE = 0)%N → (idx < 512)%N → (BASE <= ps)%N →
  ∃ k, (1 <= k)%N ∧ m' = (BASE * k)%N ∧ (idx + k <= 512)%N ∧ (BASE * k <= ps)%N ∧
    ((ps < BASE * k + BASE)%N ∨ (idx + k = 512)%N) ∧
    (∀ j, m0' !! j = if (idx <=? j)%N && (j <? idx + k)%N
       then Some ( (mkLeaf (pb + BASE * (j - idx)) (entry_flags false a))) else m0 !! j) ∧
    (∀ j x, (idx <= j)%N → (j < idx + k)%N → m0 !! j = Some x →
       ∃ l, x =  l ∧ l_pa l = (pb + BASE * (j - idx))%N ∧ from_flags (l_fl l) = a).
Proof.
  intros H Hps Hi Hge.
  assert (ps = (BASE * (ps / BASE))%N) as E.
  { rewrite (N.div_mod ps BASE) at 1 by done. by rewrite Hps, N.add_0_r. }
  rewrite E in H. change 0%N with (BASE * 0)%N in H.
  apply base_loop_ok in H as (k & Hm & Hk & Hkp & Hd & Hl & Hold); [|lia|lia|rewrite N.mul_0_r; lia].
  rewrite <- E in *. rewrite N.add_0_l in *. exists k. split_and!; try done.
  destruct (N.eq_0_gt_0_cases k) as [->|?]; [|lia]. rewrite N.mul_0_r in Hd. lia.
Qed.

Lemma large_loop0 m0 idx pb ps a m0' m' :
  large_loop 512 m0 idx pb ps 0 a = Ok (m0', m') → (ps mod BASE = 0)%N → (idx < 512)%N → (LARGE <= ps)%N →
  ∃ k, (1 <= k)%N ∧ m' = (LARGE * k)%N ∧ (idx + k <= 512)%N ∧ (LARGE * k <= ps)%N ∧
    ((ps < LARGE * k + LARGE)%N ∨ (idx + k = 512)%N) ∧
    (∀ j, m0' !! j = if (idx <=? j)%N && (j <? idx + k)%N
       then Some (PDPage (mkLeaf (pb + LARGE * (j - idx)) (entry_flags true a))) else m0 !! j) ∧
    (∀ j x, (idx <= j)%N → (j < idx + k)%N → m0 !! j = Some x →
       ∃ l, x = PDPage l ∧ l_pa l = (pb + LARGE * (j - idx))%N ∧ from_flags (l_fl l) = a).
Proof.
  intros H Hps Hi Hge.
  assert (ps = (BASE * (ps / BASE))%N) as E.
  { rewrite (N.div_mod ps BASE) at 1 by done. by rewrite Hps, N.add_0_r. }
  rewrite E in H. change 0%N with (LARGE * 0)%N in H.
  apply large_loop_ok in H as (k & Hm & Hk & Hkp & Hd & Hl & Hold); [|lia|lia|rewrite N.mul_0_r; lia].
  rewrite <- E in *. rewrite N.add_0_l in *. exists k. split_and!; try done.
  destruct (N.eq_0_gt_0_cases k) as [->|?]; [|lia]. rewrite N.mul_0_r in Hd. lia.
Qed.

Lemma huge_loop0 m0 idx pb ps a m0' m' :
  huge_loop 512 m0 idx pb ps 0 a = Ok (m0', m') → (ps mod BASE = 0)%N → (idx < 512)%N → (HUGE <= ps)%N →
  ∃ k, (1 <= k)%N ∧ m' = (HUGE * k)%N ∧ (idx + k <= 512)%N ∧ (HUGE * k <= ps)%N ∧
    ((ps < HUGE * k + HUGE)%N ∨ (idx + k = 512)%N) ∧
    (∀ j, m0' !! j = if (idx <=? j)%N && (j <? idx + k)%N
       then Some (P3Page (mkLeaf (pb + HUGE * (j - idx)) (entry_flags true a))) else m0 !! j) ∧
    (∀ j x, (idx <= j)%N → (j < idx + k)%N → m0 !! j = Some x →
       ∃ l, x = P3Page l ∧ l_pa l = (pb + HUGE * (j - idx))%N ∧ from_flags (l_fl l) = a).
Proof.
  intros H Hps Hi Hge.
  assert (ps = (BASE * (ps / BASE))%N) as E.
  { rewrite (N.div_mod ps BASE) at 1 by done. by rewrite Hps, N.add_0_r. }
  rewrite E in H. change 0%N with (HUGE * 0)%N in H.
  apply huge_loop_ok in H as (k & Hm & Hk & Hkp & Hd & Hl & Hold); [|lia|lia|rewrite N.mul_0_r; lia].
  rewrite <- E in *. rewrite N.add_0_l in *. exists k. split_and!; try done.
  destruct (N.eq_0_gt_0_cases k) as [->|?]; [|lia]. rewrite N.mul_0_r in Hd. lia.
Qed.

Lemma agr_base t pdpt pd pt vb pb k a :
  (vb < 2 ^ 48)%N → (vb mod BASE = 0)%N → (i1 vb + k <= 512)%N →
  (∀ va, i4 va = i4 vb → w4 t va = w3 pdpt va) →
  (∀ va, i3 va = i3 vb → w3 pdpt va = w2 pd va) →
  (∀ va, i2 va = i2 vb → w2 pd va = w1 pt va) →
  (∀ j x, (i1 vb <= j)%N → (j < i1 vb + k)%N → pt !! j = Some x →
     ∃ l, x = l ∧ l_pa l = (pb + BASE * (j - i1 vb))%N ∧ from_flags (l_fl l) = a) →
  agrees t vb pb (BASE * k) a.
Proof.
  intros Hvb Ha Hk H4 H3 H2 Hold va Hr1 Hr2 Hva.
  destruct (dec_va va Hva) as (Ev & ? & ? & ? & ? & ?).
  destruct (dec_va vb Hvb) as (Eb & ? & ? & ? & ? & ?).
  destruct (dec_mod vb Hvb) as (M2 & M3 & M4). rewrite Ha in Eb, M2, M3, M4.
  destruct (idx_ne va vb) as (N4 & N3 & N2).
  assert (i4 vb = i4 va) as E4.
  { destruct (N.eq_dec (i4 vb) (i4 va)) as [|Hn]; [done|].
    destruct (out_block vb va (BASE * k) SLOT); [done| |auto|lia|lia]. rewrite M4. cleardm; nn; lia. }
  assert (i3 vb = i3 va) as E3.
  { destruct (N.eq_dec (i3 vb) (i3 va)) as [|Hn]; [done|].
    destruct (out_block vb va (BASE * k) HUGE); [done| |auto|lia|lia]. rewrite M3. cleardm; nn; lia. }
  assert (i2 vb = i2 va) as E2.
  { destruct (N.eq_dec (i2 vb) (i2 va)) as [|Hn]; [done|].
    destruct (out_block vb va (BASE * k) LARGE); [done| |auto|lia|lia]. rewrite M2. cleardm; nn; lia. }
  unfold pt_resolve. rewrite walk_w4, H4, H3, H2 by done. unfold w1.
  destruct (pt !! i1 va) as [l|] eqn:El; [|by left].
  right. destruct (Hold (i1 va) l) as (l' & <- & Hpa & Hf); [dl va vb|dl va vb|done|].
  rewrite Hpa, Hf. do 2 f_equal. dl va vb.
Qed.

Lemma agr_large t pdpt pd vb pb k a :
  (vb < 2 ^ 48)%N → vb = (SLOT * i4 vb + HUGE * i3 vb + LARGE * i2 vb)%N → (i2 vb + k <= 512)%N →
  (∀ va, i4 va = i4 vb → w4 t va = w3 pdpt va) →
  (∀ va, i3 va = i3 vb → w3 pdpt va = w2 pd va) →
  (∀ j x, (i2 vb <= j)%N → (j < i2 vb + k)%N → pd !! j = Some x →
     ∃ l, x = PDPage l ∧ l_pa l = (pb + LARGE * (j - i2 vb))%N ∧ from_flags (l_fl l) = a) →
  agrees t vb pb (LARGE * k) a.
Proof.
  intros Hvb Ha Hk H4 H3 Hold va Hr1 Hr2 Hva.
  destruct (dec_va va Hva) as (Ev & ? & ? & ? & ? & ?).
  destruct (dec_va vb Hvb) as (Eb & ? & ? & ? & ? & ?).
  destruct (dec_mod vb Hvb) as (M2 & M3 & M4).
  destruct (idx_ne va vb) as (N4 & N3 & N2).
  assert (i4 vb = i4 va) as E4.
  { destruct (N.eq_dec (i4 vb) (i4 va)) as [|Hn]; [done|].
    destruct (out_block vb va (LARGE * k) SLOT); [done| |auto|lia|lia]. rewrite M4. nn; lia. }
  assert (i3 vb = i3 va) as E3.
  { destruct (N.eq_dec (i3 vb) (i3 va)) as [|Hn]; [done|].
    destruct (out_block vb va (LARGE * k) HUGE); [done| |auto|lia|lia]. rewrite M3. nn; lia. }
  unfold pt_resolve. rewrite walk_w4, H4, H3 by done. unfold w2.
  destruct (pd !! i2 va) as [x|] eqn:El; [|by left].
  right. destruct (Hold (i2 va) x) as (l' & -> & Hpa & Hf); [dl va vb|dl va vb|done|].
  rewrite Hpa, Hf. do 2 f_equal. destruct (dec_mod va Hva) as (-> & _ & _). dl va vb.
Qed.

Lemma agr_huge t pdpt vb pb k a :
  (vb < 2 ^ 48)%N → vb = (SLOT * i4 vb + HUGE * i3 vb)%N → (i3 vb + k <= 512)%N →
  (∀ va, i4 va = i4 vb → w4 t va = w3 pdpt va) →
  (∀ j x, (i3 vb <= j)%N → (j < i3 vb + k)%N → pdpt !! j = Some x →
     ∃ l, x = P3Page l ∧ l_pa l = (pb + HUGE * (j - i3 vb))%N ∧ from_flags (l_fl l) = a) →
  agrees t vb pb (HUGE * k) a.
Proof.
  intros Hvb Ha Hk H4 Hold va Hr1 Hr2 Hva.
  destruct (dec_va va Hva) as (Ev & ? & ? & ? & ? & ?).
  destruct (dec_va vb Hvb) as (Eb & ? & ? & ? & ? & ?).
  destruct (dec_mod vb Hvb) as (M2 & M3 & M4).
  destruct (idx_ne va vb) as (N4 & N3 & N2).
  assert (i4 vb = i4 va) as E4.
  { destruct (N.eq_dec (i4 vb) (i4 va)) as [|Hn]; [done|].
    destruct (out_block vb va (HUGE * k) SLOT); [done| |auto|lia|lia]. rewrite M4. nn; lia. }
  unfold pt_resolve. rewrite walk_w4, H4 by done. unfold w3.
  destruct (pdpt !! i3 va) as [x|] eqn:El; [|by left].
  right. destruct (Hold (i3 va) x) as (l' & -> & Hpa & Hf); [dl va vb|dl va vb|done|].
  rewrite Hpa, Hf. do 2 f_equal. destruct (dec_mod va Hva) as (_ & -> & _). dl va vb.
Qed.

(** One round: the tree after it, the number of tables allocated so far, the page size and
    the number of pages of the chunk. *)
Definition round (lg : bool) (t : gmap N (gmap N pdpte)) (n : nat) (vb pb ps : N) (a : mapact)
    (t1 : gmap N (gmap N pdpte)) (n1 : nat) (sz k : N) : Prop :=
  is_page_size sz ∧ (1 <= k)%N ∧ (sz * k <= ps)%N ∧ (vb mod sz = 0)%N ∧ (pb mod sz = 0)%N ∧
  (lg = false → sz ≠ LARGE) ∧ n1 <= n + 3 ∧
  seg t t1 vb pb (sz * k) sz (entry_flags (bool_decide (sz ≠ BASE)) a) ∧
  agrees t vb pb (sz * k) a.

Lemma step_ok lg f t n vb pb ps a t2 n2 :
  map_generic lg (S f) t n vb pb ps a = Ok (t2, n2) → (vb < 2 ^ 48)%N → (0 < ps)%N →
  (pb mod BASE = 0)%N ∧ (vb mod BASE = 0)%N ∧ (ps mod BASE = 0)%N ∧
  ∃ t1 n1 sz k, round lg t n vb pb ps a t1 n1 sz k ∧
    ((sz * k = ps)%N ∧ t2 = t1 ∧ n2 = n1 ∨
     (sz * k < ps)%N ∧ map_generic lg f t1 n1 (vb + sz * k) (pb + sz * k) (ps - sz * k) a = Ok (t2, n2)).
Proof.
  intros H Hvb Hps. unfold map_generic in H; fold map_generic in H.
  destruct (N.eqb_spec (pb mod BASE) 0) as [A1|]; [|done].
  destruct (N.eqb_spec (vb mod BASE) 0) as [A2|]; [|done].
  destruct (N.eqb_spec (ps mod BASE) 0) as [A3|]; [|done]. cbn [negb orb] in H.
  split; [done|]. split; [done|]. split; [done|].
  destruct (dec_va vb Hvb) as (Eb & I4 & I3 & I2 & I1 & Ir).
  assert (BASE <= ps)%N as Hps'.
  { destruct (N.le_gt_cases BASE ps) as [|Hlt]; [done|]. rewrite N.mod_small in A3 by done. lia. }
  destruct (match t !! i4 vb with Some p => (p, n) | None => (∅, S n) end) as [pdpt n0] eqn:Ep.
  assert ((∀ va, i4 va = i4 vb → w4 t va = w3 pdpt va) ∧ n0 <= n + 1) as [H4 Hn0].
  { destruct (t !! i4 vb) as [p|] eqn:E; injection Ep as <- <-; (split; [|lia]);
      intros va Hv; unfold w4; rewrite Hv, E; [done|by rewrite w3_empty]. }
  clear Ep.
  destruct (can_huge pdpt vb pb ps) as [[[] pdpt1]| |] eqn:Ech; [| |done|done].
  - apply can_huge_ok in Ech as (W & _ & Ht). destruct Ht as (B1 & B2 & B3 & _); [done|].
    destruct (huge_loop 512 pdpt1 (i3 vb) pb ps 0 a) as [[pdpt' mapped]| |] eqn:El; [|done|done].
    apply huge_loop0 in El as (k & K1 & -> & K2 & K3 & _ & Hl & Hold); [|done|done|done].
    exists (<[i4 vb := pdpt']> t), n0, HUGE, k. split.
    + repeat split; try done; try lia.
      * by right; right.
      * rewrite B1. symmetry. apply (N.mod_unique _ _ (512 * i4 vb + i3 vb)%N); nn; lia.
      * apply (seg_huge t pdpt1); try done. intros va E. by rewrite H4, W.
      * apply (agr_huge t pdpt1); try done. intros va E. by rewrite H4, W.
    + destruct (N.eqb_spec (HUGE * k) ps) as [E|E]; [left; by injection H as <- <-|right].
      split; [lia|done].
  - apply can_huge_ok in Ech as (_ & Hf & _). specialize (Hf eq_refl) as ->.
    destruct (match pdpt !! i3 vb with None => Ok (∅, S n0) | Some (P3Tab pd) => Ok (pd, n0)
              | Some (P3Page _) => Panic end) as [[pd n1]| |] eqn:Ep; [|done|done].
    assert ((∀ va, i3 va = i3 vb → w3 pdpt va = w2 pd va) ∧ n1 <= n + 2) as [H3 Hn1].
    { destruct (pdpt !! i3 vb) as [[l|p]|] eqn:E; try done; injection Ep as <- <-; (split; [|lia]);
        intros va Hv; unfold w3; rewrite Hv, E; [done|by rewrite w2_empty]. }
    clear Ep.
    destruct (can_large lg pd vb pb ps) as [[[] pd1]| |] eqn:Ecl; [| |done|done].
    + apply can_large_ok in Ecl as (W & _ & Ht). destruct Ht as (-> & B1 & B2 & B3 & _); [done|].
      destruct (large_loop 512 pd1 (i2 vb) pb ps 0 a) as [[pd' mapped]| |] eqn:El; [|done|done].
      apply large_loop0 in El as (k & K1 & -> & K2 & K3 & _ & Hl & Hold); [|done|done|done].
      exists (<[i4 vb := <[i3 vb := P3Tab pd']> pdpt]> t), n1, LARGE, k. split.
      * repeat split; try done; try lia.
        -- by right; left.
        -- rewrite B1. symmetry. apply (N.mod_unique _ _ (262144 * i4 vb + 512 * i3 vb + i2 vb)%N); nn; lia.
        -- apply (seg_large t pdpt pd1); try done. intros va E. by rewrite H3, W.
        -- apply (agr_large t pdpt pd1); try done. intros va E. by rewrite H3, W.
      * destruct (N.eqb_spec (LARGE * k) ps) as [E|E]; [left; by injection H as <- <-|right].
        split; [lia|done].
    + apply can_large_ok in Ecl as (_ & Hf & _). specialize (Hf eq_refl) as ->.
      destruct (match pd !! i2 vb with None => Ok (∅, S n1) | Some (PDTab pt) => Ok (pt, n1)
                | Some (PDPage _) => Panic end) as [[pt n2']| |] eqn:Ep; [|done|done].
      assert ((∀ va, i2 va = i2 vb → w2 pd va = w1 pt va) ∧ n2' <= n + 3) as [H2 Hn2].
      { destruct (pd !! i2 vb) as [[l|p]|] eqn:E; try done; injection Ep as <- <-; (split; [|lia]);
          intros va Hv; unfold w2; rewrite Hv, E; [done|by rewrite w1_empty]. }
      clear Ep.
      destruct (base_loop 512 pt (i1 vb) pb ps 0 a) as [[pt' mapped]| |] eqn:El; [|done|done].
      apply base_loop0 in El as (k & K1 & -> & K2 & K3 & _ & Hl & Hold); [|done|done|done].
      exists (<[i4 vb := <[i3 vb := P3Tab (<[i2 vb := PDTab pt']> pd)]> pdpt]> t), n2', BASE, k. split.
      * repeat split; try done; try lia.
        -- by left.
        -- by apply (seg_base t pdpt pd pt).
        -- by apply (agr_base t pdpt pd pt).
      * destruct (N.eqb_spec (BASE * k) ps) as [E|E]; [left; by injection H as <- <-|right].
        split; [lia|done].
Qed.

(** ** The view after a map *)

(** What the hardware entry says about requested rights [a]. *)
Definition seen (a : mapact) : mapact :=
  MA true (ma_write a) (ma_exec a) (ma_kernel a) false (ma_alias a).
Lemma from_entry b a : from_flags (entry_flags b a) = seen a.
Proof. by destruct b, a as [[] [] [] [] [] []]. Qed.

Lemma seg_resolve t t1 vb pb m sz b a va :
  seg t t1 vb pb m sz (entry_flags b a) → (0 < sz)%N → (vb mod sz = 0)%N → (va < 2 ^ 48)%N →
  pt_resolve t1 va = if (vb <=? va)%N && (va <? vb + m)%N then Ok ((pb + (va - vb))%N, seen a)
                     else pt_resolve t va.
Proof.
  intros H Hsz Hal Hva. unfold pt_resolve at 1. rewrite (H va Hva).
  destruct ((vb <=? va)%N && (va <? vb + m)%N) eqn:E; [|done].
  apply andb_true_iff in E as [E _]. apply N.leb_le in E.
  cbn [l_pa l_fl]. rewrite from_entry. do 2 f_equal.
  assert (va mod sz = (va - vb) mod sz)%N as ->.
  { replace va with ((va - vb) + (vb / sz) * sz)%N at 1.
    - by rewrite N.mod_add by lia.
    - pose proof (N.div_mod vb sz ltac:(lia)) as D. rewrite Hal in D. lia. }
  pose proof (N.div_mod (va - vb) sz ltac:(lia)). lia.
Qed.

Lemma page_size_pos sz : is_page_size sz → (0 < sz)%N.
Proof. by intros [-> | [-> | ->]]. Qed.

Lemma map_generic_view lg f : ∀ t n vb pb ps a t2 n2,
  map_generic lg f t n vb pb ps a = Ok (t2, n2) → (0 < ps)%N → (vb + ps <= 2 ^ 48)%N →
  (∀ va, (va < 2 ^ 48)%N →
    pt_resolve t2 va = if (vb <=? va)%N && (va <? vb + ps)%N then Ok ((pb + (va - vb))%N, seen a)
                       else pt_resolve t va) ∧
  agrees t vb pb ps a.
Proof.
  induction f as [|f IH]; intros t n vb pb ps a t2 n2 H Hps Hb; [done|].
  apply step_ok in H as (A1 & A2 & A3 & t1 & n1 & sz & k & Hr & Hn); [|lia|done].
  destruct Hr as (Hsz & Hk & Hkp & Hv & Hp & _ & _ & Hseg & Hag).
  apply page_size_pos in Hsz as Hpos.
  destruct Hn as [(E & -> & ->)|(Hlt & Hrec)].
  - rewrite E in *. split; [|done]. intros va Hva. by eapply seg_resolve.
  - set (m := (sz * k)%N) in *.
    assert (0 < m)%N by (unfold m; nia).
    apply IH in Hrec as [Hview Hag2]; [|lia|lia]. split.
    + intros va Hva. rewrite (Hview va Hva).
      rewrite (seg_resolve _ _ _ _ _ _ _ _ va Hseg Hpos Hv Hva).
      destruct (N.leb_spec vb va), (N.ltb_spec va (vb + ps)), (N.leb_spec (vb + m) va),
        (N.ltb_spec va (vb + m + (ps - m))), (N.ltb_spec va (vb + m)); cbn [andb]; try lia; try done.
      do 2 f_equal. lia.
    + intros va R1 R2 Hva. destruct (N.lt_ge_cases va (vb + m)) as [Hl|Hl].
      * by apply Hag.
      * destruct (Hag2 va) as [R|R]; [lia|lia|done| |];
          rewrite (seg_resolve _ _ _ _ _ _ _ _ va Hseg Hpos Hv Hva) in R;
          rewrite rng_false in R by lia; rewrite R; [by left|right].
        do 2 f_equal. lia.
Qed.

(** The fuel of [pt_map] is enough: more fuel does not change the result. *)
Lemma map_generic_fuel lg f : ∀ f' t n vb pb ps a,
  (ps / BASE < N.of_nat f)%N → (ps / BASE < N.of_nat f')%N → (0 < ps)%N →
  map_generic lg f t n vb pb ps a = map_generic lg f' t n vb pb ps a.
Proof.
  induction f as [|f IH]; intros f' t n vb pb ps a H1 H2 Hps; [by apply N.nlt_0_r in H1|].
  destruct f' as [|f']; [by apply N.nlt_0_r in H2|].
  unfold map_generic; fold map_generic.
  destruct (N.eqb_spec (pb mod BASE) 0) as [A1|]; [|done].
  destruct (N.eqb_spec (vb mod BASE) 0) as [A2|]; [|done].
  destruct (N.eqb_spec (ps mod BASE) 0) as [A3|]; [|done]. cbn [negb orb].
  assert (BASE <= ps)%N as Hps'.
  { destruct (N.le_gt_cases BASE ps) as [|Hlt]; [done|]. rewrite N.mod_small in A3 by done. lia. }
  assert (∀ m, (BASE <= m)%N → (m <= ps)%N → m ≠ ps → ∀ t n vb pb,
    map_generic lg f t n vb pb (ps - m) a = map_generic lg f' t n vb pb (ps - m) a) as Hrec.
  { intros m M1 M2 M3 t0 n0 vb0 pb0.
    assert ((ps - m) / BASE < ps / BASE)%N as Hlt.
    { apply N.div_lt_upper_bound; [done|].
      pose proof (N.div_mod ps BASE ltac:(done)) as D. rewrite A3 in D. nn. lia. }
    assert (0 < ps - m)%N by lia.
    assert ((ps - m) / BASE < N.of_nat f ∧ (ps - m) / BASE < N.of_nat f')%N as [? ?].
    { revert H1 H2 Hlt. generalize ((ps - m) / BASE)%N (ps / BASE)%N. clear. intros. lia. }
    by apply IH. }
  destruct (idx_lt vb) as (I4 & I3 & I2 & I1).
  destruct (match t !! i4 vb with Some p => (p, n) | None => (∅, S n) end) as [pdpt n0].
  destruct (can_huge pdpt vb pb ps) as [[[] pdpt1]| |] eqn:Ech; [| |done|done].
  - apply can_huge_ok in Ech as (_ & _ & Ht). destruct Ht as (B1 & B2 & B3 & _); [done|].
    destruct (huge_loop 512 pdpt1 (i3 vb) pb ps 0 a) as [[pdpt' mapped]| |] eqn:El; [|done|done].
    apply huge_loop0 in El as (k & K1 & -> & K2 & K3 & _); [|done|done|done].
    destruct (N.eqb_spec (HUGE * k) ps) as [E|E]; [done|]. apply Hrec; [nn; lia|done|done].
  - destruct (match pdpt1 !! i3 vb with None => Ok (∅, S n0) | Some (P3Tab pd) => Ok (pd, n0)
              | Some (P3Page _) => Panic end) as [[pd n1]| |]; [|done|done].
    destruct (can_large lg pd vb pb ps) as [[[] pd1]| |] eqn:Ecl; [| |done|done].
    + apply can_large_ok in Ecl as (W & _ & Ht). destruct Ht as (-> & B1 & B2 & B3 & _); [done|].
      destruct (large_loop 512 pd1 (i2 vb) pb ps 0 a) as [[pd' mapped]| |] eqn:El; [|done|done].
      apply large_loop0 in El as (k & K1 & -> & K2 & K3 & _); [|done|done|done].
      destruct (N.eqb_spec (LARGE * k) ps) as [E|E]; [done|]. apply Hrec; [nn; lia|done|done].
    + destruct (match pd1 !! i2 vb with None => Ok (∅, S n1) | Some (PDTab pt) => Ok (pt, n1)
                | Some (PDPage _) => Panic end) as [[pt n2']| |]; [|done|done].
      destruct (base_loop 512 pt (i1 vb) pb ps 0 a) as [[pt' mapped]| |] eqn:El; [|done|done].
      apply base_loop0 in El as (k & K1 & -> & K2 & K3 & _); [|done|done|done].
      destruct (N.eqb_spec (BASE * k) ps) as [E|E]; [done|]. apply Hrec; [nn; lia|done|done].
Qed.

(** ** Page-sized frames over unmapped addresses *)

Definition unmapped (t : gmap N (gmap N pdpte)) (vb m : N) : Prop :=
  ∀ va, (vb <= va)%N → (va < vb + m)%N → (va < 2 ^ 48)%N → walk t va = None.

Lemma i_add vb d :
  (vb < 2 ^ 48)%N → vb = (SLOT * i4 vb + HUGE * i3 vb + LARGE * i2 vb)%N → (d < 512)%N →
  (vb + BASE * d < 2 ^ 48)%N ∧ i4 (vb + BASE * d) = i4 vb ∧ i3 (vb + BASE * d) = i3 vb ∧ i2 (vb + BASE * d) = i2 vb ∧
  i1 (vb + BASE * d) = d.
Proof.
  intros Hv E Hd. destruct (dec_va vb Hv) as (_ & I4 & I3 & I2 & _ & _).
  assert ((vb + BASE * d) < 2 ^ 48)%N as Hlt.
  { revert E I4 I3 I2. generalize (i4 vb) (i3 vb) (i2 vb). intros x y z ? ? ? ?. subst. nn. lia. }
  destruct (dec_va _ Hlt) as (E' & J4 & J3 & J2 & J1 & Jr).
  split; [done|]. clear Hlt Hv.
  revert E' J4 J3 J2 J1 Jr E I4 I3 I2.
  generalize ((vb + BASE * d) mod BASE)%N (i4 (vb + BASE * d)) (i3 (vb + BASE * d)) (i2 (vb + BASE * d))
    (i1 (vb + BASE * d)) (i4 vb) (i3 vb) (i2 vb). intros.
  assert (n0 = n4)%N by (nn; lia). assert (n1 = n5)%N by (nn; lia). assert (n2 = n6)%N by (nn; lia).
  nn; split_and!; lia.
Qed.

Lemma map_page_ok lg t n f vb pb sz a :
  (sz = BASE ∨ sz = LARGE ∧ lg = true) → (vb mod sz = 0)%N → (pb mod sz = 0)%N → (vb + sz <= 2 ^ 48)%N →
  unmapped t vb sz →
  ∃ t1 n1, map_generic lg (S f) t n vb pb sz a = Ok (t1, n1) ∧ n1 <= n + 3 ∧
    seg t t1 vb pb sz sz (entry_flags (bool_decide (sz ≠ BASE)) a).
Proof.
  intros Hsz Hv Hp Hb Hun.
  assert (vb < 2 ^ 48)%N as Hvb by (nn; lia).
  assert (walk t vb = None) as Hw by (apply Hun; nn; lia).
  assert (vb mod BASE = 0 ∧ pb mod BASE = 0 ∧ sz mod BASE = 0)%N as (A1 & A2 & A3).
  { destruct Hsz as [-> | [-> _]]; [done|].
    assert (∀ x, x mod LARGE = 0 → x mod BASE = 0)%N as Hd.
    { intros x Hx. apply N.mod_divide in Hx; [|done]. apply N.mod_divide; [done|].
      etransitivity; [|exact Hx]. by exists 512%N. }
    split_and!; auto. }
  destruct (dec_va vb Hvb) as (Eb & I4 & I3 & I2 & I1 & Ir).
  unfold map_generic; fold map_generic. rewrite A1, A2, A3, N.eqb_refl. cbn [negb orb].
  destruct (match t !! i4 vb with Some p => (p, n) | None => (∅, S n) end) as [pdpt n0] eqn:Ep.
  assert ((∀ va, i4 va = i4 vb → w4 t va = w3 pdpt va) ∧ n0 <= n + 1) as [H4 Hn0].
  { destruct (t !! i4 vb) as [p|] eqn:E; injection Ep as <- <-; (split; [|lia]);
      intros va Hva; unfold w4; rewrite Hva, E; [done|by rewrite w3_empty]. }
  clear Ep. rewrite walk_w4, H4 in Hw by done.
  assert (can_huge pdpt vb pb sz = Ok (false, pdpt)) as ->.
  { unfold can_huge. assert ((HUGE <=? sz)%N = false) as -> by (apply N.leb_gt; nn; lia).
    by rewrite orb_true_r. }
  assert (∃ pd n1, match pdpt !! i3 vb with None => Ok (∅, S n0) | Some (P3Tab pd) => Ok (pd, n0)
    | Some (P3Page _) => Panic end = Ok (pd, n1) ∧ (∀ va, i3 va = i3 vb → w3 pdpt va = w2 pd va) ∧ n1 <= n + 2)
    as (pd & n1 & -> & H3 & Hn1).
  { unfold w3 in *. destruct (pdpt !! i3 vb) as [[l|p]|] eqn:E; [done| |].
    - exists p, n0. split_and!; [done| |lia]. intros va Hva. by rewrite Hva, E.
    - exists ∅, (S n0). split_and!; [done| |lia]. intros va Hva. by rewrite Hva, E, w2_empty. }
  rewrite H3 in Hw by done.
  destruct Hsz as [-> | [-> ->]].
  - assert (can_large lg pd vb pb BASE = Ok (false, pd)) as ->.
    { unfold can_large. assert ((LARGE <=? BASE)%N = false) as -> by done. by rewrite orb_true_r. }
    assert (∃ pt n2, match pd !! i2 vb with None => Ok (∅, S n1) | Some (PDTab pt) => Ok (pt, n1)
      | Some (PDPage _) => Panic end = Ok (pt, n2) ∧ (∀ va, i2 va = i2 vb → w2 pd va = w1 pt va) ∧ n2 <= n + 3)
      as (pt & n2 & -> & H2 & Hn2).
    { unfold w2 in *. destruct (pd !! i2 vb) as [[l|p]|] eqn:E; [done| |].
      - exists p, n1. split_and!; [done| |lia]. intros va Hva. by rewrite Hva, E.
      - exists ∅, (S n1). split_and!; [done| |lia]. intros va Hva. by rewrite Hva, E, w1_empty. }
    rewrite H2 in Hw by done.
    destruct (base_loop_no_panic 512 pt (i1 vb) pb BASE 0 a) as [NP NE].
    { intros j J1 J2. assert (j = i1 vb) as -> by (nn; lia). unfold w1 in Hw. by destruct (pt !! i1 vb). }
    destruct (base_loop 512 pt (i1 vb) pb BASE 0 a) as [[pt' mapped]| |] eqn:El; [|by destruct (NE e)|done].
    apply base_loop0 in El as (k & K1 & -> & K2 & K3 & _ & Hl & _); [|done|done|done].
    assert (k = 1%N) as -> by (nn; lia).
    rewrite N.mul_1_r, N.eqb_refl. eexists _, n2. split; [done|]. split; [done|].
    rewrite <- (N.mul_1_r BASE) at 1. by apply (seg_base t pdpt pd pt).
  - assert (vb = SLOT * i4 vb + HUGE * i3 vb + LARGE * i2 vb)%N as B1.
    { destruct (dec_mod vb Hvb) as (M2 & _ & _). rewrite Hv in M2.
      rewrite A1 in *. nn. lia. }
    assert (∃ pd1, can_large true pd vb pb LARGE = Ok (true, pd1) ∧ pd1 !! i2 vb = None ∧
      ∀ va, w2 pd1 va = w2 pd va) as (pd1 & Hcl & Hpd1 & W).
    { assert (∃ x, can_large true pd vb pb LARGE = Ok (true, x)) as [pd1 Hcl].
      { unfold can_large. rewrite <- B1, N.eqb_refl, Hp. cbn [negb orb N.eqb N.leb].
        change (negb (LARGE <=? LARGE)%N) with false.
        destruct (pd !! i2 vb) as [[l|pt]|] eqn:E2.
        - unfold w2 in Hw. by rewrite E2 in Hw.
        - assert (tab_empty pt = true) as ->; [|by eexists].
          apply tab_empty_true. intros d Hd.
          destruct (i_add vb d Hvb B1 Hd) as (Hlt & J4 & J3 & J2 & J1).
          assert (walk t (vb + BASE * d) = None) as Hx by (apply Hun; nn; lia).
          rewrite walk_w4, H4, H3 in Hx by done. unfold w2 in Hx. rewrite J2, E2 in Hx.
          unfold w1 in Hx. rewrite J1 in Hx. by destruct (pt !! d).
        - by eexists. }
      exists pd1. split; [done|]. apply can_large_ok in Hcl as (W & _ & Ht).
      destruct Ht as (_ & _ & _ & _ & Hn); done. }
    rewrite Hcl.
    destruct (large_loop_no_panic 512 pd1 (i2 vb) pb LARGE 0 a) as [NP NE].
    { intros j J1 J2. assert (j = i2 vb) as -> by (nn; lia). done. }
    destruct (large_loop 512 pd1 (i2 vb) pb LARGE 0 a) as [[pd' mapped]| |] eqn:El; [|by destruct (NE e)|done].
    apply large_loop0 in El as (k & K1 & -> & K2 & K3 & _ & Hl & _); [|done|done|done].
    assert (k = 1%N) as -> by (nn; lia).
    rewrite N.mul_1_r, N.eqb_refl. eexists _, n1. split; [done|]. split; [lia|].
    rewrite <- (N.mul_1_r LARGE) at 1. apply (seg_large t pdpt pd1); try done.
    intros va E. by rewrite H3, W.
Qed.

(** ** modify_generic *)

Lemma div_chain va : (va < 2 ^ 48)%N →
  (va / SLOT = i4 va ∧ va / HUGE = 512 * (va / SLOT) + i3 va ∧
   va / LARGE = 512 * (va / HUGE) + i2 va ∧ va / BASE = 512 * (va / LARGE) + i1 va)%N.
Proof.
  intros H. unfold i4, i3, i2, i1. split_and!.
  - rewrite N.mod_small; [done|]. apply N.div_lt_upper_bound; [done|]. nn; lia.
  - replace (va / SLOT)%N with (va / HUGE / 512)%N by (rewrite N.div_div by done; done). by apply N.div_mod.
  - replace (va / HUGE)%N with (va / LARGE / 512)%N by (rewrite N.div_div by done; done). by apply N.div_mod.
  - replace (va / LARGE)%N with (va / BASE / 512)%N by (rewrite N.div_div by done; done). by apply N.div_mod.
Qed.

Lemma blk va vb : (va < 2 ^ 48)%N → (vb < 2 ^ 48)%N →
  ((va / HUGE = vb / HUGE ↔ i4 va = i4 vb ∧ i3 va = i3 vb) ∧
   (va / LARGE = vb / LARGE ↔ i4 va = i4 vb ∧ i3 va = i3 vb ∧ i2 va = i2 vb) ∧
   (va / BASE = vb / BASE ↔ i4 va = i4 vb ∧ i3 va = i3 vb ∧ i2 va = i2 vb ∧ i1 va = i1 vb))%N.
Proof.
  intros Ha Hb. destruct (div_chain va Ha) as (A4 & A3 & A2 & A1).
  destruct (div_chain vb Hb) as (B4 & B3 & B2 & B1).
  destruct (idx_lt va) as (? & ? & ? & ?). destruct (idx_lt vb) as (? & ? & ? & ?).
  revert A4 A3 A2 A1 B4 B3 B2 B1.
  generalize (va / SLOT)%N (va / HUGE)%N (va / LARGE)%N (va / BASE)%N
    (vb / SLOT)%N (vb / HUGE)%N (vb / LARGE)%N (vb / BASE)%N. intros.
  split_and!; lia.
Qed.

Lemma div_HUGE va vb : (va < 2 ^ 48)%N → (vb < 2 ^ 48)%N →
  (va / HUGE =? vb / HUGE)%N = (i4 va =? i4 vb)%N && (i3 va =? i3 vb)%N.
Proof.
  intros Ha Hb. destruct (blk va vb Ha Hb) as (B & _ & _).
  destruct (N.eqb_spec (va / HUGE) (vb / HUGE)) as [E|E].
  - apply B in E as [-> ->]. by rewrite !N.eqb_refl.
  - symmetry. apply not_true_iff_false. rewrite andb_true_iff, !N.eqb_eq. tauto.
Qed.
Lemma div_LARGE va vb : (va < 2 ^ 48)%N → (vb < 2 ^ 48)%N →
  (va / LARGE =? vb / LARGE)%N = (i4 va =? i4 vb)%N && (i3 va =? i3 vb)%N && (i2 va =? i2 vb)%N.
Proof.
  intros Ha Hb. destruct (blk va vb Ha Hb) as (_ & B & _).
  destruct (N.eqb_spec (va / LARGE) (vb / LARGE)) as [E|E].
  - apply B in E as (-> & -> & ->). by rewrite !N.eqb_refl.
  - symmetry. apply not_true_iff_false. rewrite !andb_true_iff, !N.eqb_eq. tauto.
Qed.
Lemma div_BASE va vb : (va < 2 ^ 48)%N → (vb < 2 ^ 48)%N →
  (va / BASE =? vb / BASE)%N = (i4 va =? i4 vb)%N && (i3 va =? i3 vb)%N && (i2 va =? i2 vb)%N && (i1 va =? i1 vb)%N.
Proof.
  intros Ha Hb. destruct (blk va vb Ha Hb) as (_ & _ & B).
  destruct (N.eqb_spec (va / BASE) (vb / BASE)) as [E|E].
  - apply B in E as (-> & -> & -> & ->). by rewrite !N.eqb_refl.
  - symmetry. apply not_true_iff_false. rewrite !andb_true_iff, !N.eqb_eq. tauto.
Qed.

Lemma page_block t va l sz :
  walk t va = Some (l, sz) → (va < 2 ^ 48)%N → is_page_size sz ∧
  ∀ va', (va' < 2 ^ 48)%N → (va' / sz = va / sz)%N → walk t va' = Some (l, sz).
Proof.
  intros Hw Hva. rewrite walk_w4 in Hw. unfold w4, w3, w2, w1 in Hw.
  destruct (t !! i4 va) as [pdpt|] eqn:E4; [|done].
  destruct (pdpt !! i3 va) as [[l0|pd]|] eqn:E3; [| |done].
  { injection Hw as <- <-. split; [by right; right|]. intros va' Hva' E.
    apply (blk va' va) in E as (J4 & J3); [|done|done].
    rewrite walk_w4. unfold w4, w3. by rewrite J4, E4, J3, E3. }
  destruct (pd !! i2 va) as [[l0|pt]|] eqn:E2; [| |done].
  { injection Hw as <- <-. split; [by right; left|]. intros va' Hva' E.
    apply (blk va' va) in E as (J4 & J3 & J2); [|done|done].
    rewrite walk_w4. unfold w4, w3, w2. by rewrite J4, E4, J3, E3, J2, E2. }
  destruct (pt !! i1 va) as [l0|] eqn:E1; [|done].
  injection Hw as <- <-. split; [by left|]. intros va' Hva' E.
  apply (blk va' va) in E as (J4 & J3 & J2 & J1); [|done|done].
  rewrite walk_w4. unfold w4, w3, w2, w1. by rewrite J4, E4, J3, E3, J2, E2, J1, E1.
Qed.

Lemma put_lookup {A} (m : gmap N A) k x j : put m k x !! j = if (k =? j)%N then x else m !! j.
Proof.
  unfold put. destruct x; destruct (N.eqb_spec k j) as [->|].
  - by rewrite lookup_insert.
  - by rewrite lookup_insert_ne.
  - by rewrite lookup_delete.
  - by rewrite lookup_delete_ne.
Qed.

Lemma modify_none t va m : walk t va = None → modify_generic t va m = (t, Err NotMapped).
Proof.
  rewrite walk_w4. unfold w4, w3, w2, w1, modify_generic. intros Hw.
  destruct (t !! i4 va) as [pdpt|]; [|done].
  destruct (pdpt !! i3 va) as [[l0|pd]|]; [done| |done].
  destruct (pd !! i2 va) as [[l0|pt]|]; [done| |done].
  by destruct (pt !! i1 va).
Qed.

Lemma modify_some t va m l sz : walk t va = Some (l, sz) → (va < 2 ^ 48)%N →
  ∃ t', modify_generic t va m = (t', Ok ((va - va mod sz)%N, l_pa l, sz, from_flags (l_fl l))) ∧
  ∀ va', (va' < 2 ^ 48)%N →
    walk t' va' = if (va' / sz =? va / sz)%N
      then match mod_leaf (bool_decide (sz ≠ BASE)) m l with Some l' => Some (l', sz) | None => None end
      else walk t va'.
Proof.
  intros Hw Hva. rewrite walk_w4 in Hw. unfold w4, w3, w2, w1 in Hw. unfold modify_generic.
  destruct (t !! i4 va) as [pdpt|] eqn:E4; [|done].
  destruct (pdpt !! i3 va) as [[l0|pd]|] eqn:E3; [| |done].
  { injection Hw as <- <-. eexists. split; [done|]. intros va' Hva'.
    rewrite div_HUGE by done. rewrite walk_w4. change (walk t va') with (w4 t va'). rewrite w4_insert, (N.eqb_sym (i4 va)).
    destruct (N.eqb_spec (i4 va') (i4 va)) as [J4|J4]; [cbn [andb]|done].
    unfold w4. rewrite J4, E4. unfold w3. rewrite put_lookup, (N.eqb_sym (i3 va)).
    destruct (N.eqb_spec (i3 va') (i3 va)) as [J3|J3]; [|done]. by destruct m. }
  destruct (pd !! i2 va) as [[l0|pt]|] eqn:E2; [| |done].
  { injection Hw as <- <-. eexists. split; [done|]. intros va' Hva'.
    rewrite div_LARGE by done. rewrite walk_w4. change (walk t va') with (w4 t va'). rewrite w4_insert, (N.eqb_sym (i4 va)).
    destruct (N.eqb_spec (i4 va') (i4 va)) as [J4|J4]; [cbn [andb]|done].
    unfold w4. rewrite J4, E4. rewrite w3_insert, (N.eqb_sym (i3 va)).
    destruct (N.eqb_spec (i3 va') (i3 va)) as [J3|J3]; [cbn [andb]|done].
    unfold w3. rewrite J3, E3. unfold w2. rewrite put_lookup, (N.eqb_sym (i2 va)).
    destruct (N.eqb_spec (i2 va') (i2 va)) as [J2|J2]; [|done]. by destruct m. }
  destruct (pt !! i1 va) as [l0|] eqn:E1; [|done].
  injection Hw as <- <-. eexists. split; [done|]. intros va' Hva'.
  rewrite div_BASE by done. rewrite walk_w4. change (walk t va') with (w4 t va'). rewrite w4_insert, (N.eqb_sym (i4 va)).
  destruct (N.eqb_spec (i4 va') (i4 va)) as [J4|J4]; [cbn [andb]|done].
  unfold w4. rewrite J4, E4. rewrite w3_insert, (N.eqb_sym (i3 va)).
  destruct (N.eqb_spec (i3 va') (i3 va)) as [J3|J3]; [cbn [andb]|done].
  unfold w3. rewrite J3, E3. rewrite w2_insert, (N.eqb_sym (i2 va)).
  destruct (N.eqb_spec (i2 va') (i2 va)) as [J2|J2]; [cbn [andb]|done].
  unfold w2. rewrite J2, E2. unfold w1. rewrite put_lookup, (N.eqb_sym (i1 va)).
  destruct (N.eqb_spec (i1 va') (i1 va)) as [J1|J1]; [|done]. by destruct m.
Qed.

(** Addresses in the page of [va]. *)
Lemma same_page va va' sz : (0 < sz)%N →
  (va' / sz =? va / sz)%N = ((va - va mod sz <=? va') && (va' <? va - va mod sz + sz))%N.
Proof.
  intros Hs. pose proof (N.div_mod va sz ltac:(lia)) as D. pose proof (N.div_mod va' sz ltac:(lia)) as D'.
  pose proof (N.mod_lt va sz ltac:(lia)) as L. pose proof (N.mod_lt va' sz ltac:(lia)) as L'.
  revert D D' L L'. generalize (va mod sz)%N (va' mod sz)%N (va / sz)%N (va' / sz)%N. intros r r' q q' D D' L L'.
  replace (va - r)%N with (sz * q)%N by lia.
  destruct (N.eqb_spec q' q) as [->|Hne].
  - symmetry. apply rng_true. lia.
  - symmetry. apply rng_false. apply N.lt_gt_cases in Hne as [H|H]; [left|right]; nia.
Qed.

(** ** Address spaces built from page-sized frames *)

Lemma last_below_list (l : list (N * minfo)) e :
  match foldr (fun '(k, x) acc =>
    if (k <? e)%N then
      match acc with
      | Some (k', _) => if (k' <? k)%N then Some (k, x) else acc
      | None => Some (k, x)
      end
    else acc) None l with
  | Some (k, x) => (k, x) ∈ l ∧ (k < e)%N ∧ ∀ k' x', (k', x') ∈ l → (k' < e)%N → (k' <= k)%N
  | None => ∀ k x, (k, x) ∈ l → (e <= k)%N
  end.
Proof.
  induction l as [|[k x] l IH]; cbn [foldr].
  { intros k x H. by apply elem_of_nil in H. }
  set (acc := foldr _ None l) in *. clearbody acc.
  destruct (N.ltb_spec k e) as [Hlt|Hge].
  - destruct acc as [[k' x']|].
    + destruct IH as (I1 & I2 & I3). destruct (N.ltb_spec k' k) as [Hk|Hk].
      * split; [by left|]. split; [done|]. intros k2 x2 [[= -> ->]|H2]%elem_of_cons Hl; [lia|].
        specialize (I3 _ _ H2 Hl). lia.
      * split; [by right|]. split; [done|]. intros k2 x2 [[= -> ->]|H2]%elem_of_cons Hl; [lia|].
        by apply (I3 _ _ H2).
    + split; [by left|]. split; [done|]. intros k2 x2 [[= -> ->]|H2]%elem_of_cons Hl; [lia|].
      specialize (IH _ _ H2). lia.
  - destruct acc as [[k' x']|].
    + destruct IH as (I1 & I2 & I3). split; [by right|]. split; [done|].
      intros k2 x2 [[= -> ->]|H2]%elem_of_cons Hl; [lia|]. by apply (I3 _ _ H2).
    + intros k2 x2 [[= -> ->]|H2]%elem_of_cons; [lia|]. by apply (IH _ _ H2).
Qed.

Lemma last_below_spec m e :
  match last_below m e with
  | Some (k, x) => m !! k = Some x ∧ (k < e)%N ∧ ∀ k' x', m !! k' = Some x' → (k' < e)%N → (k' <= k)%N
  | None => ∀ k x, m !! k = Some x → (e <= k)%N
  end.
Proof.
  unfold last_below. pose proof (last_below_list (map_to_list m) e) as H.
  set (acc := foldr _ None _) in *. clearbody acc. destruct acc as [[k x]|].
  - destruct H as (H1 & H2 & H3). rewrite elem_of_map_to_list in H1. split_and!; try done.
    intros k' x' Hk. by apply (H3 k' x'), elem_of_map_to_list.
  - intros k x Hk. by apply (H k x), elem_of_map_to_list.
Qed.

Definition page_frame (lg : bool) (sz : N) : Prop := sz = BASE ∨ sz = LARGE ∧ lg = true.

Record vinv (lg : bool) (s : vspace) : Prop := {
  vi_rec : ∀ b mi, vs_map s !! b = Some mi →
    page_frame lg (mi_size mi) ∧ (b + mi_size mi <= 2 ^ 48)%N ∧ (b mod mi_size mi = 0)%N ∧ (mi_pa mi mod mi_size mi = 0)%N ∧
    ∀ va, (b <= va)%N → (va < b + mi_size mi)%N →
      walk (vs_pt s) va =
        Some (mkLeaf (mi_pa mi) (entry_flags (bool_decide (mi_size mi ≠ BASE)) (mi_rights mi)), mi_size mi);
  vi_pt : ∀ va l sz, (va < 2 ^ 48)%N → walk (vs_pt s) va = Some (l, sz) →
    ∃ mi, vs_map s !! (va - va mod sz)%N = Some mi ∧ mi_size mi = sz }.

Lemma page_frame_pos lg sz : page_frame lg sz → (0 < sz)%N.
Proof. by intros [-> | [-> _]]. Qed.
Lemma page_frame_ps lg sz : page_frame lg sz → is_page_size sz.
Proof. intros [-> | [-> _]]; [by left|by right; left]. Qed.

Lemma aligned_in va b sz : (0 < sz)%N → (b mod sz = 0)%N → (b <= va)%N → (va < b + sz)%N →
  (va - va mod sz = b)%N.
Proof.
  intros Hs Ha H1 H2. pose proof (N.div_mod va sz ltac:(lia)) as D. pose proof (N.div_mod b sz ltac:(lia)) as D'.
  pose proof (N.mod_lt va sz ltac:(lia)) as L. rewrite Ha in D'. revert D D' L.
  generalize (va mod sz)%N (va / sz)%N (b / sz)%N. intros r q q' D D' L.
  assert (q = q')%N by nia. subst. lia.
Qed.

(** A mapped address lies in exactly one recorded mapping. *)
Lemma vinv_cover lg s va b mi : vinv lg s → vs_map s !! b = Some mi → (b <= va)%N → (va < b + mi_size mi)%N →
  (va < 2 ^ 48)%N ∧ walk (vs_pt s) va =
    Some (mkLeaf (mi_pa mi) (entry_flags (bool_decide (mi_size mi ≠ BASE)) (mi_rights mi)), mi_size mi) ∧
  b = (va - va mod mi_size mi)%N.
Proof.
  intros I Hb H1 H2. destruct (vi_rec _ _ I _ _ Hb) as (P & B & A & _ & W).
  split; [lia|]. split; [by apply W|]. symmetry. apply aligned_in; try done. by eapply page_frame_pos.
Qed.
Lemma vinv_disj lg s b b' mi mi' va : vinv lg s → vs_map s !! b = Some mi → vs_map s !! b' = Some mi' →
  (b <= va)%N → (va < b + mi_size mi)%N → (b' <= va)%N → (va < b' + mi_size mi')%N → b = b' ∧ mi = mi'.
Proof.
  intros I Hb Hb' H1 H2 H3 H4.
  destruct (vinv_cover _ _ _ _ _ I Hb H1 H2) as (_ & W & ->).
  destruct (vinv_cover _ _ _ _ _ I Hb' H3 H4) as (_ & W' & ->).
  rewrite W in W'. assert (mi_size mi = mi_size mi') as E3 by congruence. rewrite E3 in Hb. rewrite Hb in Hb'. injection Hb' as ->. done.
Qed.
Lemma vinv_walk lg s va l sz : vinv lg s → (va < 2 ^ 48)%N → walk (vs_pt s) va = Some (l, sz) →
  ∃ mi, vs_map s !! (va - va mod sz)%N = Some mi ∧ mi_size mi = sz ∧ (va - va mod sz <= va)%N ∧
    (va < va - va mod sz + sz)%N ∧ page_frame lg sz ∧
    l = mkLeaf (mi_pa mi) (entry_flags (bool_decide (sz ≠ BASE)) (mi_rights mi)).
Proof.
  intros I Hva Hw. destruct (vi_pt _ _ I _ _ _ Hva Hw) as (mi & Hm & Hs).
  destruct (vi_rec _ _ I _ _ Hm) as (P & B & A & _ & W). rewrite Hs in *.
  pose proof (page_frame_pos _ _ P) as Hp. pose proof (N.mod_lt va sz ltac:(lia)) as L.
  pose proof (N.mod_le va sz ltac:(lia)) as L'.
  assert (va - va mod sz <= va ∧ va < va - va mod sz + sz)%N as [R1 R2].
  { revert L L'. generalize (va mod sz)%N. clear. intros. lia. }
  exists mi. split_and!; try done.
  rewrite (W va R1 R2) in Hw. congruence.
Qed.
Lemma vinv_unmapped lg s b sz : vinv lg s →
  (∀ k mi, vs_map s !! k = Some mi → (k < b + sz)%N → (k + mi_size mi <= b)%N) →
  unmapped (vs_pt s) b sz.
Proof.
  intros I H va H1 H2 Hva. destruct (walk (vs_pt s) va) as [[l z]|] eqn:E; [|done]. exfalso.
  destruct (vinv_walk _ _ _ _ _ I Hva E) as (mi & Hm & Hs & L1 & L2 & _).
  specialize (H _ _ Hm ltac:(lia)). rewrite Hs in H. lia.
Qed.

Lemma vinv_init lg : vinv lg vs_init.
Proof.
  split.
  - intros b mi H. cbn [vs_map vs_init] in H. by rewrite lookup_empty in H.
  - intros va l sz _ H. unfold walk in H. cbn [vs_pt vs_init] in H. by rewrite lookup_empty in H.
Qed.

(** The cases of map_frame on such an address space. *)
Lemma map_frame_cases lg s b p sz a :
  vinv lg s → page_frame lg sz → (b + sz <= 2 ^ 48)%N →
  (p mod sz ≠ 0)%N ∧ vs_map_frame lg s b p sz a = (s, Err InvalidFrame) ∨
  (p mod sz = 0)%N ∧ (b mod sz ≠ 0)%N ∧ vs_map_frame lg s b p sz a = (s, Err InvalidBase) ∨
  (p mod sz = 0)%N ∧ (b mod sz = 0)%N ∧
  ( (unmapped (vs_pt s) b sz ∧
     (∀ k mi, vs_map s !! k = Some mi → (k < b + sz)%N → (k + mi_size mi <= b)%N) ∧
     ∃ t, vs_map_frame lg s b p sz a = (mkVS (<[b := mkMI p sz a]> (vs_map s)) t, Ok tt) ∧
       seg (vs_pt s) t b p sz sz (entry_flags (bool_decide (sz ≠ BASE)) a))
  ∨ (∃ k mi, vs_map s !! k = Some mi ∧ (k < b + sz)%N ∧ (b < k + mi_size mi)%N ∧
       (k = b ∧ mi_pa mi = p ∧ (mi_size mi <= sz)%N ∧ mi_rights mi = a ∧
          vs_map_frame lg s b p sz a = (s, Ok tt)
        ∨ (¬ (k = b ∧ mi_pa mi = p ∧ (mi_size mi <= sz)%N ∧ mi_rights mi = a)) ∧
          vs_map_frame lg s b p sz a = (s, Err (AlreadyMapped k)))) ).
Proof.
  intros I Hsz Hb. pose proof (page_frame_pos _ _ Hsz) as Hpos. unfold vs_map_frame.
  destruct (N.eqb_spec sz 0) as [?|_]; [lia|].
  destruct (N.eqb_spec (p mod sz) 0) as [Hp|Hp]; cbn [negb]; [right|by left].
  destruct (N.eqb_spec (b mod sz) 0) as [Hv|Hv]; cbn [negb]; [right|by left].
  split; [done|]. split; [done|].
  assert ((∀ k mi, vs_map s !! k = Some mi → (k < b + sz)%N → (k + mi_size mi <= b)%N) →
    unmapped (vs_pt s) b sz ∧
    (∀ k mi, vs_map s !! k = Some mi → (k < b + sz)%N → (k + mi_size mi <= b)%N) ∧
     ∃ t, match pt_map lg (vs_pt s) b p sz a with
      | Ok (t, _) => (mkVS (<[b := mkMI p sz a]> (vs_map s)) t, Ok tt)
      | Err e => (mkVS (<[b := mkMI p sz a]> (vs_map s)) (vs_pt s), Err e)
      | Panic => (s, Panic)
      end = (mkVS (<[b := mkMI p sz a]> (vs_map s)) t, Ok tt) ∧
       seg (vs_pt s) t b p sz sz (entry_flags (bool_decide (sz ≠ BASE)) a)) as Hins.
  { intros Hno. pose proof (vinv_unmapped _ _ _ _ I Hno) as Hu. split; [done|]. split; [done|].
    unfold pt_map.
    destruct (map_page_ok lg (vs_pt s) 0 (N.to_nat (sz / BASE)) b p sz a) as (t1 & n1 & -> & _ & Hseg);
      try done. by exists t1. }
  pose proof (last_below_spec (vs_map s) (b + sz)) as Hl.
  destruct (last_below (vs_map s) (b + sz)) as [[k mi]|].
  2:{ left. apply Hins. intros k mi Hk Hlt. specialize (Hl _ _ Hk). lia. }
  destruct Hl as (Hk & Hlt & Hmax).
  destruct (N.leb_spec (k + mi_size mi) b) as [Hle|Hgt].
  - left. apply Hins. intros k' mi' Hk' Hlt'. specialize (Hmax _ _ Hk' Hlt').
    destruct (N.eq_dec k' k) as [->|Hne]; [rewrite Hk in Hk'; by injection Hk' as <-|].
    destruct (N.le_gt_cases (k' + mi_size mi') b) as [|Hgt]; [done|]. exfalso.
    destruct (vi_rec _ _ I _ _ Hk) as (P & _). apply page_frame_pos in P.
    destruct (vinv_disj _ _ _ _ _ _ k I Hk Hk'); [lia|lia|lia|lia|]. congruence.
  - right. exists k, mi. split; [done|]. split; [done|]. split; [done|].
    destruct (N.eqb_spec k b) as [Ek|Ek]; cbn [andb]; [|right; split; [tauto|done]].
    destruct (N.eqb_spec (mi_pa mi) p) as [Ep|Ep]; cbn [andb]; [|right; split; [tauto|done]].
    destruct (N.leb_spec (mi_size mi) sz) as [Es|Es]; cbn [andb]; [|right; split; [lia|done]].
    destruct (bool_decide_reflect (mi_rights mi = a)); [left|right; split; [tauto|done]]. done.
Qed.

Lemma map_frame_inv lg s b p sz a :
  vinv lg s → page_frame lg sz → (b + sz <= 2 ^ 48)%N → vinv lg (fst (vs_map_frame lg s b p sz a)).
Proof.
  intros I Hsz Hb. pose proof (page_frame_pos _ _ Hsz) as Hpos.
  destruct (map_frame_cases lg s b p sz a I Hsz Hb) as [[_ ->]|[(_ & _ & ->)|(Hp & Hv & [Hc|Hc])]]; try done.
  2:{ destruct Hc as (k & mi & _ & _ & _ & [(_ & _ & _ & _ & ->)|[_ ->]]); done. }
  destruct Hc as (Hu & Hno & t & -> & Hseg). cbn [fst]. split; cbn [vs_map vs_pt].
  - intros k mi Hk. destruct (N.eq_dec b k) as [<-|Hne].
    + rewrite lookup_insert in Hk. injection Hk as <-. cbn [mi_size mi_pa mi_rights].
      split_and!; try done. intros va H1 H2. rewrite Hseg by lia. rewrite rng_true by lia.
      do 3 f_equal. rewrite N.div_small by lia. lia.
    + rewrite lookup_insert_ne in Hk by done.
      destruct (vi_rec _ _ I _ _ Hk) as (P & B & A & A' & W). split_and!; try done.
      intros va H1 H2. rewrite Hseg by lia. rewrite rng_false; [by apply W|].
      destruct (N.lt_ge_cases k (b + sz)) as [Hlt|Hge]; [|lia].
      specialize (Hno _ _ Hk Hlt). lia.
  - intros va l z Hva Hw. rewrite Hseg in Hw by done.
    destruct (N.leb_spec b va), (N.ltb_spec va (b + sz)); cbn [andb] in Hw.
    1:{ injection Hw as <- <-. rewrite (aligned_in va b sz) by done.
        eexists. by rewrite lookup_insert. }
    all: destruct (vinv_walk _ _ _ _ _ I Hva Hw) as (mi & Hm & Hs & L1 & L2 & _);
      exists mi; split; [|done]; rewrite lookup_insert_ne; [done|];
      intros Eb; rewrite <- Eb in Hm, L1, L2; specialize (Hno _ _ Hm ltac:(lia)); rewrite Hs in Hno; lia.
Qed.

Lemma unmap_cases lg dbg s va :
  vinv lg s → (va < 2 ^ 48)%N →
  (walk (vs_pt s) va = None ∧ ∃ e, vs_unmap dbg s va = (s, Err e) ∧
     (e = NotMapped ∨ e = InvalidBase ∧ (va mod BASE ≠ 0)%N)) ∨
  (∃ l sz mi, walk (vs_pt s) va = Some (l, sz) ∧ vs_map s !! (va - va mod sz)%N = Some mi ∧
     ((va mod BASE ≠ 0)%N ∧ vs_unmap dbg s va = (s, Err InvalidBase) ∨
      (va mod BASE = 0)%N ∧ ∃ t, 
        vs_unmap dbg s va = (mkVS (delete (va - va mod sz)%N (vs_map s)) t,
                             Ok ((va - va mod sz)%N, l_pa l, sz, from_flags (l_fl l))) ∧
        ∀ va', (va' < 2 ^ 48)%N → walk t va' = if (va' / sz =? va / sz)%N then None else walk (vs_pt s) va')).
Proof.
  intros I Hva. unfold vs_unmap.
  pose proof (last_below_spec (vs_map s) (va + 1)) as Hl.
  destruct (walk (vs_pt s) va) as [[l sz]|] eqn:Ew.
  - right. destruct (vinv_walk _ _ _ _ _ I Hva Ew) as (mi & Hm & Hs & L1 & L2 & P & El).
    exists l, sz, mi. split; [done|]. split; [done|].
    assert (∃ eb mi', last_below (vs_map s) (va + 1) = Some (eb, mi') ∧ (eb <= va)%N ∧ (va < eb + mi_size mi')%N)
      as (eb & mi' & Elb & L3 & L4).
    { destruct (last_below (vs_map s) (va + 1)) as [[k mk]|].
      2:{ specialize (Hl _ _ Hm). lia. }
      destruct Hl as (Hk & Hlt & Hmax). specialize (Hmax _ _ Hm ltac:(lia)).
      exists k, mk. split; [done|]. split; [lia|].
      destruct (vi_rec _ _ I _ _ Hk) as (P' & _). apply page_frame_pos in P'.
      destruct (vinv_disj _ _ _ _ _ _ k I Hk Hm); [lia|lia|lia|rewrite Hs; lia|]. subst k mk. rewrite Hs. lia. }
    rewrite Elb. assert ((eb <=? va)%N && (va <? eb + mi_size mi')%N = true) as -> by (by apply rng_true).
    unfold pt_unmap. destruct (N.eqb_spec (va mod BASE) 0) as [Ha|Ha]; cbn [negb]; [right|by left].
    split; [done|].
    destruct (modify_some _ _ MUnmap _ _ Ew Hva) as (t' & -> & Hv).
    rewrite Hm. rewrite bool_decide_eq_false_2 by done. rewrite andb_false_r.
    exists t'. split; [done|]. exact Hv.
  - left. split; [done|].
    assert (∃ e, match pt_unmap (vs_pt s) va with
      | (t, Ok (vb, pa, sz, a)) =>
          if dbg && bool_decide (vs_map s !! vb = None) then (s, Panic)
          else (mkVS (delete vb (vs_map s)) t, Ok (vb, pa, sz, a))
      | (t, Err e) => (s, Err e)
      | (t, Panic) => (s, Panic)
      end = (s, Err e) ∧ (e = NotMapped ∨ e = InvalidBase ∧ (va mod BASE ≠ 0)%N)) as Hgo.
    { unfold pt_unmap. destruct (N.eqb_spec (va mod BASE) 0) as [Ha|Ha]; cbn [negb].
      - rewrite modify_none by done. eexists. split; [done|]. by left.
      - eexists. split; [done|]. by right. }
    destruct (last_below (vs_map s) (va + 1)) as [[k mk]|]; [|done].
    destruct (_ && _); [done|]. eexists. split; [done|]. by left.
Qed.

Lemma unmap_inv lg dbg s va : vinv lg s → (va < 2 ^ 48)%N → vinv lg (fst (vs_unmap dbg s va)).
Proof.
  intros I Hva.
  destruct (unmap_cases lg dbg s va I Hva) as [(_ & e & -> & _)|(l & sz & mi & Ew & Hm & [[_ ->]|(_ & t & -> & Hv)])]; try done.
  destruct (vinv_walk _ _ _ _ _ I Hva Ew) as (mi' & Hm' & Hs & L1 & L2 & P & El).
  rewrite Hm in Hm'. injection Hm' as <-. pose proof (page_frame_pos _ _ P) as Hpos.
  cbn [fst]. split; cbn [vs_map vs_pt].
  - intros b mb Hb. apply lookup_delete_Some in Hb as [Hne Hb].
    destruct (vi_rec _ _ I _ _ Hb) as (P' & B & A & A' & W). split_and!; try done.
    intros x H1 H2. rewrite Hv by lia. rewrite same_page by done.
    rewrite rng_false; [by apply W|].
    destruct (N.lt_ge_cases x (va - va mod sz)) as [|H3]; [by left|right].
    destruct (N.lt_ge_cases x (va - va mod sz + sz)) as [H4|]; [|done].
    destruct (vinv_disj _ _ _ _ _ _ x I Hb Hm); [done|done|done|by rewrite Hs|]. congruence.
  - intros x l' z Hx Hw. rewrite Hv in Hw by done. rewrite same_page in Hw by done.
    destruct ((va - va mod sz <=? x)%N && (x <? va - va mod sz + sz)%N) eqn:E; [done|].
    destruct (vinv_walk _ _ _ _ _ I Hx Hw) as (mx & Hmx & Hsx & L3 & L4 & _).
    exists mx. split; [|done]. rewrite lookup_delete_ne; [done|]. intros Eb.
    rewrite <- Eb in Hmx. rewrite Hm in Hmx. injection Hmx as <-. rewrite Hs in Hsx. subst z.
    rewrite <- Eb in L3, L4. rewrite rng_true in E by done. done.
Qed.

Lemma adjust_cases lg s va a :
  vinv lg s → (va < 2 ^ 48)%N →
  ((va mod BASE ≠ 0)%N ∧ vs_adjust s va a = (s, Err InvalidBase)) ∨
  ((va mod BASE = 0)%N ∧ walk (vs_pt s) va = None ∧ vs_adjust s va a = (s, Err NotMapped)) ∨
  ((va mod BASE = 0)%N ∧ ∃ l sz mi, walk (vs_pt s) va = Some (l, sz) ∧ vs_map s !! (va - va mod sz)%N = Some mi ∧
      ∃ t, 
        vs_adjust s va a = (mkVS (<[(va - va mod sz)%N := mkMI (mi_pa mi) (mi_size mi) a]> (vs_map s)) t,
                             Ok ((va - va mod sz)%N, sz)) ∧
        ∀ va', (va' < 2 ^ 48)%N → walk t va' = if (va' / sz =? va / sz)%N
          then Some (mkLeaf (l_pa l) (entry_flags (bool_decide (sz ≠ BASE)) a), sz) else walk (vs_pt s) va').
Proof.
  intros I Hva. unfold vs_adjust, pt_adjust.
  destruct (N.eqb_spec (va mod BASE) 0) as [Ha|Ha]; cbn [negb]; [right|by left].
  destruct (walk (vs_pt s) va) as [[l sz]|] eqn:Ew; [right|left].
  - split; [done|]. destruct (vinv_walk _ _ _ _ _ I Hva Ew) as (mi & Hm & Hs & L1 & L2 & P & El).
    exists l, sz, mi. split; [done|]. split; [done|].
    destruct (modify_some _ _ (MUpdate a) _ _ Ew Hva) as (t' & -> & Hv).
    rewrite Hm. exists t'. split; [done|]. exact Hv.
  - split; [done|]. split; [done|]. by rewrite modify_none.
Qed.

Lemma adjust_inv lg s va a : vinv lg s → (va < 2 ^ 48)%N → vinv lg (fst (vs_adjust s va a)).
Proof.
  intros I Hva.
  destruct (adjust_cases lg s va a I Hva) as [[_ ->]|[(_ & _ & ->)|(_ & l & sz & mi & Ew & Hm & t & -> & Hv)]]; try done.
  destruct (vinv_walk _ _ _ _ _ I Hva Ew) as (mi' & Hm' & Hs & L1 & L2 & P & El).
  rewrite Hm in Hm'. injection Hm' as <-. pose proof (page_frame_pos _ _ P) as Hpos.
  cbn [fst]. split; cbn [vs_map vs_pt].
  - intros b mb Hb. destruct (N.eq_dec (va - va mod sz) b) as [<-|Hne].
    + rewrite lookup_insert in Hb. injection Hb as <-. cbn [mi_size mi_pa mi_rights]. rewrite Hs.
      destruct (vi_rec _ _ I _ _ Hm) as (P' & B & A & A' & W). rewrite Hs in *. split_and!; try done.
      intros x H1 H2. rewrite Hv by lia. rewrite same_page by done. rewrite rng_true by done.
      by rewrite El.
    + rewrite lookup_insert_ne in Hb by done.
      destruct (vi_rec _ _ I _ _ Hb) as (P' & B & A & A' & W). split_and!; try done.
      intros x H1 H2. rewrite Hv by lia. rewrite same_page by done.
      rewrite rng_false; [by apply W|].
      destruct (N.lt_ge_cases x (va - va mod sz)) as [|H3]; [by left|right].
      destruct (N.lt_ge_cases x (va - va mod sz + sz)) as [H4|]; [|done].
      destruct (vinv_disj _ _ _ _ _ _ x I Hb Hm); [done|done|done|by rewrite Hs|]. congruence.
  - intros x l' z Hx Hw. rewrite Hv in Hw by done. rewrite same_page in Hw by done.
    destruct ((va - va mod sz <=? x)%N && (x <? va - va mod sz + sz)%N) eqn:E.
    + injection Hw as <- <-. apply andb_true_iff in E as [E1 E2]. apply N.leb_le in E1. apply N.ltb_lt in E2.
      destruct (vi_rec _ _ I _ _ Hm) as (P' & B & A & A' & W). rewrite Hs in *.
      rewrite (aligned_in x (va - va mod sz) sz) by done. rewrite lookup_insert. eexists. done.
    + destruct (vinv_walk _ _ _ _ _ I Hx Hw) as (mx & Hmx & Hsx & L3 & L4 & _).
      exists mx. split; [|done]. rewrite lookup_insert_ne; [done|]. intros Eb.
      rewrite <- Eb in Hmx. rewrite Hm in Hmx. injection Hmx as <-. rewrite Hs in Hsx. subst z.
      rewrite <- Eb in L3, L4. rewrite rng_true in E by done. done.
Qed.
