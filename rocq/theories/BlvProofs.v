(** Lemmas about the bootloader's address space. *)
From Verif Require Import Base VsModel VsProofs BlvModel BlvSpec.
Local Arguments bl_base : simpl never.
Local Arguments bl_fill : simpl never.
Local Arguments bl_generic : simpl never.

Lemma bl_fill_ok {V} sz (mk : N -> V) fuel : forall tab idx p m tab' m', (0 < sz)%N ->
  bl_fill fuel sz mk tab idx p (sz * m) = (tab', m') ->
  (idx <= 512)%N -> (512 <= idx + N.of_nat fuel)%N -> (sz * m <= p)%N ->
  exists k, m' = (sz * (m + k))%N /\ (idx + k <= 512)%N /\ (sz * (m + k) <= p)%N /\
    ((p < sz * (m + k) + sz)%N \/ (idx + k = 512)%N) /\
    (forall j, tab' !! j = if (idx <=? j)%N && (j <? idx + k)%N then Some (mk (sz * (m + (j - idx)))%N) else tab !! j).
Proof.
  induction fuel as [|fuel IH]; intros tab idx p m tab' m' Hs H Hi Hf Hm.
  - change ((tab, (sz * m)%N) = (tab', m')) in H. injection H as <- <-.
    exists 0%N. rewrite !N.add_0_r. split; [done|]. split; [done|]. split; [done|]. split; [lia|].
    intros j. destruct (N.leb_spec idx j), (N.ltb_spec j idx); try done; lia.
  - unfold bl_fill in H; fold (@bl_fill V) in H.
    match type of H with context [if ?c then _ else _] => destruct c eqn:Eg end.
    + rewrite !andb_true_iff, !N.ltb_lt, N.leb_le in Eg. destruct Eg as [[G1 G2] G3].
      replace (sz * m + sz)%N with (sz * (m + 1))%N in H by lia.
      apply IH in H as (k & -> & K1 & K2 & K3 & K4); [|done|lia|lia|lia].
      exists (k + 1)%N. replace (m + (k + 1))%N with (m + 1 + k)%N by lia.
      split; [done|]. split; [lia|]. split; [done|]. split; [destruct K3; [by left|right; lia]|].
      intros j. rewrite K4. destruct (N.eq_dec j idx) as [->|Hj].
      * rewrite lookup_insert. destruct (N.leb_spec (idx + 1) idx), (N.leb_spec idx idx), (N.ltb_spec idx (idx + (k + 1))); try lia; cbn [andb].
        do 2 f_equal. lia.
      * rewrite lookup_insert_ne by done.
        destruct (N.leb_spec (idx + 1) j), (N.leb_spec idx j), (N.ltb_spec j (idx + 1 + k)), (N.ltb_spec j (idx + (k + 1))); try lia; cbn [andb]; try done.
        do 2 f_equal. f_equal. lia.
    + injection H as <- <-. exists 0%N. rewrite !N.add_0_r. split; [done|]. split; [done|]. split; [done|]. split.
      { rewrite !andb_false_iff, !N.ltb_ge, N.leb_gt in Eg. destruct (N.eq_dec (sz * m) p); [left; lia|]. destruct Eg as [[?|?]|?]; lia. }
      intros j. destruct (N.leb_spec idx j), (N.ltb_spec j idx); try done; lia.
Qed.

Lemma bl_base_ok a pb fuel : forall tab idx p m tab' m',
  bl_base fuel tab idx pb (BASE * p) (BASE * m) a = Ok (tab', m') ->
  (idx <= 512)%N -> (512 <= idx + N.of_nat fuel)%N -> (m <= p)%N ->
  exists k, m' = (BASE * (m + k))%N /\ (idx + k <= 512)%N /\ (m + k <= p)%N /\
    ((m + k = p)%N \/ (idx + k = 512)%N) /\
    (forall j, tab' !! j = if (idx <=? j)%N && (j <? idx + k)%N then Some (mkLeaf (pb + BASE * (m + (j - idx))) (bl_flags false a)) else tab !! j) /\
    (forall j, (idx <= j)%N -> (j < idx + k)%N -> tab !! j = None).
Proof.
  induction fuel as [|fuel IH]; intros tab idx p m tab' m' H Hi Hf Hm.
  - change (Ok (tab, (BASE * m)%N) = Ok (tab', m')) in H. injection H as <- <-.
    exists 0%N. rewrite !N.add_0_r. split; [done|]. split; [done|]. split; [done|]. split; [lia|]. split; [|lia].
    intros j. destruct (N.leb_spec idx j), (N.ltb_spec j idx); try done; lia.
  - unfold bl_base in H; fold bl_base in H.
    match type of H with context [if ?c then _ else _] => destruct c eqn:Eg end.
    + rewrite !andb_true_iff, !N.ltb_lt in Eg. destruct Eg as [G1 G2].
      destruct (tab !! idx) eqn:Et; [done|].
      replace (BASE * m + BASE)%N with (BASE * (m + 1))%N in H by lia.
      apply IH in H as (k & -> & K1 & K2 & K3 & K4 & K5); [|lia|lia|nn; lia].
      exists (k + 1)%N. replace (m + (k + 1))%N with (m + 1 + k)%N by lia.
      split; [done|]. split; [lia|]. split; [done|]. split; [destruct K3; [by left|right; lia]|]. split.
      * intros j. rewrite K4. destruct (N.eq_dec j idx) as [->|Hj].
        -- rewrite lookup_insert. destruct (N.leb_spec (idx + 1) idx), (N.leb_spec idx idx), (N.ltb_spec idx (idx + (k + 1))); try lia; cbn [andb].
           do 3 f_equal. lia.
        -- rewrite lookup_insert_ne by done.
           destruct (N.leb_spec (idx + 1) j), (N.leb_spec idx j), (N.ltb_spec j (idx + 1 + k)), (N.ltb_spec j (idx + (k + 1))); try lia; cbn [andb]; try done.
           do 2 f_equal. nn. lia.
      * intros j J1 J2. destruct (N.eq_dec j idx) as [->|Hj]; [done|].
        specialize (K5 j). rewrite lookup_insert_ne in K5 by done. apply K5; lia.
    + injection H as <- <-. exists 0%N. rewrite !N.add_0_r. split; [done|]. split; [done|]. split; [done|]. split; [|split; [|lia]].
      { rewrite !andb_false_iff, !N.ltb_ge in Eg. destruct Eg as [?|?]; [left; nn; lia|right; lia]. }
      intros j. destruct (N.leb_spec idx j), (N.ltb_spec j idx); try done; lia.
Qed.
Lemma bl_base_panic a pb fuel : forall tab idx p m r,
  bl_base fuel tab idx pb (BASE * p) (BASE * m) a = r ->
  match r with
  | Ok _ => True
  | Err _ => False
  | Panic => exists j, (idx <= j)%N /\ (j < 512)%N /\ (m + (j - idx) < p)%N /\ tab !! j <> None
  end.
Proof.
  induction fuel as [|fuel IH]; intros tab idx p m r H.
  { change (Ok (tab, (BASE * m)%N) = r) in H. by subst r. }
  unfold bl_base in H; fold bl_base in H.
  match type of H with context [if ?c then _ else _] => destruct c eqn:Eg end; [|by subst r].
  rewrite !andb_true_iff, !N.ltb_lt in Eg. destruct Eg as [G1 G2].
  destruct (tab !! idx) eqn:Et.
  { subst r. exists idx. rewrite Et. split; [lia|]. split; [lia|]. split; [|done]. nn. lia. }
  replace (BASE * m + BASE)%N with (BASE * (m + 1))%N in H by lia.
  apply IH in H. destruct r; try done. destruct H as (j & J1 & J2 & J3 & J4).
  rewrite lookup_insert_ne in J4 by lia. exists j. split; [lia|]. split; [lia|]. split; [lia|done].
Qed.

Lemma same_block va vb k : (vb < 2 ^ 48)%N -> (vb mod BASE = 0)%N -> (i1 vb + k <= 512)%N ->
  (vb <= va)%N -> (va < vb + BASE * k)%N ->
  (va < 2 ^ 48)%N /\ i4 va = i4 vb /\ i3 va = i3 vb /\ i2 va = i2 vb /\ (i1 vb <= i1 va)%N /\ (i1 va < i1 vb + k)%N.
Proof.
  intros Hvb Ha Hk Hr1 Hr2.
  destruct (dec_va vb Hvb) as (Eb & ? & ? & ? & ? & ?).
  destruct (dec_mod vb Hvb) as (M2 & M3 & M4). rewrite Ha in Eb, M2, M3, M4.
  assert (Hva : (va < 2 ^ 48)%N).
  { clear M2 M3 M4 Ha. revert Eb. generalize (i4 vb) (i3 vb) (i2 vb) (i1 vb) H H0 H1 H2 Hk. intros. nn. lia. }
  destruct (dec_va va Hva) as (Ev & ? & ? & ? & ? & ?).
  destruct (idx_ne va vb) as (N4 & N3 & N2).
  assert (i4 vb = i4 va) as E4.
  { destruct (N.eq_dec (i4 vb) (i4 va)) as [|Hn]; [done|].
    destruct (out_block vb va (BASE * k) SLOT); [done| |auto|lia|lia]. rewrite M4. cleardm; nn; lia. }
  assert (i3 vb = i3 va) as E3.
  { destruct (N.eq_dec (i3 vb) (i3 va)) as [|Hn]; [done|].
    destruct (out_block vb va (BASE * k) HUGE); [done| |auto|lia|lia]. rewrite M3. cleardm; nn; lia. }
  assert (i2 vb = i2 va) as E2.
  { destruct (N.eq_dec (i2 vb) (i2 va)) as [|Hn]; [done|].
    destruct (out_block vb va (BASE * k) LARGE); [done| |auto|lia|lia]. rewrite M2. cleardm; nn; lia. }
  split; [done|]. split; [done|]. split; [done|]. split; [done|]. split; dl va vb.
Qed.
Lemma i1_at vb d : (vb < 2 ^ 48)%N -> (vb mod BASE = 0)%N -> (i1 vb + d < 512)%N ->
  (vb + BASE * d < 2 ^ 48)%N /\ i4 (vb + BASE * d) = i4 vb /\ i3 (vb + BASE * d) = i3 vb /\
  i2 (vb + BASE * d) = i2 vb /\ i1 (vb + BASE * d) = (i1 vb + d)%N.
Proof.
  intros Hvb Ha Hd.
  destruct (same_block (vb + BASE * d) vb (d + 1)) as (V & E4 & E3 & E2 & L & U); [done|done|lia|lia|nn; lia|].
  split; [done|]. split; [done|]. split; [done|]. split; [done|].
  destruct (dec_va vb Hvb) as (Eb & _). destruct (dec_va _ V) as (Ev & _ & _ & _ & _ & R).
  rewrite E4, E3, E2 in Ev. rewrite Ha in Eb. set (w := (vb + BASE * d)%N) in *.
  assert (w = vb + BASE * d)%N as Ew by done. clearbody w.
  revert Ev R. generalize (w mod BASE)%N. intros. clear Ha. nn. lia.
Qed.

(** One round: a chunk of [k] pages of size [sz], then the rest. *)
Definition bround (t : gmap N (gmap N pdpte)) (vb pb ps : N) (a : bact) (t1 : gmap N (gmap N pdpte)) (sz k : N) : Prop :=
  is_page_size sz /\ (1 <= k)%N /\ (sz * k <= ps)%N /\ (vb mod sz = 0)%N /\ (pb mod sz = 0)%N /\
  seg t t1 vb pb (sz * k) sz (bl_flags (bool_decide (sz <> BASE)) a) /\
  (sz = BASE -> forall va, (vb <= va)%N -> (va < vb + BASE * k)%N -> walk t va = None).

Lemma bl_step f t vb pb ps a : (vb < 2 ^ 48)%N -> (0 < ps)%N ->
  (pb mod BASE = 0)%N -> (ps mod BASE = 0)%N -> (vb mod BASE = 0)%N -> a <> BNone ->
  (bl_generic (S f) t vb pb ps a = Panic /\ exists va, (vb <= va)%N /\ (va < vb + ps)%N /\ walk t va <> None) \/
  exists t1 sz k, bround t vb pb ps a t1 sz k /\
    bl_generic (S f) t vb pb ps a =
      (if (sz * k <? ps)%N then bl_generic f t1 (vb + sz * k) (pb + sz * k) (ps - sz * k) a else Ok t1).
Proof.
  intros Hvb Hps A1 A3 A2 Ha. unfold bl_generic; fold bl_generic.
  rewrite A1, A2, A3, N.eqb_refl. rewrite (bool_decide_eq_false_2 _ Ha). cbn [negb orb].
  destruct (dec_va vb Hvb) as (Eb & I4 & I3 & I2 & I1 & Ir).
  assert (BASE <= ps)%N as Hps'.
  { destruct (N.le_gt_cases BASE ps) as [|Hlt]; [done|]. rewrite N.mod_small in A3 by done. lia. }
  set (pdpt := default ∅ (t !! i4 vb)).
  assert (H4 : forall va, i4 va = i4 vb -> w4 t va = w3 pdpt va).
  { intros va Hv. unfold w4, pdpt. rewrite Hv. destruct (t !! i4 vb) as [p|]; [done|]. cbn. by rewrite w3_empty. }
  match goal with |- context [if ?c then _ else _] => destruct c eqn:Eh end.
  - (* 1 GiB pages *)
    rewrite !andb_true_iff, bool_decide_eq_true, !N.eqb_eq, N.leb_le in Eh. destruct Eh as [[[B0 B1] B2] B3].
    destruct (bl_fill 512 HUGE _ pdpt (i3 vb) ps 0) as [pdpt' mapped] eqn:El.
    apply (bl_fill_ok HUGE _ 512 pdpt (i3 vb) ps 0) in El as (k & -> & K1 & K2 & K3 & K4); [|nn; lia|lia|lia|lia].
    right. exists (<[i4 vb := pdpt']> t), HUGE, k. split; [|done].
    assert (1 <= k)%N by (nn; lia).
    split; [by right; right|]. split; [lia|]. split; [done|].
    split; [rewrite B1; symmetry; apply (N.mod_unique _ _ (512 * i4 vb + i3 vb)%N); nn; lia|]. split; [done|].
    split; [|by intros].
    apply (seg_huge t pdpt); try done.
  - clear Eh.
    destruct (match pdpt !! i3 vb with None => Ok ∅ | Some (P3Tab pd) => Ok pd
              | Some (P3Page _) => Panic end) as [pd|e|] eqn:Ep;
      [|by destruct (pdpt !! i3 vb) as [[]|]|].
    2:{ left. split; [done|]. exists vb. split; [lia|]. split; [lia|]. rewrite walk_w4, H4 by done. unfold w3.
        by destruct (pdpt !! i3 vb) as [[]|]. }
    assert (H3 : forall va, i3 va = i3 vb -> w3 pdpt va = w2 pd va).
    { intros va Hv; unfold w3; rewrite Hv. destruct (pdpt !! i3 vb) as [[]|]; try done; injection Ep as <-; [done|by rewrite w2_empty]. }
    clear Ep.
    match goal with |- context [if ?c then _ else _] => destruct c eqn:Eh end.
    + rewrite !andb_true_iff, bool_decide_eq_true, !N.eqb_eq, N.leb_le in Eh. destruct Eh as [[[B0 B1] B2] B3].
      destruct (bl_fill 512 LARGE _ pd (i2 vb) ps 0) as [pd' mapped] eqn:El.
      apply (bl_fill_ok LARGE _ 512 pd (i2 vb) ps 0) in El as (k & -> & K1 & K2 & K3 & K4); [|nn; lia|lia|lia|lia].
      right. exists (<[i4 vb := <[i3 vb := P3Tab pd']> pdpt]> t), LARGE, k. split; [|done].
      assert (1 <= k)%N by (nn; lia).
      split; [by right; left|]. split; [lia|]. split; [done|].
      split; [rewrite B1; symmetry; apply (N.mod_unique _ _ (262144 * i4 vb + 512 * i3 vb + i2 vb)%N); nn; lia|]. split; [done|].
      split; [|by intros].
      apply (seg_large t pdpt pd); try done.
    + clear Eh.
      destruct (match pd !! i2 vb with None => Ok ∅ | Some (PDTab pt) => Ok pt
                | Some (PDPage _) => Panic end) as [pt|e|] eqn:Ep;
        [|by destruct (pd !! i2 vb) as [[]|]|].
      2:{ left. split; [done|]. exists vb. split; [lia|]. split; [lia|]. rewrite walk_w4, H4, H3 by done. unfold w2.
          by destruct (pd !! i2 vb) as [[]|]. }
      assert (H2 : forall va, i2 va = i2 vb -> w2 pd va = w1 pt va).
      { intros va Hv; unfold w2; rewrite Hv. destruct (pd !! i2 vb) as [[]|]; try done; injection Ep as <-; [done|by rewrite w1_empty]. }
      clear Ep.
      assert (exists p, ps = (BASE * p)%N) as [p Ep].
      { exists (ps / BASE)%N. pose proof (N.div_mod ps BASE ltac:(done)). lia. }
      assert (W : forall va, i4 va = i4 vb -> i3 va = i3 vb -> i2 va = i2 vb -> walk t va = w1 pt va).
      { intros va X4 X3 X2. by rewrite walk_w4, H4, H3, H2 by done. }
      destruct (bl_base 512 pt (i1 vb) pb ps 0 a) as [[pt' mapped]|e|] eqn:El.
      * rewrite Ep in El. apply (bl_base_ok a pb 512 pt (i1 vb) p 0) in El as (k & -> & K1 & K2 & K3 & K4 & K5); [|lia|lia|lia].
        right.
        exists (<[i4 vb := <[i3 vb := P3Tab (<[i2 vb := PDTab pt']> pd)]> pdpt]> t), BASE, k. split; [|done].
        assert (1 <= k)%N by (clear - I1 K3 Ep Hps; nn; lia).
        split; [by left|]. split; [lia|]. split; [clear - K2 Ep; nn; lia|]. split; [done|]. split; [done|].
        split; [by apply (seg_base t pdpt pd pt)|].
        intros _ va R1 R2. destruct (same_block va vb k) as (_ & X4 & X3 & X2 & L & U); [done..|].
        rewrite W by done. unfold w1. by rewrite (K5 (i1 va)).
      * rewrite Ep in El. by apply (bl_base_panic a pb 512 pt (i1 vb) p 0) in El.
      * left. split; [done|]. rewrite Ep in El.
        apply (bl_base_panic a pb 512 pt (i1 vb) p 0) in El. destruct El as (j & J1 & J2 & J3 & J4).
        destruct (i1_at vb (j - i1 vb)) as (V & X4 & X3 & X2 & X1); [done|done|lia|].
        exists (vb + BASE * (j - i1 vb))%N. split; [apply N.le_add_r|]. split; [clear - J1 J3 Ep; nn; lia|].
        rewrite W by done. unfold w1. rewrite X1. replace (i1 vb + (j - i1 vb))%N with j by lia.
        by destruct (pt !! j).
Qed.

Lemma off_mod vb pb va sz : (0 < sz)%N -> (vb mod sz = 0)%N -> (vb <= va)%N ->
  (pb + sz * ((va - vb) / sz) + va mod sz = pb + (va - vb))%N.
Proof.
  intros Hsz Hal E.
  assert (va mod sz = (va - vb) mod sz)%N as ->.
  { replace va with ((va - vb) + (vb / sz) * sz)%N at 1.
    - by rewrite N.mod_add by lia.
    - pose proof (N.div_mod vb sz ltac:(lia)) as D. rewrite Hal in D. lia. }
  pose proof (N.div_mod (va - vb) sz ltac:(lia)). lia.
Qed.
Lemma mod_add_zero x y sz : (0 < sz)%N -> (x mod sz = 0)%N -> (y mod sz = 0)%N -> ((x + y) mod sz = 0)%N.
Proof. intros S X Y. rewrite N.add_mod by lia. rewrite X, Y. cbn. apply N.mod_0_l. lia. Qed.
Lemma page_mod sz k : is_page_size sz -> ((sz * k) mod BASE = 0)%N.
Proof.
  intros [-> | [-> | ->]].
  - rewrite N.mul_comm. by apply N.mod_mul.
  - replace (LARGE * k)%N with (512 * k * BASE)%N by (nn; lia). by apply N.mod_mul.
  - replace (HUGE * k)%N with (262144 * k * BASE)%N by (nn; lia). by apply N.mod_mul.
Qed.
Lemma sub_mod_zero x y sz : (0 < sz)%N -> (y <= x)%N -> (x mod sz = 0)%N -> (y mod sz = 0)%N -> ((x - y) mod sz = 0)%N.
Proof.
  intros S L X Y. pose proof (N.div_mod x sz ltac:(lia)) as Dx. pose proof (N.div_mod y sz ltac:(lia)) as Dy.
  rewrite X in Dx. rewrite Y in Dy. replace (x - y)%N with ((x / sz - y / sz) * sz)%N; [apply N.mod_mul; lia|].
  rewrite N.mul_sub_distr_r. lia.
Qed.

Lemma bl_aligned f t vb pb ps a t2 : bl_generic f t vb pb ps a = Ok t2 ->
  (pb mod BASE = 0)%N /\ (ps mod BASE = 0)%N /\ (vb mod BASE = 0)%N /\ a <> BNone.
Proof.
  destruct f; [done|]. unfold bl_generic; fold bl_generic. intros H.
  destruct (N.eqb_spec (pb mod BASE) 0); [|done].
  destruct (N.eqb_spec (ps mod BASE) 0); [|done].
  destruct (N.eqb_spec (vb mod BASE) 0); [|done].
  destruct (bool_decide (a = BNone)) eqn:E; [done|]. by apply bool_decide_eq_false in E.
Qed.

Definition mapped_as (t2 : gmap N (gmap N pdpte)) (va pa : N) (a : bact) : Prop :=
  exists l sz b, walk t2 va = Some (l, sz) /\ (l_pa l + va mod sz = pa)%N /\ l_fl l = bl_flags b a.

Lemma bl_view f : forall t vb pb ps a t2,
  bl_generic f t vb pb ps a = Ok t2 -> (0 < ps)%N -> (vb + ps <= 2 ^ 48)%N ->
  forall va, (va < 2 ^ 48)%N ->
    (in_range vb ps va -> mapped_as t2 va (pb + (va - vb)) a) /\
    (~ in_range vb ps va -> walk t2 va = walk t va).
Proof.
  induction f as [|f IH]; intros t vb pb ps a t2 H Hps Hb va Hva; [done|].
  destruct (bl_aligned _ _ _ _ _ _ _ H) as (A1 & A2 & A3 & A4).
  destruct (bl_step f t vb pb ps a) as [[E _]|(t1 & sz & k & R & E)]; [lia|done..| |]; rewrite E in H; [done|].
  destruct R as (Hsz & Hk & Hkp & Hv & Hp & Hseg & _).
  apply page_size_pos in Hsz as Hpos.
  assert (Q : forall va, (va < 2 ^ 48)%N -> (in_range vb (sz * k) va -> mapped_as t1 va (pb + (va - vb)) a) /\
    (~ in_range vb (sz * k) va -> walk t1 va = walk t va)).
  { clear va Hva. intros va Hva. specialize (Hseg va Hva). split; intros R.
    - destruct R as [R1 R2]. rewrite rng_true in Hseg by done.
      eexists _, _, _. split; [exact Hseg|]. split; [|done]. cbn [l_pa]. by apply off_mod.
    - unfold in_range in R. rewrite rng_false in Hseg by lia. done. }
  destruct (N.ltb_spec (sz * k) ps) as [L|L].
  - specialize (IH _ _ _ _ _ _ H ltac:(lia) ltac:(lia) va Hva) as [I1 I2].
    destruct (Q va Hva) as [Q1 Q2]. unfold in_range in *. split; intros R.
    + destruct (N.le_gt_cases (vb + sz * k) va) as [G|G].
      * replace (pb + (va - vb))%N with (pb + sz * k + (va - (vb + sz * k)))%N by lia. apply I1. lia.
      * unfold mapped_as in *. rewrite I2 by lia. apply Q1. lia.
    + rewrite I2 by lia. apply Q2. lia.
  - injection H as ->. replace (sz * k)%N with ps in Q by lia. by apply Q.
Qed.

Lemma bl_view0 f t vb pb a t2 : bl_generic f t vb pb 0 a = Ok t2 -> forall va, walk t2 va = walk t va.
Proof.
  intros H va. destruct (bl_aligned _ _ _ _ _ _ _ H) as (A1 & A2 & A3 & A4).
  destruct f as [|f]; [done|]. unfold bl_generic in H; fold bl_generic in H.
  rewrite A1, A2, A3, (bool_decide_eq_false_2 _ A4) in H. cbn [negb orb] in H. change (0 =? 0)%N with true in H. cbn [negb orb] in H.
  change (HUGE <=? 0)%N with false in H. change (LARGE <=? 0)%N with false in H. rewrite !andb_false_r in H.
  set (pdpt := default ∅ (t !! i4 vb)) in *.
  assert (H4 : i4 vb = i4 va -> w4 t va = w3 pdpt va).
  { intros Hv. unfold w4, pdpt. rewrite Hv. destruct (t !! i4 va) as [p|]; [done|]. cbn. by rewrite w3_empty. }
  destruct (match pdpt !! i3 vb with None => Ok ∅ | Some (P3Tab pd) => Ok pd
              | Some (P3Page _) => Panic end) as [pd|e|] eqn:Ep; [|done|done].
  assert (H3 : i3 vb = i3 va -> w3 pdpt va = w2 pd va).
  { intros Hv; unfold w3; rewrite <- Hv. destruct (pdpt !! i3 vb) as [[]|]; try done; injection Ep as <-; [done|by rewrite w2_empty]. }
  rewrite andb_false_r in H. cbv iota in H.
  destruct (match pd !! i2 vb with None => Ok ∅ | Some (PDTab pt) => Ok pt
                | Some (PDPage _) => Panic end) as [pt|e|] eqn:Eq; [|done|done].
  assert (H2 : i2 vb = i2 va -> w2 pd va = w1 pt va).
  { intros Hv; unfold w2; rewrite <- Hv. destruct (pd !! i2 vb) as [[]|]; try done; injection Eq as <-; [done|by rewrite w1_empty]. }
  change (bl_base 512 pt (i1 vb) pb 0 0 a) with (Ok (pt, 0%N) : res (gmap N leaf * N)) in H.
  cbv beta iota in H. change (0 <? 0)%N with false in H. injection H as <-.
  rewrite (walk_w4 t va), walk_w4, w4_insert. destruct (N.eqb_spec (i4 vb) (i4 va)) as [E4|E4]; [|done].
  rewrite H4, w3_insert by done. destruct (N.eqb_spec (i3 vb) (i3 va)) as [E3|E3]; [|done].
  rewrite H3, w2_insert by done. destruct (N.eqb_spec (i2 vb) (i2 va)) as [E2|E2]; [|done].
  by rewrite H2.
Qed.

Lemma bl_total f : forall t vb pb ps a,
  (ps / BASE < N.of_nat f)%N -> (0 < ps)%N -> (vb + ps <= 2 ^ 48)%N ->
  (pb mod BASE = 0)%N -> (ps mod BASE = 0)%N -> (vb mod BASE = 0)%N -> a <> BNone ->
  (forall va, in_range vb ps va -> walk t va = None) ->
  exists t2, bl_generic f t vb pb ps a = Ok t2.
Proof.
  induction f as [|f IH]; intros t vb pb ps a Hf Hps Hb A1 A2 A3 A4 Hfree; [by apply N.nlt_0_r in Hf|].
  destruct (bl_step f t vb pb ps a) as [[_ (va & V1 & V2 & V3)]|(t1 & sz & k & R & E)]; [lia|done..| |].
  { destruct V3. apply Hfree. by split. }
  rewrite E. destruct R as (Hsz & Hk & Hkp & Hv & Hp & Hseg & _).
  apply page_size_pos in Hsz as Hpos. pose proof (page_mod sz k Hsz) as Hm.
  destruct (N.ltb_spec (sz * k) ps) as [L|L]; [|by eexists].
  assert (BASE <= sz * k)%N. { destruct Hsz as [-> | [-> | ->]]; nn; lia. }
  apply IH; try lia; try done.
  - assert ((ps - sz * k) / BASE < ps / BASE)%N; [|lia].
    apply N.div_lt_upper_bound; [done|]. pose proof (N.div_mod ps BASE ltac:(done)) as D. rewrite A2 in D. lia.
  - by apply mod_add_zero.
  - apply sub_mod_zero; done || lia.
  - by apply mod_add_zero.
  - intros va [R1 R2]. rewrite (Hseg va) by lia. rewrite rng_false by lia. apply Hfree. split; lia.
Qed.

Lemma bl_no_large f : forall t vb pb ps a t2,
  bl_generic f t vb pb ps a = Ok t2 -> (0 < ps)%N -> (vb + ps <= 2 ^ 48)%N ->
  (ps < LARGE)%N \/ (vb mod LARGE <> pb mod LARGE)%N ->
  forall va, in_range vb ps va -> walk t va = None.
Proof.
  induction f as [|f IH]; intros t vb pb ps a t2 H Hps Hb Hnl va Hr; [done|].
  destruct (bl_aligned _ _ _ _ _ _ _ H) as (A1 & A2 & A3 & A4).
  destruct (bl_step f t vb pb ps a) as [[E _]|(t1 & sz & k & R & E)]; [lia|done..| |]; rewrite E in H; [done|].
  destruct R as (Hsz & Hk & Hkp & Hv & Hp & Hseg & Hn).
  assert (sz = BASE) as ->.
  { destruct Hsz as [-> | [-> | ->]]; [done| |]; exfalso.
    - destruct Hnl as [Hl|Hl]; [nn; lia|]. by rewrite Hv, Hp in Hl.
    - destruct Hnl as [Hl|Hl]; [nn; lia|].
      assert (Q : forall x, (x mod HUGE = 0)%N -> (x mod LARGE = 0)%N).
      { intros x X. pose proof (N.div_mod x HUGE ltac:(done)) as D. rewrite X in D.
        rewrite D. replace (HUGE * (x / HUGE) + 0)%N with (512 * (x / HUGE) * LARGE)%N by (nn; lia). by apply N.mod_mul. }
      by rewrite (Q vb), (Q pb) in Hl. }
  specialize (Hn eq_refl). unfold in_range in *.
  destruct (N.lt_ge_cases va (vb + BASE * k)) as [G|G]; [apply Hn; lia|].
  destruct (N.ltb_spec (BASE * k) ps) as [L|L]; [|lia].
  assert (walk t va = walk t1 va) as ->. { rewrite (Hseg va) by lia. by rewrite rng_false by lia. }
  eapply IH; [exact H|lia|lia| |lia].
  destruct Hnl as [Hl|Hl]; [left; lia|right]. intros Eq. apply Hl.
  assert (Z : (LARGE <> 0)%N) by done.
  remember (BASE * k)%N as m. clear - Eq Z.
  rewrite (N.add_mod vb), (N.add_mod pb) in Eq by done.
  pose proof (N.mod_lt vb LARGE Z) as L1. pose proof (N.mod_lt pb LARGE Z) as L2. pose proof (N.mod_lt m LARGE Z) as L3.
  set (x := (vb mod LARGE)%N) in *. set (y := (pb mod LARGE)%N) in *. set (z := (m mod LARGE)%N) in *. clearbody x y z.
  assert (Q : forall u, (u < LARGE)%N -> ((u + z) mod LARGE = if u + z <? LARGE then u + z else u + z - LARGE)%N).
  { intros u U. destruct (N.ltb_spec (u + z) LARGE); [by apply N.mod_small|].
    symmetry. apply (N.mod_unique _ _ 1); lia. }
  rewrite !Q in Eq by done. destruct (N.ltb_spec (x + z) LARGE), (N.ltb_spec (y + z) LARGE); lia.
Qed.
