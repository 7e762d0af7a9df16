(** C30 and C31: TLB shootdown and core sets. *)
From Verif Require Import Base TlbModel.
From Coq Require Import Sorting.
From stdpp Require Import functions.
From stdpp Require Import list.

(** ** C31: core bitmap *)

(** Is core [i] a member? *)
Definition cb_mem (m : cbm) (i : N) : bool :=
  if (i <? 128)%N then N.testbit (cb_low m) i
  else if (i <? 256)%N then N.testbit (cb_high m) (i - 128) else false.

Definition cb_wf (m : cbm) : Prop := (cb_low m < 2^128)%N /\ (cb_high m < 2^128)%N.

Lemma ctz_pos_testbit p : N.testbit (Npos p) (ctz_pos p) = true.
Proof.
  induction p as [p IH|p IH|]; simpl; try done.
  destruct (ctz_pos p) eqn:E; simpl; [exact IH|].
  rewrite Pos.pred_N_succ. exact IH.
Qed.

Lemma ctz_pos_low p i : (i < ctz_pos p)%N -> N.testbit (Npos p) i = false.
Proof.
  revert i. induction p as [p IH|p IH|]; simpl ctz_pos; intros i Hi; try lia.
  change (N.pos p~0) with (2 * N.pos p)%N.
  destruct (decide (i = 0)%N) as [->|]; [done|].
  replace i with (N.succ (N.pred i)) by lia. rewrite N.testbit_even_succ by lia.
  apply IH. lia.
Qed.

Lemma pos_lt_log2 a n : (a < 2^n)%N -> a <> 0%N -> (N.log2 a < n)%N.
Proof. intros. apply N.log2_lt_pow2; lia. Qed.

Lemma land_neg p w : (Npos p < 2^w)%N -> N.land (Npos p) (2^w - Npos p) = (2^ctz_pos p)%N.
Proof.
  revert w. induction p as [q IH|q IH|]; intros w Hw.
  - destruct (N.zero_or_succ w) as [->|[v ->]]; [simpl in Hw; lia|].
    rewrite N.pow_succ_r' in *.
    change (N.pos q~1) with (2 * N.pos q + 1)%N in *.
    replace (2 * 2^v - (2 * N.pos q + 1))%N with (2 * (2^v - 1 - N.pos q) + 1)%N by lia.
    assert (N.pos q < 2^v)%N as Hq by lia.
    simpl ctz_pos. change (2^0)%N with 1%N.
    assert (2^v - 1 - N.pos q = N.lnot (N.pos q) v)%N as ->.
    { rewrite N.lnot_sub_low by (apply pos_lt_log2; lia). rewrite N.ones_equiv. lia. }
    apply N.bits_inj. intros i. rewrite N.land_spec.
    destruct (decide (i = 0)%N) as [->|].
    + by rewrite !N.testbit_odd_0.
    + replace i with (N.succ (N.pred i)) by lia. rewrite !N.testbit_odd_succ by lia.
      rewrite <- N.land_spec, N.land_lnot_diag_low by (apply pos_lt_log2; lia).
      rewrite N.bits_0. change 1%N with (2 * 0 + 1)%N. rewrite N.testbit_odd_succ by lia.
      by rewrite N.bits_0.
  - destruct (N.zero_or_succ w) as [->|[v ->]]; [simpl in Hw; lia|].
    rewrite N.pow_succ_r' in *.
    change (N.pos q~0) with (2 * N.pos q)%N in *.
    replace (2 * 2^v - 2 * N.pos q)%N with (2 * (2^v - N.pos q))%N by lia.
    simpl ctz_pos. rewrite N.pow_succ_r'. rewrite <- (IH v) by lia.
    apply N.bits_inj. intros i. rewrite N.land_spec.
    destruct (decide (i = 0)%N) as [->|].
    + by rewrite !N.testbit_even_0.
    + replace i with (N.succ (N.pred i)) by lia. rewrite !N.testbit_even_succ by lia.
      by rewrite N.land_spec.
  - simpl ctz_pos. change (2^0)%N with 1%N.
    apply N.bits_inj. intros i. rewrite N.land_spec.
    destruct (decide (i = 0)%N) as [->|].
    + destruct (N.zero_or_succ w) as [->|[v ->]]; [simpl in Hw; lia|].
      rewrite N.pow_succ_r'. pose proof (N.pow_nonzero 2 v ltac:(done)).
      replace (2 * 2^v - 1)%N with (2 * (2^v - 1) + 1)%N by lia.
      by rewrite N.testbit_odd_0.
    + replace (N.testbit 1 i) with false; [done|].
      replace i with (N.succ (N.pred i)) by lia.
      change 1%N with (2 * 0 + 1)%N. rewrite N.testbit_odd_succ by lia.
      by rewrite N.bits_0.
Qed.

Lemma clear_lsb x i : (x < 2^128)%N -> x <> 0%N ->
  N.testbit (N.lxor x (N.land x (wneg128 x))) i = negb (i =? ctz x)%N && N.testbit x i
  /\ N.testbit x (ctz x) = true /\ (ctz x < 128)%N
  /\ (forall j, (j < ctz x)%N -> N.testbit x j = false)
  /\ (N.lxor x (N.land x (wneg128 x)) < 2^128)%N.
Proof.
  intros Hx Hnz. destruct x as [|p]; [done|].
  unfold wneg128. rewrite N.mod_small by lia.
  rewrite land_neg by done. simpl ctz.
  pose proof (ctz_pos_testbit p) as Ht.
  assert (ctz_pos p < 128)%N as Hc.
  { destruct (N.ltb_spec (ctz_pos p) 128); [done|].
    rewrite N.bits_above_log2 in Ht; [done|].
    pose proof (pos_lt_log2 _ _ Hx Hnz). lia. }
  assert (forall k, N.testbit (N.lxor (N.pos p) (2 ^ ctz_pos p)) k
           = negb (k =? ctz_pos p)%N && N.testbit (N.pos p) k) as Hb.
  { intros k. rewrite N.lxor_spec, N.pow2_bits_eqb.
    rewrite (N.eqb_sym (ctz_pos p) k).
    destruct (N.eqb_spec k (ctz_pos p)) as [->|]; [by rewrite Ht|].
    simpl. by rewrite xorb_false_r. }
  split; [apply Hb|]. split; [done|]. split; [done|]. split; [apply ctz_pos_low|].
  destruct (decide (N.lxor (N.pos p) (2 ^ ctz_pos p) = 0)%N) as [->|Hn]; [lia|].
  apply N.log2_lt_pow2; [lia|].
  pose proof (N.bit_log2 _ Hn) as Hl. rewrite Hb in Hl.
  apply andb_prop in Hl as [_ Hl].
  destruct (N.ltb_spec (N.log2 (N.lxor (N.pos p) (2 ^ ctz_pos p))) 128); [done|].
  rewrite N.bits_above_log2 in Hl; [done|].
  pose proof (pos_lt_log2 _ _ Hx Hnz). lia.
Qed.

Lemma cbm_next_spec m : cb_wf m ->
  match cbm_next m with
  | None => forall i, cb_mem m i = false
  | Some (k, m') => cb_wf m' /\ cb_mem m k = true /\ (k < 256)%N /\
      (forall j, (j < k)%N -> cb_mem m j = false) /\
      (forall i, cb_mem m' i = negb (i =? k)%N && cb_mem m i)
  end.
Proof.
  intros [Hl Hh]. unfold cbm_next.
  destruct (N.eqb_spec (cb_low m) 0) as [El|El]; simpl.
  - destruct (N.eqb_spec (cb_high m) 0) as [Eh|Eh]; simpl.
    + intros i. unfold cb_mem. rewrite El, Eh, !N.bits_0. by repeat case_match.
    + destruct (N.ltb_spec 0 (cb_low m)); [lia|].
      destruct (clear_lsb (cb_high m) 0 Hh Eh) as (_&Ht&Hc&Hlow&Hlt).
      split; [done|]. unfold cb_mem; simpl.
      destruct (N.ltb_spec (128 + ctz (cb_high m)) 128); [lia|].
      destruct (N.ltb_spec (128 + ctz (cb_high m)) 256); [|lia].
      replace (128 + ctz (cb_high m) - 128)%N with (ctz (cb_high m)) by lia.
      split; [done|]. split; [lia|]. split.
      * intros j Hj. destruct (N.ltb_spec j 128); [by rewrite El, N.bits_0|].
        destruct (j <? 256)%N; [|done]. apply Hlow. lia.
      * intros i. destruct (N.ltb_spec i 128).
        { rewrite El, N.bits_0. by rewrite andb_false_r. }
        destruct (N.ltb_spec i 256); [|by rewrite andb_false_r].
        destruct (clear_lsb (cb_high m) (i - 128) Hh Eh) as (->&_).
        f_equal. f_equal. destruct (N.eqb_spec (i - 128) (ctz (cb_high m))),
          (N.eqb_spec i (128 + ctz (cb_high m))); (done || lia).
  - destruct (N.ltb_spec 0 (cb_low m)); [|lia].
    destruct (clear_lsb (cb_low m) 0 Hl El) as (_&Ht&Hc&Hlow&Hlt).
    split; [done|]. unfold cb_mem; simpl.
    destruct (N.ltb_spec (ctz (cb_low m)) 128); [|lia].
    split; [done|]. split; [lia|]. split.
    + intros j Hj. destruct (N.ltb_spec j 128); [by apply Hlow|lia].
    + intros i. destruct (N.ltb_spec i 128).
      * by destruct (clear_lsb (cb_low m) i Hl El) as (->&_).
      * destruct (N.eqb_spec i (ctz (cb_low m))); [lia|]. done.
Qed.

Lemma cbm_iter_spec fuel b m : cb_wf m -> (256 <= b + N.of_nat fuel)%N ->
  (forall i, (i < b)%N -> cb_mem m i = false) ->
  (forall i, i ∈ cbm_iter fuel m <-> cb_mem m i = true) /\
  StronglySorted N.lt (cbm_iter fuel m) /\ Forall (fun i => (b <= i)%N) (cbm_iter fuel m).
Proof.
  revert b m. induction fuel as [|n IH]; intros b m Hw Hb Hlow; simpl.
  - split; [|split; constructor]. intros i. split; [by intros ?%elem_of_nil|].
    intros Hi. destruct (N.ltb_spec i b); [by rewrite Hlow in Hi|].
    unfold cb_mem in Hi. destruct (N.ltb_spec i 128); [lia|].
    destruct (N.ltb_spec i 256); [lia|done].
  - pose proof (cbm_next_spec m Hw) as Hn. destruct (cbm_next m) as [[k m']|].
    + destruct Hn as (Hw'&Hk&Hk2&Hkl&Hm').
      assert (b <= k)%N as Hbk.
      { destruct (N.ltb_spec k b); [|done]. by rewrite Hlow in Hk. }
      destruct (IH (k + 1)%N m') as (He&Hs&Hf); [done|lia|..].
      { intros i Hi. rewrite Hm'. destruct (N.eqb_spec i k); [done|]. simpl.
        apply Hkl. lia. }
      split; [|split].
      * intros i. rewrite elem_of_cons, He, Hm'.
        destruct (N.eqb_spec i k) as [->|]; simpl; [by split; [|left]|].
        split; [by intros [?|?]|by right].
      * constructor; [done|]. eapply Forall_impl; [exact Hf|]. simpl. intros; lia.
      * constructor; [done|]. eapply Forall_impl; [exact Hf|]. simpl. intros; lia.
    + split; [|split; constructor]. intros i. rewrite Hn.
      split; [by intros ?%elem_of_nil|done].
Qed.

Lemma cbm_set_spec m i v : cb_wf m -> (i < 256)%N ->
  exists m', cbm_set m i v = Ok m' /\ cb_wf m' /\
    forall j, cb_mem m' j = if (j =? i)%N then v else cb_mem m j.
Proof.
  intros [Hl Hh] Hi. unfold cbm_set, u128_set_bit.
  assert (forall x k, (x < 2^128)%N -> (k < 128)%N ->
    ((if v then N.setbit x k else N.clearbit x k) < 2^128)%N /\
    forall j, N.testbit (if v then N.setbit x k else N.clearbit x k) j
       = if (j =? k)%N then v else N.testbit x j) as Hset.
  { intros x k Hx Hk.
    assert (forall j, N.testbit (if v then N.setbit x k else N.clearbit x k) j
       = if (j =? k)%N then v else N.testbit x j) as Hb.
    { intros j. destruct v.
      - rewrite N.setbit_eqb, (N.eqb_sym k j). by destruct (j =? k)%N.
      - rewrite N.clearbit_eqb, (N.eqb_sym k j). destruct (j =? k)%N; simpl.
        + by rewrite andb_false_r. + by rewrite andb_true_r. }
    split; [|done].
    set (y := if v then _ else _) in *.
    destruct (decide (y = 0)%N) as [->|Hn]; [lia|].
    apply N.log2_lt_pow2; [lia|].
    pose proof (N.bit_log2 _ Hn) as Hlg. rewrite Hb in Hlg.
    destruct (N.eqb_spec (N.log2 y) k); [lia|].
    destruct (N.ltb_spec (N.log2 y) 128); [done|].
    destruct (decide (x = 0)%N) as [->|]; [by rewrite N.bits_0 in Hlg|].
    rewrite N.bits_above_log2 in Hlg; [done|].
    pose proof (pos_lt_log2 _ _ Hx ltac:(done)). lia. }
  destruct (N.leb_spec i 127).
  - destruct (N.ltb_spec i 128); [|lia].
    destruct (Hset (cb_low m) i Hl ltac:(lia)) as [Hlt Hb].
    eexists. split; [done|]. split; [done|]. intros j. unfold cb_mem; simpl.
    rewrite Hb. destruct (N.ltb_spec j 128); [done|].
    destruct (N.eqb_spec j i); [lia|done].
  - destruct (N.ltb_spec (i - 128) 128); [|lia].
    destruct (Hset (cb_high m) (i - 128)%N Hh ltac:(lia)) as [Hlt Hb].
    eexists. split; [done|]. split; [done|]. intros j. unfold cb_mem; simpl.
    rewrite Hb. destruct (N.ltb_spec j 128).
    { destruct (N.eqb_spec j i); [lia|done]. }
    destruct (N.ltb_spec j 256).
    + destruct (N.eqb_spec (j - 128) (i - 128)), (N.eqb_spec j i); (done || lia).
    + destruct (N.eqb_spec j i); [lia|done].
Qed.

(** A history of insertions ([true]) and removals ([false]) into an empty set. *)
Fixpoint cbm_hist (m : cbm) (ops : list (N * bool)) : res cbm :=
  match ops with
  | [] => Ok m
  | (i, v) :: ops => match cbm_set m i v with Ok m' => cbm_hist m' ops | r => r end
  end.
(** Specification: the set of ids after the history. *)
Fixpoint set_hist (S : gset N) (ops : list (N * bool)) : gset N :=
  match ops with
  | [] => S
  | (i, v) :: ops => set_hist (if v then {[i]} ∪ S else S ∖ {[i]}) ops
  end.

(** C31: after any history of insertions and removals of ids below 256, iterating the
    bitmap gives exactly the ids of the set, in increasing order, each once. *)
Theorem C31_bitmap_is_set ops :
  Forall (fun o => (o.1 < 256)%N) ops ->
  exists m, cbm_hist (mkCbm 0 0) ops = Ok m /\
    (forall i, i ∈ cbm_iter 256 m <-> i ∈ set_hist ∅ ops) /\
    StronglySorted N.lt (cbm_iter 256 m) /\
    (cbm_is_empty m = true <-> set_hist ∅ ops = ∅).
Proof.
  intros Hops.
  cut (forall m S, cb_wf m -> (forall i, i ∈ S <-> cb_mem m i = true) ->
    exists m', cbm_hist m ops = Ok m' /\ cb_wf m' /\
      forall i, i ∈ set_hist S ops <-> cb_mem m' i = true).
  { intros H. destruct (H (mkCbm 0 0) ∅) as (m&Hm&Hw&Hs).
    - by split.
    - intros i. split; [set_solver|]. unfold cb_mem; cbn [cb_low cb_high]. rewrite !N.bits_0.
      by repeat case_match.
    - exists m. split; [done|].
      destruct (cbm_iter_spec 256 0 m Hw) as (He&Hsort&_); [lia|intros; lia|].
      split; [|split; [done|]].
      + intros i. by rewrite He, Hs.
      + unfold cbm_is_empty. split.
        * intros [E1%N.eqb_eq E2%N.eqb_eq]%andb_prop. apply elem_of_equiv_empty_L.
          intros i Hi%Hs. unfold cb_mem in Hi. rewrite E1, E2, !N.bits_0 in Hi.
          by repeat case_match.
        * intros E.
          assert (forall i, cb_mem m i = false) as Hno.
          { intros i. destruct (cb_mem m i) eqn:Ei; [|done]. apply Hs in Ei.
            rewrite E in Ei. set_solver. }
          apply andb_true_intro. rewrite !N.eqb_eq.
          destruct Hw as [Hl Hh]. split; apply N.bits_inj_0; intros i.
          -- destruct (N.ltb_spec i 128).
             ++ specialize (Hno i). unfold cb_mem in Hno.
                destruct (N.ltb_spec i 128); [done|lia].
             ++ destruct (decide (cb_low m = 0)%N) as [->|]; [by rewrite N.bits_0|].
                apply N.bits_above_log2. pose proof (pos_lt_log2 _ _ Hl ltac:(done)). lia.
          -- destruct (N.ltb_spec i 128).
             ++ specialize (Hno (i + 128)%N). unfold cb_mem in Hno.
                destruct (N.ltb_spec (i + 128) 128); [lia|].
                destruct (N.ltb_spec (i + 128) 256); [|lia].
                by replace (i + 128 - 128)%N with i in Hno by lia.
             ++ destruct (decide (cb_high m = 0)%N) as [->|]; [by rewrite N.bits_0|].
                apply N.bits_above_log2. pose proof (pos_lt_log2 _ _ Hh ltac:(done)). lia. }
  induction Hops as [|[i v] ops Hi _ IH]; intros m S Hw HS; simpl.
  { by exists m. }
  destruct (cbm_set_spec m i v Hw Hi) as (m'&->&Hw'&Hm').
  apply IH; [done|]. intros j. rewrite Hm'.
  destruct (N.eqb_spec j i) as [->|].
  - destruct v; set_solver.
  - rewrite <- HS. destruct v; set_solver.
Qed.

(** Ids of 256 and more panic. *)
Theorem C31_large_ids_panic m i v : (256 <= i)%N -> cbm_set m i v = Panic.
Proof.
  intros Hi. unfold cbm_set, u128_set_bit. destruct (N.leb_spec i 127); [lia|].
  by destruct (N.ltb_spec (i - 128) 128); [lia|].
Qed.

Example C31_hyps_met :
  exists m, cbm_hist (mkCbm 0 0) [(200, true); (5, true); (77, true); (5, false); (127, true); (128, true)]%N = Ok m
    /\ cbm_iter 256 m = [77; 127; 128; 200]%N.
Proof. eexists. split; reflexivity. Qed.

Print Assumptions C31_bitmap_is_set.
