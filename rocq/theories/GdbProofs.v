(** Proofs for the kernel debugger (C67). *)
From Verif Require Import Base GdbModel GdbSpec.
Local Open Scope N_scope.

Definition point_of (c : cell) : option point :=
  match c_entry c with
  | None => None
  | Some (a, BBreak, r) => Some (PBreak a r)
  | Some (a, BWatch k, _) => Some (PWatch a (c_len c) k)
  end.
Definition cwf (c : cell) : Prop :=
  match c_entry c with
  | None => c_bit c = false
  | Some (a, BBreak, r) => c_addr c = a /\ c_cond c = CInstr /\ c_bit c = true
  | Some (a, BWatch k, r) =>
      r = RHard /\ c_addr c = a /\ c_cond c = cond_of k /\ c_bit c = true /\
      (c_len c = 1 \/ c_len c = 2 \/ c_len c = 4 \/ c_len c = 8) /\ a mod c_len c = 0 /\ k <> WRead
  end.
Definition points (l : list cell) : list point := omap point_of l.
Definition off (c : cell) : Prop := c_on c = false.

Lemma points_cons c l : points (c :: l) = match point_of c with Some p => p :: points l | None => points l end.
Proof. unfold points. cbn. by destruct (point_of c). Qed.
Lemma points_len l : (length (points l) <= length l)%nat.
Proof. induction l as [|c l IH]; [done|]. rewrite points_cons. destruct (point_of c); cbn [length]; lia. Qed.
Lemma point_some c e : c_entry c = Some e -> exists p, point_of c = Some p.
Proof. unfold point_of. intros ->. destruct e as [[a [|k]] r]; eauto. Qed.
Lemma point_none c : c_entry c = None -> point_of c = None.
Proof. unfold point_of. by intros ->. Qed.

Lemma fill_ok f p l :
  (forall c, c_entry c = None -> cwf (f c) /\ point_of (f c) = Some p /\ c_on (f c) = c_on c) ->
  Forall cwf l -> Forall off l ->
  let '(l', b) := fill f l in
  Forall cwf l' /\ Forall off l' /\ length l' = length l /\
  ((b = true /\ points l' ≡ₚ p :: points l /\ (length (points l) < length l)%nat) \/
   (b = false /\ l' = l /\ length (points l) = length l)).
Proof.
  intros Hf Hw Ho. induction l as [|c l IH]; [cbn; repeat split; auto|].
  apply stdpp.list.Forall_cons in Hw as [Hc Hw]. apply stdpp.list.Forall_cons in Ho as [Hoc Ho].
  cbn [fill]. destruct (c_entry c) as [e|] eqn:E.
  - specialize (IH Hw Ho). destruct (fill f l) as [l' b]. destruct IH as (I1 & I2 & I3 & I4).
    destruct (point_some c e E) as [q Hq].
    split; [by constructor|]. split; [by constructor|]. split; [cbn; lia|].
    rewrite !points_cons, Hq. destruct I4 as [(-> & P & Lt)|(-> & -> & El)].
    + left. split; [done|]. split; [rewrite P; apply Permutation_swap|cbn; lia].
    + right. split; [done|]. split; [done|cbn; lia].
  - destruct (Hf c E) as (F1 & F2 & F3). split; [by constructor|]. split; [constructor; [unfold off; by rewrite F3|done]|].
    split; [done|]. left. split; [done|]. rewrite !points_cons, F2, (point_none c E). split; [done|].
    cbn. pose proof (points_len l). lia.
Qed.

Lemma drop_ok q p l :
  (forall c, c ∈ l -> (match c_entry c with Some e => q e | None => false end) = true <-> point_of c = Some p) ->
  Forall cwf l -> Forall off l ->
  let '(l', b) := drop_first q l in
  Forall cwf l' /\ Forall off l' /\ length l' = length l /\
  ((b = true /\ points l ≡ₚ p :: points l') \/ (b = false /\ l' = l /\ p ∉ points l)).
Proof.
  induction l as [|c l IH]; intros Hq Hw Ho; [cbn; repeat split; auto; right; repeat split; auto; apply not_elem_of_nil|].
  apply stdpp.list.Forall_cons in Hw as [Hc Hw]. apply stdpp.list.Forall_cons in Ho as [Hoc Ho].
  cbn [drop_first]. pose proof (Hq c (elem_of_list_here _ _)) as Hqc.
  destruct (match c_entry c with Some e => q e | None => false end) eqn:E.
  - assert (Hp : point_of c = Some p) by (by apply Hqc).
    split; [by constructor|]. split; [by constructor|]. split; [done|]. left. split; [done|].
    rewrite !points_cons, Hp. by cbn.
  - assert (Hp : point_of c <> Some p) by (intros H; apply Hqc in H; congruence).
    specialize (IH (fun c' Hc' => Hq c' (elem_of_list_further _ _ _ Hc')) Hw Ho).
    destruct (drop_first q l) as [l' b]. destruct IH as (I1 & I2 & I3 & I4).
    split; [by constructor|]. split; [by constructor|]. split; [cbn; lia|].
    rewrite !points_cons. destruct I4 as [(-> & P)|(-> & -> & Hn)].
    + left. split; [done|]. destruct (point_of c); [|done]. rewrite P. apply Permutation_swap.
    + right. split; [done|]. split; [done|]. destruct (point_of c) as [r|]; [|done].
      rewrite not_elem_of_cons. split; [congruence|done].
Qed.

Lemma take_out_perm p L : p ∈ L -> L ≡ₚ p :: take_out p L.
Proof.
  induction L as [|q L IH]; intros H; [by apply elem_of_nil in H|]. cbn. destruct (decide (q = p)) as [->|]; [done|].
  apply elem_of_cons in H as [?|H]; [congruence|]. rewrite Permutation_swap. by rewrite <- IH.
Qed.

Definition ginv (l : list cell) (L : list point) : Prop :=
  length l = 4%nat /\ Forall cwf l /\ Forall off l /\ points l ≡ₚ L.

Lemma cell_point l c p : c ∈ l -> point_of c = Some p -> p ∈ points l.
Proof. intros H1 H2. unfold points. apply elem_of_list_omap. eauto. Qed.

Lemma size_of_ok len : len = 1 \/ len = 2 \/ len = 4 \/ len = 8 -> size_of len = len.
Proof. by intros [->|[->|[->| ->]]]. Qed.

Lemma req_ok l L r :
  ginv l L -> plain_req L r ->
  (gdb_req l r).2 = (pt_req L r).2 /\ ginv (gdb_req l r).1 (pt_req L r).1.
Proof.
  intros (Hl & Hw & Ho & Hp) Hpl.
  assert (Hlen : length (points l) = length L) by (by rewrite Hp).
  assert (HinL : forall x, x ∈ points l <-> x ∈ L) by (intros x; by rewrite Hp).
  assert (Hadd : forall f p, (forall c, c_entry c = None -> cwf (f c) /\ point_of (f c) = Some p /\ c_on (f c) = c_on c) ->
     (fill f l).2 = (pt_req L (GAdd p)).2 /\ ginv (fill f l).1 (pt_req L (GAdd p)).1).
  { intros f p Hf. pose proof (fill_ok f p l Hf Hw Ho) as H. destruct (fill f l) as [l' b]. cbn [fst snd].
    destruct H as (H1 & H2 & H3 & H4). unfold pt_req. destruct H4 as [(-> & P & Lt)|(-> & -> & El)].
    - rewrite bool_decide_true by lia. cbn. split; [done|]. split; [lia|]. split; [done|]. split; [done|]. by rewrite P, Hp.
    - rewrite bool_decide_false by lia. cbn. done. }
  assert (Hdel : forall q p, (forall c, c ∈ l -> (match c_entry c with Some e => q e | None => false end) = true <-> point_of c = Some p) ->
     (drop_first q l).2 = (pt_req L (GDel p)).2 /\ ginv (drop_first q l).1 (pt_req L (GDel p)).1).
  { intros q p Hq. pose proof (drop_ok q p l Hq Hw Ho) as H. destruct (drop_first q l) as [l' b]. cbn [fst snd].
    destruct H as (H1 & H2 & H3 & H4). unfold pt_req. destruct H4 as [(-> & P)|(-> & -> & Hn)].
    - assert (Hin : p ∈ L) by (rewrite <- HinL, P; by left). rewrite bool_decide_true by done. cbn. split; [done|].
      split; [lia|]. split; [done|]. split; [done|].
      apply (Permutation.Permutation_cons_inv (a := p)). rewrite <- P, Hp. by apply take_out_perm.
    - rewrite bool_decide_false by (by rewrite <- HinL). done. }
  destruct r as [[a r|a len k]|[a r|a len k]]; cbn [gdb_req].
  - apply Hadd. intros c Hc. unfold cwf, point_of. cbn. done.
  - cbn [plain_req plain] in Hpl. destruct Hpl as (Hs & Ha & Hk & _). apply Hadd. intros c Hc. unfold cwf, point_of. cbn.
    rewrite size_of_ok by done. done.
  - apply Hdel. intros c Hc. unfold point_of. destruct (c_entry c) as [[[a' [|k']] r']|]; [|done|done].
    rewrite andb_true_iff, N.eqb_eq. split.
    + intros [-> H]. by destruct r, r'.
    + intros [= -> ->]. split; [done|]. by destruct r.
  - cbn [plain_req plain] in Hpl. destruct Hpl as (Hs & Ha & Hk & Hu). apply Hdel. intros c Hc.
    pose proof (cell_point l c) as Hcp. specialize (Hcp). 
    pose proof (proj1 (Forall_forall _ _) Hw c Hc) as Hcw. unfold cwf in Hcw. unfold point_of in *.
    destruct (c_entry c) as [[[a' [|k']] r']|]; [done| |done]. destruct Hcw as (-> & _).
    rewrite andb_true_iff, N.eqb_eq. split.
    + intros [-> _]. destruct (Hu (c_len c) k') as [-> ->]; [|done]. rewrite <- HinL. by apply Hcp.
    + by intros [= -> _ _].
Qed.
Lemma reqs_ok rs : forall l L, ginv l L -> plain_reqs L rs ->
  (gdb_reqs l rs).2 = (pt_reqs L rs).2 /\ ginv (gdb_reqs l rs).1 (pt_reqs L rs).1.
Proof.
  induction rs as [|r rs IH]; intros l L I H; [done|]. destruct H as [H1 H2].
  destruct (req_ok l L r I H1) as [E I']. cbn [gdb_reqs pt_reqs].
  destruct (gdb_req l r) as [l1 b1], (pt_req L r) as [L1 b1']. cbn [fst snd] in *. subst b1'.
  destruct (IH l1 L1 I' H2) as [E2 I2]. destruct (gdb_reqs l1 rs), (pt_reqs L1 rs). cbn [fst snd] in *. by subst.
Qed.

(** Between stops. *)
Definition rinv (l : list cell) (L : list point) : Prop :=
  length l = 4%nat /\ Forall cwf l /\ Forall (fun c => c_on c = c_bit c) l /\ points l ≡ₚ L.
Lemma points_map f l : (forall c, point_of (f c) = point_of c) -> points (map f l) = points l.
Proof. intros Hf. induction l as [|c l IH]; [done|]. cbn [map]. rewrite !points_cons, Hf, IH. done. Qed.
Lemma stop_inv l L : rinv l L -> ginv (gdb_stop l) L.
Proof.
  intros (Hl & Hw & Ho & Hp). unfold gdb_stop. split; [by rewrite map_length|]. split; [|split].
  - clear -Hw. induction Hw; cbn; constructor; [|done]. exact H.
  - clear. induction l; cbn; constructor; [done|done].
  - by rewrite points_map.
Qed.
Lemma resume_inv l L : ginv l L -> rinv (gdb_resume l) L.
Proof.
  intros (Hl & Hw & Ho & Hp). unfold gdb_resume. split; [by rewrite map_length|]. split; [|split].
  - clear -Hw. induction Hw; cbn; constructor; [|done]. exact H.
  - clear -Ho. induction Ho as [|c l H]; cbn; constructor; [|done]. cbn. unfold off in H. rewrite H. by destruct (c_bit c).
  - by rewrite points_map.
Qed.
Lemma run_ok ss : forall l L, rinv l L -> plain_run L ss ->
  (gdb_run l ss).2 = (pt_run L ss).2 /\ rinv (gdb_run l ss).1 (pt_run L ss).1.
Proof.
  induction ss as [|rs ss IH]; intros l L I H; [done|]. destruct H as [H1 H2].
  destruct (reqs_ok rs (gdb_stop l) L (stop_inv l L I) H1) as [E I']. cbn [gdb_run pt_run].
  destruct (gdb_reqs (gdb_stop l) rs) as [l1 b1], (pt_reqs L rs) as [L1 b1']. cbn [fst snd] in *. subst b1'.
  destruct (IH (gdb_resume l1) L1 (resume_inv _ _ I') H2) as [E2 I2].
  destruct (gdb_run (gdb_resume l1) ss), (pt_run L1 ss). cbn [fst snd] in *. by subst.
Qed.
Lemma init_inv : rinv gdb_init [].
Proof. split; [done|]. split; [repeat constructor|]. split; [repeat constructor|done]. Qed.

Lemma match_covers c p acc : cwf c -> point_of c = Some p -> (match_cell c acc = true <-> covers p acc).
Proof.
  unfold cwf, point_of, match_cell. destruct (c_entry c) as [[[a [|k]] r]|]; [| |done].
  - intros (-> & -> & _) [= <-]. cbn. destruct acc; [apply N.eqb_eq|done].
  - intros (-> & Ea & -> & _ & Hs & Ha & Hk) [= <-]. rewrite Ea.
    replace (a - a mod c_len c) with a by lia.
    assert (Ho : forall x n, overlap a (c_len c) x n = true <-> a < x + n /\ x < a + c_len c).
    { intros x n. unfold overlap. rewrite andb_true_iff, !N.ltb_lt. done. }
    destruct k; [done| |]; cbn; destruct acc as [x|[] x n]; try done; rewrite ?Ho; intuition congruence.
Qed.
Lemma trap_point l L c acc : rinv l L -> c ∈ l -> trap c acc = true -> exists p, point_of c = Some p /\ p ∈ L /\ covers p acc.
Proof.
  intros (Hl & Hw & Ho & Hp) Hc Ht. apply andb_prop in Ht as [Hon Hm].
  pose proof (proj1 (Forall_forall _ _) Hw c Hc) as Hcw.
  pose proof (proj1 (Forall_forall _ _) Ho c Hc) as Hco. cbn in Hco.
  destruct (point_of c) as [p|] eqn:E.
  - exists p. split; [done|]. split; [rewrite <- Hp; by eapply cell_point|]. by eapply match_covers.
  - unfold point_of in E. unfold cwf in Hcw. destruct (c_entry c) as [[[a [|k]] r]|]; try done. congruence.
Qed.
Lemma point_trap l L p acc : rinv l L -> p ∈ L -> covers p acc -> exists c, c ∈ l /\ point_of c = Some p /\ trap c acc = true.
Proof.
  intros (Hl & Hw & Ho & Hp) Hin Hc. rewrite <- Hp in Hin. unfold points in Hin. apply elem_of_list_omap in Hin as (c & Hcl & Hcp).
  exists c. split; [done|]. split; [done|].
  pose proof (proj1 (Forall_forall _ _) Hw c Hcl) as Hcw.
  pose proof (proj1 (Forall_forall _ _) Ho c Hcl) as Hco. cbn in Hco.
  unfold trap. apply andb_true_intro. split; [|by eapply match_covers].
  rewrite Hco. unfold point_of in Hcp. unfold cwf in Hcw. destruct (c_entry c) as [[[a [|k]] r]|]; try done; by destruct_and?.
Qed.

Lemma first_bit_exact acc l :
  Forall cwf l ->
  (first_bit (exact_bits l acc) l = None /\ (forall c, c ∈ l -> trap c acc = true -> c_entry c = None)) \/
  (exists c e, c ∈ l /\ trap c acc = true /\ c_entry c = Some e /\ first_bit (exact_bits l acc) l = Some e) \/
  (exists c, c ∈ l /\ trap c acc = true /\ c_entry c = None).
Proof.
  induction l as [|c l IH]; intros Hw.
  - left. split; [done|]. intros c Hc. by apply elem_of_nil in Hc.
  - apply stdpp.list.Forall_cons in Hw as [Hc Hw]. unfold exact_bits in *. cbn [map first_bit].
    destruct (trap c acc) eqn:E.
    + destruct (c_entry c) as [e|] eqn:Ee.
      * right; left. exists c, e. split; [by left|]. done.
      * right; right. exists c. split; [by left|]. done.
    + destruct (IH Hw) as [[I1 I2]|[(c' & e & I1 & I2 & I3 & I4)|(c' & I1 & I2 & I3)]].
      * left. split; [done|]. intros c' Hc' Ht. apply elem_of_cons in Hc' as [->|Hc']; [congruence|eauto].
      * right; left. exists c', e. split; [by right|]. done.
      * right; right. exists c'. split; [by right|]. done.
Qed.
Lemma reason_ok l L acc bs :
  rinv l L -> (exists p, p ∈ L /\ covers p acc) ->
  exists p, p ∈ L /\ covers p acc /\ stop_reason l (exact_bits l acc) bs = Ok (Some (told p)).
Proof.
  intros I (p & Hp & Hc). destruct (point_trap l L p acc I Hp Hc) as (c & Hcl & Hcp & Ht).
  destruct (first_bit_exact acc l ltac:(apply I)) as [[F1 F2]|[(c' & e & I1 & I2 & I3 & I4)|(c' & I1 & I2 & I3)]].
  - exfalso. specialize (F2 c Hcl Ht). by rewrite (point_none c F2) in Hcp.
  - destruct (trap_point l L c' acc I I1 I2) as (p' & P1 & P2 & P3). exists p'. split; [done|]. split; [done|].
    unfold stop_reason. rewrite I4.
    pose proof (proj1 (Forall_forall _ _) (proj1 (proj2 I)) c' I1) as Hcw.
    unfold point_of in P1. unfold cwf in Hcw. rewrite I3 in P1, Hcw.
    destruct e as [[a [|k]] r].
    + injection P1 as <-. by destruct r.
    + destruct Hcw as (-> & _). injection P1 as <-. done.
  - destruct (trap_point l L c' acc I I1 I2) as (p' & P1 & _). by rewrite (point_none c' I3) in P1.
Qed.

(** * Memory *)
Lemma page_same x : (x + 1) mod PAGE <> 0 -> (x + 1) / PAGE = x / PAGE.
Proof.
  unfold PAGE. intros H. pose proof (N.div_mod x 4096 ltac:(lia)). pose proof (N.mod_lt x 4096 ltac:(lia)).
  symmetry. apply (N.div_unique (x + 1) 4096 (x / 4096) (x mod 4096 + 1)); [|lia].
  destruct (decide (x mod 4096 + 1 = 4096)) as [E|E]; [|lia]. exfalso. apply H.
  replace (x + 1) with ((x / 4096 + 1) * 4096) by lia. by apply N.mod_mul.
Qed.
Lemma looks_next start i : looks start (i + 1) = false -> (start + (i + 1)) / PAGE = (start + i) / PAGE.
Proof.
  unfold looks. rewrite orb_false_iff. intros [_ H]. apply N.eqb_neq in H. rewrite N.add_assoc in *. by apply page_same.
Qed.
Definition mapped (pt : N -> option prights) (p : N) : bool := match pt p with Some _ => true | None => false end.

Lemma rd_ok pt mem start n : forall i,
  (forall j, j < N.of_nat n -> mapped pt ((start + i + j) / PAGE) = true) ->
  rd pt mem start i n = Some (map (fun j => mem (start + i + N.of_nat j)) (seq 0 n)).
Proof.
  induction n as [|n IH]; intros i H; [done|]. cbn [rd].
  assert (H0 : mapped pt ((start + i) / PAGE) = true) by (rewrite <- (H 0); [f_equal; f_equal; lia|lia]).
  unfold mapped in H0. destruct (pt ((start + i) / PAGE)); [|done]. rewrite andb_false_r.
  rewrite IH.
  - cbn [seq map]. f_equal. f_equal; [f_equal; lia|]. rewrite <- seq_shift, map_map. apply map_ext. intros j. f_equal. lia.
  - intros j Hj. rewrite <- (H (j + 1)); [f_equal; f_equal; lia|lia].
Qed.
Lemma rd_some pt mem start n : forall i r,
  (looks start i = false -> mapped pt ((start + i) / PAGE) = true) ->
  rd pt mem start i n = Some r -> forall j, j < N.of_nat n -> mapped pt ((start + i + j) / PAGE) = true.
Proof.
  induction n as [|n IH]; intros i r Hl H j Hj; [lia|]. cbn [rd] in H.
  assert (H0 : mapped pt ((start + i) / PAGE) = true).
  { destruct (looks start i) eqn:E; [|by apply Hl]. unfold mapped. by destruct (pt ((start + i) / PAGE)). }
  destruct (looks start i && _); [done|]. destruct (rd pt mem start (i + 1) n) as [r'|] eqn:E; [|done].
  destruct (decide (j = 0)) as [->|Hj0]; [by rewrite N.add_0_r|].
  replace (start + i + j) with (start + (i + 1) + (j - 1)) by lia.
  eapply (IH (i + 1) r'); [|done|lia]. intros Hn. by rewrite looks_next.
Qed.

Lemma stored_nil mem start : stored mem mem start [].
Proof.
  intros x. cbn [length]. destruct (start <=? x) eqn:E1; [|done]. destruct (x <? start + N.of_nat 0) eqn:E2; [|done].
  apply N.leb_le in E1. apply N.ltb_lt in E2. lia.
Qed.
Lemma stored_cons mem mem' start v d : stored (mset mem start v) mem' (start + 1) d -> stored mem mem' start (v :: d).
Proof.
  intros H x. rewrite H. cbn [length]. unfold mset.
  destruct (start + 1 <=? x) eqn:E1.
  - apply N.leb_le in E1. assert (E2 : (start <=? x) = true) by (apply N.leb_le; lia). rewrite E2. cbn [andb].
    replace (start + 1 + N.of_nat (length d)) with (start + N.of_nat (S (length d))) by lia.
    destruct (x <? start + N.of_nat (S (length d))) eqn:E3.
    + replace (N.to_nat (x - start)) with (S (N.to_nat (x - (start + 1)))) by lia. done.
    + destruct (x =? start) eqn:E4; [apply N.eqb_eq in E4; lia|done].
  - apply N.leb_gt in E1. cbn [andb]. destruct (x =? start) eqn:E4.
    + apply N.eqb_eq in E4 as ->. rewrite N.leb_refl. assert (E3 : (start <? start + N.of_nat (S (length d))) = true) by (apply N.ltb_lt; lia).
      rewrite E3. cbn [andb]. by rewrite N.sub_diag.
    + apply N.eqb_neq in E4. assert (E2 : (start <=? x) = false) by (apply N.leb_gt; lia). by rewrite E2.
Qed.
Lemma wr_cases pt start d : forall mem i, start < VLIMIT ->
  (looks start i = false -> may_write (pt ((start + i) / PAGE)) = true) ->
  let '(mem', b) := wr pt mem start i d in
  (b = true /\ stored mem mem' (start + i) d /\ (forall j, j < N.of_nat (length d) -> may_write (pt ((start + i + j) / PAGE)) = true)) \/
  (b = false /\ exists k, (k < length d)%nat /\ stored mem mem' (start + i) (take k d) /\
     may_write (pt ((start + i + N.of_nat k) / PAGE)) = false).
Proof.
  induction d as [|v d IH]; intros mem i Hs Hl; cbn [wr].
  - left. split; [done|]. split; [apply stored_nil|]. intros j Hj. cbn in Hj. lia.
  - assert (E : (VLIMIT <=? start) = false) by (by apply N.leb_gt). rewrite E, orb_false_l.
    destruct (looks start i && negb (may_write (pt ((start + i) / PAGE)))) eqn:E2.
    + apply andb_prop in E2 as [E2 E3]. right. split; [done|]. exists 0%nat. split; [cbn; lia|]. split; [apply stored_nil|].
      rewrite N.add_0_r. by apply negb_true_iff.
    + assert (H0 : may_write (pt ((start + i) / PAGE)) = true).
      { destruct (looks start i); [|by apply Hl]. cbn [andb] in E2. by apply negb_false_iff. }
      specialize (IH (mset mem (start + i) v) (i + 1) Hs).
      assert (Hl' : looks start (i + 1) = false -> may_write (pt ((start + (i + 1)) / PAGE)) = true).
      { intros Hn. by rewrite looks_next. }
      specialize (IH Hl'). destruct (wr pt (mset mem (start + i) v) start (i + 1) d) as [mem' b].
      destruct IH as [(-> & I1 & I2)|(-> & k & I1 & I2 & I3)].
      * left. split; [done|]. split; [apply stored_cons; by rewrite N.add_assoc in I1|].
        intros j Hj. cbn [length] in Hj. destruct (decide (j = 0)) as [->|Hj0]; [by rewrite N.add_0_r|].
        replace (start + i + j) with (start + (i + 1) + (j - 1)) by lia. apply I2. lia.
      * right. split; [done|]. exists (S k). split; [cbn; lia|]. split; [cbn [take]; apply stored_cons; by rewrite N.add_assoc in I2|].
        replace (start + i + N.of_nat (S k)) with (start + (i + 1) + N.of_nat k) by lia. done.
Qed.
