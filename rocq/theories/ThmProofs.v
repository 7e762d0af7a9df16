(** Proofs for C40. *)
From Verif Require Import Base TlbModel TlbProps SysModel SysProps NodeModel ThmModel ThmSpec.

(** ** Thread maps *)
(** Exactly the threads [k, n) are free. *)
Definition tm_free (t : tmap) (k n : nat) : Prop :=
  tm_n t = n /\ cb_wf (tm_map t) /\ forall i, cb_mem (tm_map t) i = (N.of_nat k <=? i)%N && (i <? N.of_nat n)%N.
Lemma tm_new_free : tm_free tm_new 0 0.
Proof.
  split; [done|]. split; [done|]. intros i. simpl. unfold cb_mem. simpl.
  destruct (N.ltb_spec i 0); [lia|]. rewrite andb_false_r.
  repeat (destruct (_ <? _)%N); done.
Qed.
Lemma tm_mark_from_free dbg n k : forall i t, i + k = n -> n <= 256 -> tm_n t = n -> cb_wf (tm_map t) ->
  (forall j, cb_mem (tm_map t) j = (j <? N.of_nat i)%N) -> exists t', tm_mark_from dbg k i t = Ok t' /\ tm_free t' 0 n.
Proof.
  induction k as [|k IH]; intros i t Hik Hn Ht Hwf Hm; cbn [tm_mark_from].
  - exists t. split; [done|]. split; [done|]. split; [done|]. intros j. rewrite Hm. replace n with i by lia. by destruct (N.leb_spec (N.of_nat 0) j); [|lia].
  - unfold tm_mark. rewrite Ht. destruct (Nat.ltb_spec i n); [|lia]. rewrite andb_false_r.
    destruct (cbm_set_spec (tm_map t) (N.of_nat i) true Hwf ltac:(lia)) as (m & -> & Hwf' & Hm'). cbn [rbind].
    apply IH; cbn [tm_n tm_map]; [lia|done|done|done|]. intros j. rewrite Hm', Hm.
    destruct (N.eqb_spec j (N.of_nat i)), (N.ltb_spec j (N.of_nat i)), (N.ltb_spec j (N.of_nat (S i))); try done; lia.
Qed.
Lemma tm_init_free dbg t n : tm_free t 0 0 -> n <= 256 -> exists t', tm_init dbg t n = Ok t' /\ tm_free t' 0 n.
Proof.
  intros (Ht & Hwf & Hm) Hn. unfold tm_init. destruct (Nat.leb_spec n 256); [|lia]. rewrite andb_false_r.
  apply tm_mark_from_free; cbn [tm_n tm_map]; [done|done|done|done|]. intros j. rewrite Hm.
  by destruct (N.leb_spec (N.of_nat 0) j); [|lia].
Qed.
Lemma tm_claim_free t k n : tm_free t k n -> k < n -> n <= 256 -> exists t', tm_claim t = Ok (Some k, t') /\ tm_free t' (S k) n.
Proof.
  intros (Ht & Hwf & Hm) Hk Hn. unfold tm_claim. pose proof (cbm_next_spec (tm_map t) Hwf) as NX. destruct (cbm_next (tm_map t)) as [[x m']|].
  - destruct NX as (_ & N1 & N2 & N3 & _). rewrite Hm in N1. apply andb_prop in N1 as [N1 N1']. apply N.leb_le in N1. apply N.ltb_lt in N1'.
    assert (x = N.of_nat k) as ->. { destruct (N.eq_dec x (N.of_nat k)) as [|Hne]; [done|]. specialize (N3 (N.of_nat k) ltac:(lia)). rewrite Hm in N3.
      destruct (N.leb_spec (N.of_nat k) (N.of_nat k)), (N.ltb_spec (N.of_nat k) (N.of_nat n)); try done; lia. }
    rewrite Ht. destruct (N.ltb_spec (N.of_nat k) (N.of_nat n)); [|lia].
    destruct (cbm_set_spec (tm_map t) (N.of_nat k) false Hwf N2) as (m & -> & Hwf' & Hm'). cbn [rbind]. rewrite Nat2N.id.
    eexists. split; [done|]. split; [done|]. split; [done|]. cbn [tm_map]. intros j. rewrite Hm', Hm.
    destruct (N.eqb_spec j (N.of_nat k)), (N.leb_spec (N.of_nat k) j), (N.leb_spec (N.of_nat (S k)) j); try done; lia.
  - specialize (NX (N.of_nat k)). rewrite Hm in NX. destruct (N.leb_spec (N.of_nat k) (N.of_nat k)), (N.ltb_spec (N.of_nat k) (N.of_nat n)); try done; lia.
Qed.
Lemma tm_claim_none t n : tm_free t n n -> tm_claim t = Ok (None, t).
Proof.
  intros (Ht & Hwf & Hm). unfold tm_claim. pose proof (cbm_next_spec (tm_map t) Hwf) as NX. destruct (cbm_next (tm_map t)) as [[x m']|]; [|done].
  destruct NX as (_ & N1 & _). rewrite Hm in N1. apply andb_prop in N1 as [N1 N1']. apply N.leb_le in N1. apply N.ltb_lt in N1'. lia.
Qed.

(** ** Histories *)
Lemma reg_of_app past a mid : reg_of (past ++ [a]) mid =
  match reg_of past mid with Some ts => Some ts | None => match a with CRegA m ts => if decide (m = mid) then Some ts else None | _ => None end end.
Proof.
  induction past as [|b past IH]; simpl; [by destruct a|]. destruct b as [m ts|m n|m]; [|done..]. by case_decide.
Qed.
Lemma reg_done_app past a mid : reg_done (past ++ [a]) mid =
  reg_done past mid || match a with CRegB m _ => bool_decide (m = mid) | _ => false end.
Proof.
  induction past as [|b past IH]; simpl.
  - destruct a as [m ts|m n|m]; [done| |done]. case_decide; [by rewrite bool_decide_true|by rewrite bool_decide_false].
  - destruct b as [m ts|m n|m]; [done| |done]. by case_decide.
Qed.
Lemma hist_ok_app l1 l2 : forall past, hist_ok past (l1 ++ l2) <-> hist_ok past l1 /\ hist_ok (past ++ l1) l2.
Proof.
  induction l1 as [|a l1 IH]; intros past; simpl; [rewrite app_nil_r; tauto|]. rewrite IH, <- app_assoc. simpl. tauto.
Qed.
Lemma midx_ok mid : 1 <= mid <= MAX_MACHINES -> midx mid = Some (mid - 1).
Proof.
  intros H. destruct mid as [|i]; [lia|]. unfold midx. destruct (Nat.ltb_spec i MAX_MACHINES); [|lia]. f_equal. lia.
Qed.
Lemma push_threads_ok ts : forall affs hw, length affs + length ts <= THM_MAX_CORES -> length hw + length ts <= MAX_MACHINES * THM_MAX_CORES ->
  push_threads affs hw ts = Ok (affs ++ (ct_node <$> ts), hw ++ ts).
Proof.
  induction ts as [|t ts IH]; intros affs hw H1 H2; cbn [push_threads length] in *; [by rewrite !app_nil_r|].
  destruct (Nat.ltb_spec (length affs) THM_MAX_CORES); [|lia]. destruct (Nat.ltb_spec (length hw) (MAX_MACHINES * THM_MAX_CORES)); [|lia].
  rewrite IH; rewrite ?app_length; cbn [length]; [|lia..]. by rewrite <- !app_assoc.
Qed.

(** The machines registered so far. *)
Fixpoint reg_mids (past : list cact) : list nat :=
  match past with CRegA m _ :: past => m :: reg_mids past | _ :: past => reg_mids past | [] => [] end.
Lemma reg_mids_app p1 p2 : reg_mids (p1 ++ p2) = reg_mids p1 ++ reg_mids p2.
Proof. induction p1 as [|[m ts|m n|m] p1 IH]; simpl; [done|by rewrite IH|done|done]. Qed.
Lemma reg_mids_in past mid : mid ∈ reg_mids past -> is_Some (reg_of past mid).
Proof.
  induction past as [|[m ts|m n|m] past IH]; simpl; [by intros ?%elem_of_nil| |done|done].
  rewrite elem_of_cons. intros [->|H]; [by rewrite decide_True|]. case_decide; [done|auto].
Qed.
Lemma pigeon (l : list nat) a b : NoDup l -> (forall x, x ∈ l -> a <= x < b) -> length l <= b - a.
Proof.
  intros HN H. rewrite <- (seq_length (b - a) a). apply NoDup_incl_length; [by apply NoDup_ListNoDup|].
  intros x Hx. apply elem_of_list_In. apply elem_of_list_In in Hx. apply H in Hx. apply elem_of_seq. lia.
Qed.

Record cinv (past : list cact) (s : ctl) (outs : list (nat * option (N * N))) : Prop := {
  i_ndup : NoDup (reg_mids past);
  i_range : forall m, m ∈ reg_mids past -> 1 <= m <= MAX_MACHINES;
  i_hw : length (c_hw s) <= length (reg_mids past) * THM_MAX_CORES;
  i_len : forall mid ts, reg_of past mid = Some ts -> length ts <= THM_MAX_CORES;
  i_in_hw : forall mid ts t, reg_of past mid = Some ts -> t ∈ ts -> t ∈ c_hw s;
  i_order : forall mid, reg_done past mid = true -> is_Some (reg_of past mid);
  i_mach : forall mid, 1 <= mid <= MAX_MACHINES ->
    c_affs s !! (mid - 1) = Some (ct_node <$> default [] (reg_of past mid)) /\
    exists t, c_maps s !! (mid - 1) = Some t /\ tm_free t (length (claimed outs mid)) (length (avail past mid)) /\
      claimed outs mid = thread_at mid (avail past mid) <$> seq 0 (length (claimed outs mid)) /\
      length (claimed outs mid) <= length (avail past mid)
}.

Lemma lookup_replicate_mid {A} (x : A) mid : 1 <= mid <= MAX_MACHINES -> replicate MAX_MACHINES x !! (mid - 1) = Some x.
Proof. intros H. apply lookup_replicate. split; [done|lia]. Qed.
Lemma cinv_init : cinv [] ctl_new [].
Proof.
  split.
  - constructor.
  - intros m H. by apply elem_of_nil in H.
  - simpl. lia.
  - done.
  - done.
  - done.
  - intros mid H. split; [by apply lookup_replicate_mid|]. exists tm_new. split; [by apply lookup_replicate_mid|].
    split; [apply tm_new_free|]. done.
Qed.
Lemma claimed_app o1 o2 mid : claimed (o1 ++ o2) mid = claimed o1 mid ++ claimed o2 mid.
Proof. apply omap_app. Qed.

Lemma avail_len past s outs mid : cinv past s outs -> length (avail past mid) <= THM_MAX_CORES.
Proof.
  intros I. unfold avail. destruct (reg_done past mid); [|simpl; lia]. destruct (reg_of past mid) as [ts|] eqn:E; [|simpl; lia]. by apply (i_len _ _ _ I mid).
Qed.
Lemma fmap_insert_at {A} (l : list A) i j (x : A) : <[i := x]> l !! j = if decide (i = j) then (if decide (j < length l) then Some x else None) else l !! j.
Proof.
  destruct (decide (i = j)) as [->|Hne]; [|by apply list_lookup_insert_ne]. destruct (decide (j < length l)); [by apply list_lookup_insert|].
  apply lookup_ge_None. rewrite insert_length. lia.
Qed.

Lemma reg_a_spec past s outs mid ts : cinv past s outs -> act_ok past (CRegA mid ts) ->
  exists s', ctl_reg_a s mid ts = Ok s' /\ c_hw s' = c_hw s ++ ts /\ cinv (past ++ [CRegA mid ts]) s' outs.
Proof.
  intros I (Hm & Hl & Hr). unfold ctl_reg_a. rewrite midx_ok by done. destruct (i_mach _ _ _ I mid Hm) as (HA & t & HT & HF & HC & HK).
  rewrite HA, Hr. cbn [default]. simpl (ct_node <$> []).
  assert (HN : mid ∉ reg_mids past). { intros HH. apply reg_mids_in in HH. rewrite Hr in HH. by destruct HH. }
  assert (ND : NoDup (mid :: reg_mids past)). { apply stdpp.list.NoDup_cons. split; [done|apply I]. }
  assert (HP : S (length (reg_mids past)) <= MAX_MACHINES).
  { pose proof (pigeon (mid :: reg_mids past) 1 (S MAX_MACHINES) ND) as P. simpl length in P. rewrite Nat.sub_succ, Nat.sub_0_r in P. apply P.
    intros x [->|Hx]%elem_of_cons; [lia|]. apply (i_range _ _ _ I) in Hx. lia. }
  pose proof (i_hw _ _ _ I) as HH.
  assert (HMUL : S (length (reg_mids past)) * THM_MAX_CORES <= MAX_MACHINES * THM_MAX_CORES) by (by apply Nat.mul_le_mono_r).
  rewrite push_threads_ok; [|simpl; lia|rewrite Nat.mul_succ_l in HMUL; lia]. cbn [rbind fst snd]. eexists. split; [done|]. split; [done|].
  split; cbn [c_hw c_maps c_affs].
  - rewrite reg_mids_app. simpl. apply NoDup_app. split; [apply I|]. split; [|apply NoDup_singleton]. intros x Hx Hx2%elem_of_list_singleton. by subst.
  - intros m. rewrite reg_mids_app, elem_of_app. intros [H|H]; [by apply I|]. simpl in H. apply elem_of_list_singleton in H. by subst.
  - rewrite reg_mids_app, !app_length. simpl. rewrite Nat.mul_add_distr_r. lia.
  - intros m ts'. rewrite reg_of_app. destruct (reg_of past m) eqn:E; [intros [= <-]; by eapply i_len|]. case_decide; [|done]. by intros [= <-].
  - intros m ts' u. rewrite reg_of_app. destruct (reg_of past m) eqn:E.
    + intros [= <-] Hu. apply elem_of_app. left. by eapply i_in_hw.
    + case_decide; [|done]. intros [= <-] Hu. apply elem_of_app. by right.
  - intros m. rewrite reg_done_app, orb_false_r, reg_of_app. intros [x ->]%(i_order _ _ _ I). done.
  - intros m Hm'. destruct (i_mach _ _ _ I m Hm') as (HA' & t' & HT' & HF' & HC' & HK').
    assert (HV : avail (past ++ [CRegA mid ts]) m = avail past m).
    { unfold avail. rewrite reg_done_app, orb_false_r, reg_of_app. destruct (reg_done past m) eqn:E; [|done]. destruct (reg_of past m) eqn:E2; [done|].
      apply (i_order _ _ _ I) in E. rewrite E2 in E. by destruct E. }
    rewrite HV. split; [|by exists t']. rewrite fmap_insert_at, reg_of_app. destruct (decide (mid - 1 = m - 1)) as [He|He].
    + assert (m = mid) as -> by lia. apply lookup_lt_Some in HA. destruct (decide (mid - 1 < length (c_affs s))); [|done]. rewrite Hr. by rewrite decide_True.
    + rewrite HA'. destruct (reg_of past m) eqn:E2; [done|]. rewrite decide_False; [done|]. intros ->. done.
Qed.

Lemma reg_b_spec dbg past s outs mid n : cinv past s outs -> act_ok past (CRegB mid n) ->
  exists s', ctl_reg_b dbg s mid n = Ok s' /\ c_hw s' = c_hw s /\ cinv (past ++ [CRegB mid n]) s' outs.
Proof.
  intros I (ts & Hr & -> & Hd). assert (Hm : 1 <= mid <= MAX_MACHINES).
  { apply (i_range _ _ _ I). clear -Hr. induction past as [|[m ts'|m n|m] past IH]; simpl in *; [done| |auto|auto].
    destruct (decide (m = mid)) as [->|]; [left|right; auto]. }
  unfold ctl_reg_b. rewrite midx_ok by done. destruct (i_mach _ _ _ I mid Hm) as (HA & t & HT & HF & HC & HK). rewrite HT.
  assert (HV0 : avail past mid = []) by (unfold avail; by rewrite Hd). rewrite HV0 in HF, HK. simpl in HK.
  assert (HZ : length (claimed outs mid) = 0) by lia. rewrite HZ in HF. pose proof (i_len _ _ _ I _ _ Hr) as HL. unfold THM_MAX_CORES in HL.
  destruct (tm_init_free dbg t (length ts) HF ltac:(lia)) as (t' & -> & HF'). cbn [rbind]. eexists. split; [done|]. split; [done|].
  assert (RO : forall m, reg_of (past ++ [CRegB mid (length ts)]) m = reg_of past m). { intros m. rewrite reg_of_app. by destruct (reg_of past m). }
  assert (RM : reg_mids (past ++ [CRegB mid (length ts)]) = reg_mids past). { rewrite reg_mids_app. simpl. by rewrite app_nil_r. }
  split; cbn [c_hw c_maps c_affs]; rewrite ?RM; try apply I.
  - intros m ts'. rewrite RO. apply I.
  - intros m ts' u. rewrite RO. apply I.
  - intros m. rewrite RO, reg_done_app. intros [H|H%bool_decide_eq_true]%orb_prop; [by apply I|]. subst m. by exists ts.
  - intros m Hm'. destruct (i_mach _ _ _ I m Hm') as (HA' & t2 & HT' & HF2 & HC' & HK'). rewrite RO. split; [done|]. rewrite fmap_insert_at.
    destruct (decide (mid - 1 = m - 1)) as [He|He].
    + assert (m = mid) as -> by lia. apply lookup_lt_Some in HT. destruct (decide (mid - 1 < length (c_maps s))); [|done].
      exists t'. split; [done|]. assert (HV : avail (past ++ [CRegB mid (length ts)]) mid = ts).
      { unfold avail. rewrite reg_done_app, RO, Hr. rewrite bool_decide_true by done. by rewrite orb_true_r. }
      rewrite HV, HZ. split; [done|]. split; [|lia]. by apply nil_length_inv in HZ as ->.
    + assert (HV : avail (past ++ [CRegB mid (length ts)]) m = avail past m).
      { unfold avail. rewrite reg_done_app, RO. rewrite bool_decide_false by (intros ->; done). by rewrite orb_false_r. }
      rewrite HV. by exists t2.
Qed.

(** A claim gives the next unclaimed thread, if any. *)
Definition claim_result (past : list cact) (outs : list (nat * option (N * N))) (mid : nat) : option (N * N) :=
  if decide (length (claimed outs mid) < length (avail past mid)) then Some (thread_at mid (avail past mid) (length (claimed outs mid))) else None.
Lemma claim_spec past s outs mid : cinv past s outs -> act_ok past (CClaim mid) ->
  exists s', ctl_claim s mid = Ok (claim_result past outs mid, s') /\ c_hw s' = c_hw s /\ cinv (past ++ [CClaim mid]) s' (outs ++ [(mid, claim_result past outs mid)]).
Proof.
  intros I Hm. simpl in Hm. unfold ctl_claim. rewrite midx_ok by done. destruct (i_mach _ _ _ I mid Hm) as (HA & t & HT & HF & HC & HK). rewrite HT, HA.
  pose proof (avail_len _ _ _ mid I) as HL. unfold THM_MAX_CORES in HL.
  assert (RO : forall m, reg_of (past ++ [CClaim mid]) m = reg_of past m). { intros m. rewrite reg_of_app. by destruct (reg_of past m). }
  assert (RD : forall m, reg_done (past ++ [CClaim mid]) m = reg_done past m). { intros m. by rewrite reg_done_app, orb_false_r. }
  assert (RM : reg_mids (past ++ [CClaim mid]) = reg_mids past). { rewrite reg_mids_app. simpl. by rewrite app_nil_r. }
  assert (HV : forall m, avail (past ++ [CClaim mid]) m = avail past m). { intros m. unfold avail. by rewrite RO, RD. }
  assert (G : forall t' o, (match o with
       | Some x => x = thread_at mid (avail past mid) (length (claimed outs mid)) /\ length (claimed outs mid) < length (avail past mid)
       | None => length (claimed outs mid) = length (avail past mid) end) ->
     tm_free t' (length (claimed (outs ++ [(mid, o)]) mid)) (length (avail past mid)) ->
     cinv (past ++ [CClaim mid]) (mkCtl (c_hw s) (<[mid - 1 := t']> (c_maps s)) (c_affs s)) (outs ++ [(mid, o)])).
  { intros t' o Ho HF'. split; cbn [c_hw c_maps c_affs]; rewrite ?RM; try apply I.
    - intros m ts'. rewrite RO. apply I.
    - intros m ts' u. rewrite RO. apply I.
    - intros m. rewrite RO, RD. apply I.
    - intros m Hm'. destruct (i_mach _ _ _ I m Hm') as (HA' & t2 & HT' & HF2 & HC' & HK'). rewrite RO, HV. split; [done|]. rewrite fmap_insert_at.
      destruct (decide (mid - 1 = m - 1)) as [He|He].
      + assert (m = mid) as -> by lia. apply lookup_lt_Some in HT. destruct (decide (mid - 1 < length (c_maps s))); [|done].
        exists t'. split; [done|]. split; [done|]. rewrite claimed_app. cbn [claimed omap list_omap fst snd]. rewrite decide_True by done. destruct o as [x|].
        * destruct Ho as [-> Ho]. rewrite app_length. cbn [length]. split; [|lia]. rewrite seq_app, fmap_app. f_equal. exact HC.
        * rewrite app_nil_r. done.
      + assert (HN : claimed (outs ++ [(mid, o)]) m = claimed outs m).
        { rewrite claimed_app. cbn [claimed omap list_omap fst snd]. rewrite decide_False by (intros ->; done). by rewrite app_nil_r. }
        rewrite HN. by exists t2. }
  unfold claim_result. destruct (decide (length (claimed outs mid) < length (avail past mid))) as [Hlt|Hge].
  - destruct (tm_claim_free t _ _ HF Hlt ltac:(lia)) as (t' & -> & HF'). cbn [rbind fst snd].
    assert (HAV : reg_of past mid = Some (avail past mid)).
    { unfold avail in *. destruct (reg_done past mid); [|simpl in Hlt; lia]. destruct (reg_of past mid); [done|simpl in Hlt; lia]. }
    rewrite HAV. change (default [] (Some (avail past mid))) with (avail past mid). destruct (avail past mid !! length (claimed outs mid)) as [u|] eqn:EU; [|apply lookup_ge_None in EU; lia].
    rewrite list_lookup_fmap, EU. cbn [fmap option_fmap option_map]. assert (HTA : thread_at mid (avail past mid) (length (claimed outs mid)) = (new_gtid (N.of_nat (length (claimed outs mid))) (N.of_nat mid), ct_node u)) by (unfold thread_at; by rewrite EU).
    rewrite <- HTA.
    eexists. split; [done|]. split; [done|]. apply G; [split; [done|done]|].
    rewrite claimed_app. cbn [claimed omap list_omap fst snd]. rewrite decide_True by done. rewrite app_length. cbn [length]. by rewrite Nat.add_1_r.
  - assert (HE : length (claimed outs mid) = length (avail past mid)) by lia. rewrite HE in HF. rewrite (tm_claim_none _ _ HF). cbn [rbind fst snd].
    eexists. split; [done|]. split; [done|]. apply G; [done|].
    rewrite claimed_app. cbn [claimed omap list_omap fst snd]. rewrite decide_True by done. by rewrite app_nil_r, HE.
Qed.

Lemma run_spec dbg l : forall past s outs, cinv past s outs -> hist_ok past l ->
  exists s' outs', ctl_run dbg s l = Ok (s', outs') /\ cinv (past ++ l) s' (outs ++ outs').
Proof.
  induction l as [|a l IH]; intros past s outs I H; cbn [ctl_run].
  - exists s, []. by rewrite !app_nil_r.
  - destruct H as [H1 H2]. destruct a as [mid ts|mid n|mid].
    + destruct (reg_a_spec _ _ _ _ _ I H1) as (s1 & -> & _ & I1). cbn [rbind]. destruct (IH _ _ _ I1 H2) as (s' & o' & -> & I'). exists s', o'. split; [done|].
      by rewrite <- app_assoc in I'.
    + destruct (reg_b_spec dbg _ _ _ _ _ I H1) as (s1 & -> & _ & I1). cbn [rbind]. destruct (IH _ _ _ I1 H2) as (s' & o' & -> & I'). exists s', o'. split; [done|].
      by rewrite <- app_assoc in I'.
    + destruct (claim_spec _ _ _ _ I H1) as (s1 & -> & _ & I1). cbn [rbind fst snd]. destruct (IH _ _ _ I1 H2) as (s' & o' & -> & I'). cbn [rbind fst snd].
      eexists _, _. split; [done|]. by rewrite <- !app_assoc in I'.
Qed.
Lemma run_app dbg l1 : forall s l2 s1 o1, ctl_run dbg s l1 = Ok (s1, o1) ->
  ctl_run dbg s (l1 ++ l2) = (let? q := ctl_run dbg s1 l2 in Ok (q.1, o1 ++ q.2)).
Proof.
  induction l1 as [|a l1 IH]; intros s l2 s1 o1 H; cbn [ctl_run app] in *.
  - injection H as <- <-. destruct (ctl_run dbg s l2) as [[? ?]| |]; done.
  - destruct a as [mid ts|mid n|mid].
    + destruct (ctl_reg_a s mid ts) as [s2| |]; cbn [rbind] in *; [|done..]. by apply IH.
    + destruct (ctl_reg_b dbg s mid n) as [s2| |]; cbn [rbind] in *; [|done..]. by apply IH.
    + destruct (ctl_claim s mid) as [p| |]; cbn [rbind] in *; [|done..]. destruct (ctl_run dbg p.2 l1) as [q| |] eqn:E; cbn [rbind] in *; [|done..].
      injection H as <- <-. destruct q as [q1 q2]. rewrite (IH _ _ _ _ E). cbn [fst snd]. destruct (ctl_run dbg q1 l2) as [[? ?]| |]; done.
Qed.

Lemma claimed_elem outs x : (exists mid, x ∈ claimed outs mid) <-> x ∈ omap snd outs.
Proof.
  split.
  - intros [mid H]. apply elem_of_list_omap in H as ([m o] & H1 & H2). simpl in H2. case_decide; [|done]. apply elem_of_list_omap. by exists (m, o).
  - intros H. apply elem_of_list_omap in H as ([m o] & H1 & H2). exists m. apply elem_of_list_omap. exists (m, o). split; [done|]. simpl in *. by rewrite decide_True.
Qed.
