(** Proofs about the process model. *)
From Verif Require Import Base TlbModel SysModel NodeModel VsModel VsSpec VsProofs PrcModel PrcSpec TlbProps NodeProps VsProps.

Lemma prc_run_app lg dbg nm o1 o2 s :
  prc_run lg dbg nm s (o1 ++ o2) =
  let p := prc_run lg dbg nm s o1 in let q := prc_run lg dbg nm p.1 o2 in (q.1, p.2 ++ q.2).
Proof.
  revert s. induction o1 as [|o o1 IH]; intros s; cbn [app prc_run].
  - cbn zeta. cbn [fst snd]. by destruct (prc_run lg dbg nm s o2).
  - destruct (prc_step lg dbg nm s o) as [s1 r]. rewrite IH. cbn zeta.
    destruct (prc_run lg dbg nm s1 o1) as [s2 h2]. cbn [fst snd]. by destruct (prc_run lg dbg nm s2 o2).
Qed.
Lemma reg_snoc h o : reg (h ++ [o]) = reg_step (reg h) o.
Proof. unfold reg. by rewrite foldl_app. Qed.

(** ** The flush handles *)
Lemma add_cores_spec nm act : forall hs, length hs = nm ->
  (forall i m, hs !! i = Some m -> cb_wf m) ->
  Forall (fun ge => (mid_from_gtid ge.1 < N.of_nat nm)%N /\ (mtid_from_gtid ge.1 < 256)%N) act ->
  exists hs', add_cores hs act = Ok hs' /\ length hs' = nm /\ (forall i m, hs' !! i = Some m -> cb_wf m) /\
    forall i t, (exists m, hs' !! i = Some m /\ cb_mem m t = true) <->
      (exists m, hs !! i = Some m /\ cb_mem m t = true) \/
      (exists ge, ge ∈ act /\ N.to_nat (mid_from_gtid ge.1) = i /\ mtid_from_gtid ge.1 = t).
Proof.
  induction act as [|[g e] act IH]; intros hs Hl Hw Ha; cbn [add_cores].
  - exists hs. split_and!; [done..|]. intros i t. split; [by left|].
    intros [?|(ge & Hi & _)]; [done|]. by apply elem_of_nil in Hi.
  - inversion_clear Ha as [|?? [H1 H2] Ha']. cbn [fst] in H1, H2.
    destruct (lookup_lt_is_Some_2 hs (N.to_nat (mid_from_gtid g))) as [m Hm]; [lia|]. rewrite Hm.
    destruct (cbm_set_spec m (mtid_from_gtid g) true) as (m' & Em & Hw' & Hset); [by eapply Hw|done|].
    unfold rbind. rewrite Em.
    destruct (IH (<[N.to_nat (mid_from_gtid g) := m']> hs)) as (hs' & E & L & W & S); [by rewrite insert_length| |done|].
    { intros i k Hi. destruct (decide (i = N.to_nat (mid_from_gtid g))) as [->|].
      - rewrite list_lookup_insert in Hi by lia. by simplify_eq.
      - rewrite list_lookup_insert_ne in Hi by done. by eapply Hw. }
    exists hs'. split_and!; [done..|]. intros i t. rewrite S. clear S IH. split.
    + intros [(k & Hk & Ht)|(ge & Hi & Hge)].
      * destruct (decide (i = N.to_nat (mid_from_gtid g))) as [->|].
        -- rewrite list_lookup_insert in Hk by lia. simplify_eq. rewrite Hset in Ht.
           destruct (t =? mtid_from_gtid g)%N eqn:Et; [apply N.eqb_eq in Et; subst t|].
           ++ right. exists (g, e). split; [apply elem_of_list_here|done].
           ++ left. by exists m.
        -- rewrite list_lookup_insert_ne in Hk by done. left. by exists k.
      * right. exists ge. split; [by apply elem_of_list_further|done].
    + intros [(k & Hk & Ht)|(ge & Hi & H3 & H4)].
      * left. destruct (decide (i = N.to_nat (mid_from_gtid g))) as [->|].
        -- rewrite list_lookup_insert by lia. exists m'. split; [done|]. simplify_eq. rewrite Hset. by destruct (t =? _)%N.
        -- rewrite list_lookup_insert_ne by done. by exists k.
      * apply elem_of_cons in Hi as [->|Hi].
        -- left. cbn [fst] in H3, H4. subst i t. rewrite list_lookup_insert by lia. exists m'. split; [done|].
           rewrite Hset. by rewrite N.eqb_refl.
        -- right. by exists ge.
Qed.

(** ** The table of frames and the address space *)

Definition alias_of (pa : N) (kv : N * minfo) : Prop := ma_alias (mi_rights kv.2) = true /\ mi_pa kv.2 = pa.
#[export] Instance alias_of_dec pa kv : Decision (alias_of pa kv).
Proof. unfold alias_of. apply _. Defined.
(** How many aliasable mappings start at a physical address. *)
Definition al (m : gmap N minfo) (pa : N) : nat := size (filter (alias_of pa) m).

Lemma al_insert m b mi pa : m !! b = None ->
  al (<[b := mi]> m) pa = if bool_decide (alias_of pa (b, mi)) then S (al m pa) else al m pa.
Proof.
  intros Hb. unfold al. case_bool_decide as H.
  - rewrite map_filter_insert_True by done. rewrite map_size_insert_None; [done|].
    apply map_filter_lookup_None. by left.
  - rewrite map_filter_insert_False by done. by rewrite delete_notin.
Qed.
Lemma al_delete m b mi pa : m !! b = Some mi ->
  al m pa = if bool_decide (alias_of pa (b, mi)) then S (al (delete b m) pa) else al (delete b m) pa.
Proof.
  intros Hb. rewrite <- (insert_delete m b mi Hb) at 1. rewrite al_insert by apply lookup_delete. done.
Qed.
Lemma al_zero m pa b mi : al m pa = 0 -> m !! b = Some mi -> ma_alias (mi_rights mi) = true -> mi_pa mi <> pa.
Proof.
  unfold al. intros H Hb Ha E. apply map_size_empty_iff in H.
  assert (filter (alias_of pa) m !! b = Some mi) as Hf by (by apply map_filter_lookup_Some).
  rewrite H in Hf. done.
Qed.
Lemma al_pos m pa : al m pa <> 0 -> exists b mi, m !! b = Some mi /\ ma_alias (mi_rights mi) = true /\ mi_pa mi = pa.
Proof.
  unfold al. intros H. destruct (map_choose (filter (alias_of pa) m)) as (b & mi & Hf).
  { intros E. apply H. by rewrite E, map_size_empty. }
  apply map_filter_lookup_Some in Hf as [Hm [H1 H2]]. eauto 6.
Qed.

Lemma frame_pos lg f : frame_ok lg f -> (0 < pf_size f)%N.
Proof. by intros [[-> |[-> _]] _]. Qed.
Lemma meets_base f g lg : frame_ok lg f -> frame_ok lg g -> pf_base f = pf_base g -> meets f g.
Proof.
  intros Hf Hg E. apply frame_pos in Hf, Hg. exists (pf_base f). unfold in_frame, within. rewrite <- E. lia.
Qed.

Section inv.
Context (lg dbg : bool) (nm : nat).

Record pinv (h : list (pop * res pret)) (s : prc) : Prop := {
  pi_reach : reach lg dbg (p_vs s);
  pi_len : length (p_pfm s) = MAX_FRAMES_PER_PROCESS;
  pi_reg : forall i, reg h !! i = match p_pfm s !! i with Some (Some f, _) => Some f | _ => None end;
  pi_zero : forall i k, p_pfm s !! i = Some (None, k) -> k = 0;
  pi_fok : forall i f, reg h !! i = Some f -> frame_ok lg f;
  pi_disj : forall i j f g, reg h !! i = Some f -> reg h !! j = Some g -> i <> j -> ~ meets f g;
  pi_al : forall b mi, vs_map (p_vs s) !! b = Some mi -> ma_alias (mi_rights mi) = true ->
    exists i f k, p_pfm s !! i = Some (Some f, k) /\ pf_base f = mi_pa mi /\ pf_size f = mi_size mi;
  pi_cnt : forall i f k, p_pfm s !! i = Some (Some f, k) -> al (vs_map (p_vs s)) (pf_base f) <= k;
  pi_act : Forall (fun ge => (mid_from_gtid ge.1 < N.of_nat nm)%N /\ (mtid_from_gtid ge.1 < 256)%N) (p_active s);
  pi_cache : length (p_cache s) = MAX_NUMA_NODES }.

Lemma pinv_init vs : start_ok lg dbg vs -> pinv [] (prc_init vs).
Proof.
  intros [R Ha].
  assert (forall b mi, vs_map vs !! b = Some mi -> ma_alias (mi_rights mi) = false) as Hno.
  { intros b mi Hb. destruct (C21_bookkeeping lg dbg vs R) as (H1 & _ & _).
    destruct (vi_rec _ _ (reach_inv _ _ _ R) _ _ Hb) as (P & _). apply page_frame_pos in P.
    destruct (H1 b mi b Hb) as [Hlt Hr]; [unfold within; lia|].
    by apply Ha in Hr. }
  assert (forall i e, pfs_init MAX_FRAMES_PER_PROCESS !! i = Some e -> e = (None, 0)) as Hp.
  { intros i e Hi. unfold pfs_init in Hi. by apply lookup_replicate_1 in Hi as [-> _]. }
  constructor; cbn [prc_init p_vs p_pfm p_active p_cache]; try done.
  - intros i. unfold reg. cbn [foldl]. rewrite lookup_empty.
    destruct (pfs_init _ !! i) as [e|] eqn:E; [|done]. by apply Hp in E as ->.
  - intros i k Hi. apply Hp in Hi. congruence.
  - intros b mi Hb Ht. rewrite (Hno _ _ Hb) in Ht. done.
  - intros i f k Hi. apply Hp in Hi. congruence.
Qed.

(** What a map of one frame does to the recorded mappings. *)
Lemma map_step_cases vs b p sz a :
  reach lg dbg vs -> page_sized lg sz -> (b + sz <= 2 ^ 48)%N ->
  exists r, vs_map_frame lg vs b p sz a = r /\ reach lg dbg r.1 /\ r.2 <> Panic /\
    ((vs_map r.1 = <[b := mkMI p sz a]> (vs_map vs) /\ vs_map vs !! b = None /\ r.2 = Ok tt /\ vs_resolve vs b = Err NotMapped)
     \/ (r.1 = vs /\ (r.2 = Ok tt -> vs_resolve vs b <> Err NotMapped))).
Proof using Type.
  intros R Hs Hb. pose proof (reach_inv _ _ _ R) as I. eexists. split; [done|].
  split; [by apply reach_map|]. split; [by apply (C21_no_panic lg dbg vs R)|].
  destruct (map_frame_cases lg vs b p sz a I Hs Hb) as [[_ ->]|[(_ & _ & ->)|(_ & _ & [(Hu & Hk & t & -> & _)|(k & mi & Hk & H1 & H2 & Hc)])]].
  - right. done.
  - right. done.
  - left. cbn [fst snd vs_map]. split_and!; [done| |done|].
    + destruct (vs_map vs !! b) as [mi|] eqn:E; [|done]. apply Hk in E as E'; [|apply page_frame_pos in Hs; lia].
      destruct (vi_rec _ _ I _ _ E) as (P & _). apply page_frame_pos in P. lia.
    + apply resolve_none. apply page_frame_pos in Hs. apply Hu; lia.
  - right. destruct Hc as [(-> & <- & _ & <- & ->)|(_ & ->)]; [|done]. split; [done|]. intros _.
    destruct (vi_rec _ _ I _ _ Hk) as (P & _). apply page_frame_pos in P.
    rewrite (resolve_mapping _ _ _ _ b I Hk); [done|]. unfold within. lia.
Qed.

(** The cases of a step that leave the table of frames alone. *)
Lemma pinv_other h s op r vs eid off c act :
  pinv h s -> reg_step (reg h) (op, r) = reg h -> reach lg dbg vs ->
  (forall b mi, vs_map vs !! b = Some mi -> ma_alias (mi_rights mi) = true -> vs_map (p_vs s) !! b = Some mi) ->
  (forall pa, al (vs_map vs) pa <= al (vs_map (p_vs s)) pa) ->
  Forall (fun ge => (mid_from_gtid ge.1 < N.of_nat nm)%N /\ (mtid_from_gtid ge.1 < 256)%N) act ->
  length c = MAX_NUMA_NODES ->
  pinv (h ++ [(op, r)]) (mkPrc vs (p_pfm s) eid off c act).
Proof using Type.
  intros [I1 I2 I3 I4 I5 I6 I7 I8 I9 I10] Hr Hv Hm Ha Hact Hc.
  constructor; cbn [p_vs p_pfm p_active p_cache]; rewrite ?reg_snoc, ?Hr; try done.
  - intros b mi Hb Ht. by eapply I7; [apply Hm|].
  - intros i f k Hi. etrans; [apply Ha|]. by eapply I8.
Qed.

Lemma pinv_same h s op r : pinv h s -> reg_step (reg h) (op, r) = reg h -> pinv (h ++ [(op, r)]) s.
Proof using Type.
  intros I Hr. assert (s = mkPrc (p_vs s) (p_pfm s) (p_eid s) (p_exoff s) (p_cache s) (p_active s)) as E by (by destruct s).
  rewrite E. apply pinv_other; try done; apply I.
Qed.

Lemma map_keeps_alias vs b p sz a r :
  reach lg dbg vs -> page_sized lg sz -> (b + sz <= 2 ^ 48)%N -> ma_alias a = false ->
  vs_map_frame lg vs b p sz a = r ->
  reach lg dbg r.1 /\ r.2 <> Panic /\
  (forall k mi, vs_map r.1 !! k = Some mi -> ma_alias (mi_rights mi) = true -> vs_map vs !! k = Some mi) /\
  (forall pa, al (vs_map r.1) pa = al (vs_map vs) pa).
Proof using Type.
  intros R Hs Hb Ha <-. destruct (map_step_cases vs b p sz a R Hs Hb) as (r & -> & R' & Hp & [(Hm & Hn & _)|[-> _]]); [|done].
  split_and!; [done..| |].
  - intros k mi. rewrite Hm. destruct (decide (k = b)) as [->|].
    + rewrite lookup_insert. intros [= <-]. cbn [mi_rights]. congruence.
    + by rewrite lookup_insert_ne.
  - intros pa. rewrite Hm, al_insert by done. rewrite bool_decide_false; [done|].
    intros [E _]. cbn [snd mi_rights] in E. congruence.
Qed.

(** *** Carving executors *)
Lemma cache_push_ok c i x : i < length c -> exists c', cache_push c i x = Ok c' /\ length c' = length c.
Proof using Type.
  intros Hi. unfold cache_push. destruct (lookup_lt_is_Some_2 c i Hi) as [[l|] ->]; eexists; (split; [done|]); by rewrite insert_length.
Qed.
Lemma exec_new_ok eid k v aff : exec_new eid k v (v + EXEC_SPACE) aff =
  Ok (mkEx eid aff v (v + INIT_STACK) (v + INIT_STACK + UPCALL_STACK) k).
Proof using Type.
  unfold exec_new. assert ((v <? v + EXEC_SPACE)%N = true) as -> by (apply N.ltb_lt; unfold EXEC_SPACE; lia).
  cbn [negb]. assert ((INIT_STACK + UPCALL_STACK + VCPU_SIZE <=? v + EXEC_SPACE - v)%N = true) as -> .
  { apply N.leb_le. unfold INIT_STACK, UPCALL_STACK, VCPU_SIZE, EXEC_SPACE. lia. }
  done.
Qed.
Lemma carve_no_panic n : forall p v aff eid c fail, aff < length c ->
  exists eid' c' r, carve n p v aff eid c fail = (eid', c', r) /\ length c' = length c /\ r <> Panic /\ (fail = None -> r = Ok tt).
Proof using Type.
  induction n as [|n IH]; intros p v aff eid c fail Ha; cbn [carve].
  { eexists _, _, _. split; [done|]. done. }
  rewrite exec_new_ok.
  destruct (cache_push_ok c aff (mkEx eid aff v (v + INIT_STACK) (v + INIT_STACK + UPCALL_STACK) (p + INIT_STACK + UPCALL_STACK + KERNEL_BASE)) Ha) as (c1 & E1 & L1).
  destruct fail as [[|k]|].
  - eexists _, _, _. split; [done|]. done.
  - rewrite E1. destruct (IH (p + EXEC_SPACE)%N (v + EXEC_SPACE)%N aff (S eid) c1 (Nat.pred <$> Some (S k))) as (e & c' & r & -> & L & Hr & _); [lia|].
    eexists _, _, _. split; [done|]. split_and!; [lia|done|done].
  - rewrite E1. destruct (IH (p + EXEC_SPACE)%N (v + EXEC_SPACE)%N aff (S eid) c1 (Nat.pred <$> None)) as (e & c' & r & -> & L & Hr & Hn); [lia|].
    eexists _, _, _. split; [done|]. split_and!; [lia|done|done].
Qed.

(** *** One step *)
Lemma pinv_step h s op s' r :
  pinv h s -> op_ok lg nm h s op -> prc_step lg dbg nm s op = (s', r) ->
  r <> Panic /\ pinv (h ++ [(op, r)]) s'.
Proof using Type.
  intros I Hop Hs. pose proof I as [I1 I2 I3 I4 I5 I6 I7 I8 I9 I10].
  destruct op as [f aff fail|b f a refill|f a|b id a refill|va|g region oom|f|id]; cbn [prc_step op_ok] in Hs, Hop.
  - (* executor memory *)
    destruct Hop as ([Hf Hal] & Hsz & Haff & Hoff & H48 & Hun).
    unfold alloc_executors in Hs. rewrite Hsz in Hs, Hf, Hal.
    destruct (C17_map_unmapped_range lg dbg (p_vs s) (p_exoff s) (pf_base f) LARGE (ma_or ma_user ma_write_) I1)
      as (vs & Ev & _); [done..|].
    rewrite Ev in Hs. destruct (map_keeps_alias _ _ _ _ (ma_or ma_user ma_write_) _ I1 Hf H48 eq_refl Ev) as (R' & _ & Hk & Hal').
    cbn [fst] in R', Hk, Hal'.
    destruct (carve_no_panic (N.to_nat (LARGE / EXEC_SPACE)) (pf_base f) (p_exoff s) aff (p_eid s) (p_cache s) fail)
      as (e & c & r0 & E & L & Hr & _); [lia|]. rewrite E in Hs.
    assert (forall off r', pinv (h ++ [(PoDisp f aff fail, r')]) (mkPrc vs (p_pfm s) e off c (p_active s))) as Hres.
    { intros off r'. apply pinv_other; try done; [|lia]. intros pa. by rewrite Hal'. }
    destruct r0; cbn [rmap] in Hs; injection Hs as <- <-; [by split|by split|done].
  - (* a frame *)
    destruct Hop as ([Hf _] & Ha & H48). destruct refill.
    + destruct (vs_map_frame lg (p_vs s) b (pf_base f) (pf_size f) a) as [vs r0] eqn:Ev.
      destruct (map_keeps_alias _ _ _ _ _ _ I1 Hf H48 Ha Ev) as (R' & Hp & Hk & Hal'). cbn [fst snd] in *.
      simplify_eq. split; [by destruct r0|]. apply pinv_other; try done. intros pa. by rewrite Hal'.
    + simplify_eq. split; [done|]. by apply pinv_same.
  - (* device memory *)
    destruct Hop as (Hf & Ha & H48).
    destruct (vs_map_frame lg (p_vs s) (pf_base f) (pf_base f) (pf_size f) a) as [vs r0] eqn:Ev.
    destruct (map_keeps_alias _ _ _ _ _ _ I1 Hf H48 Ha Ev) as (R' & Hp & Hk & Hal'). cbn [fst snd] in *.
    simplify_eq. split; [by destruct r0|]. apply pinv_other; try done. intros pa. by rewrite Hal'.
  - (* by id *)
    destruct Hop as (Ha & H48). unfold pfs_get, pfs_add_mapping in Hs.
    destruct (p_pfm s !! id) as [[[f|] k]|] eqn:E.
    2-3: simplify_eq; (split; [done|]); by apply pinv_same.
    pose proof (I3 id) as Hid. rewrite E in Hid. specialize (H48 _ Hid).
    pose proof (lookup_lt_Some _ _ _ E) as Hlt.
    destruct (I5 _ _ Hid) as [Hsz _].
    assert (forall vs r', reach lg dbg vs -> reg_step (reg h) (PoMapId b id a refill, r') = reg h ->
      (vs_map vs = vs_map (p_vs s) \/ vs_map (p_vs s) !! b = None /\ vs_map vs = <[b := mkMI (pf_base f) (pf_size f) a]> (vs_map (p_vs s))) ->
      pinv (h ++ [(PoMapId b id a refill, r')]) (mkPrc vs (<[id := (Some f, S k)]> (p_pfm s)) (p_eid s) (p_exoff s) (p_cache s) (p_active s))) as Hres.
    { intros vs r' R' Hrg Hv.
      assert (forall j, <[id := (Some f, S k)]> (p_pfm s) !! j =
        if decide (j = id) then Some (Some f, S k) else p_pfm s !! j) as Hlk.
      { intros j. case_decide; [subst; by rewrite list_lookup_insert|by rewrite list_lookup_insert_ne]. }
      constructor; cbn [p_vs p_pfm p_active p_cache]; rewrite ?reg_snoc, ?Hrg; try done.
      - by rewrite insert_length.
      - intros j. rewrite Hlk, I3. case_decide; [subst; by rewrite E|done].
      - intros j l. rewrite Hlk. case_decide; [done|apply I4].
      - intros j mi Hj Ht.
        assert (vs_map (p_vs s) !! j = Some mi -> exists i g l, <[id := (Some f, S k)]> (p_pfm s) !! i = Some (Some g, l) /\ pf_base g = mi_pa mi /\ pf_size g = mi_size mi) as Hold.
        { intros Hj'. destruct (I7 _ _ Hj' Ht) as (i & g & l & Hi & H1 & H2). destruct (decide (i = id)) as [->|].
          - exists id, f, (S k). rewrite Hlk, decide_True by done. rewrite E in Hi. by simplify_eq.
          - exists i, g, l. by rewrite Hlk, decide_False. }
        destruct Hv as [Hv|[_ Hv]]; rewrite Hv in Hj; [by apply Hold|].
        destruct (decide (j = b)) as [->|]; [|rewrite lookup_insert_ne in Hj by done; by apply Hold].
        rewrite lookup_insert in Hj. injection Hj as <-. exists id, f, (S k).
        by rewrite Hlk, decide_True.
      - intros j g l. rewrite Hlk. intros Hj.
        assert (al (vs_map vs) (pf_base g) <= S (al (vs_map (p_vs s)) (pf_base g)) /\
          (pf_base g <> pf_base f -> al (vs_map vs) (pf_base g) = al (vs_map (p_vs s)) (pf_base g))) as [B1 B2].
        { destruct Hv as [-> |[Hn ->]]; [split; [lia|done]|]. rewrite al_insert by done.
          case_bool_decide as Hb; [|split; [lia|done]]. split; [lia|]. destruct Hb as [_ Hb]. cbn [snd mi_pa] in Hb. congruence. }
        case_decide as Hd.
        + subst j. simplify_eq. specialize (I8 _ _ _ E). lia.
        + destruct (decide (pf_base g = pf_base f)) as [Eb|Nb]; [|rewrite B2 by done; by eapply I8].
          exfalso. assert (reg h !! j = Some g) as Hj2 by (by rewrite I3, Hj).
          apply (I6 _ _ _ _ Hj2 Hid Hd). by eapply meets_base; [eapply I5..|]. }
    destruct refill.
    + destruct (map_step_cases (p_vs s) b (pf_base f) (pf_size f) a I1 Hsz H48) as (r0 & Ev & R' & Hp & Hc).
      rewrite Ev in Hs. destruct r0 as [vs r0]. cbn [fst snd] in *. simplify_eq.
      split; [by destruct r0|]. apply Hres; [done..|]. destruct Hc as [(Hm & Hn & _)|[-> _]]; [by right|by left].
    + simplify_eq. split; [done|]. apply Hres; [done..|]. by left.
  - (* unmap *)
    pose proof (C19_unmap lg dbg (p_vs s) va I1 Hop) as Hu.
    pose proof (reach_unmap lg dbg (p_vs s) va I1 Hop) as R'.
    assert (forall e, prc_step lg dbg nm s (PoUnmap va) = (s, Err e) -> s' = s -> r = Err e -> r <> Panic /\ pinv (h ++ [(PoUnmap va, r)]) s') as Herr.
    { intros e _ -> ->. split; [done|]. by apply pinv_same. }
    destruct (vs_resolve (p_vs s) va) as [pr|e|].
    2-3: destruct Hu as (e' & Eu & _); rewrite Eu in Hs; simplify_eq; by eapply Herr; [cbn [prc_step]; rewrite Eu|..].
    destruct Hu as [(_ & Eu)|(_ & vs & vb & p & sz & a & Eu & Hpz & Hw & Hvb & Hdel & _)].
    { rewrite Eu in Hs. simplify_eq. by eapply Herr; [cbn [prc_step]; rewrite Eu|..]. }
    rewrite Eu in Hs, R'. cbn [fst] in R'. clear Herr.
    destruct (add_cores_spec nm (p_active s) (replicate nm (mkCbm 0 0))) as (hs & Eac & _).
    { by rewrite replicate_length. }
    { intros i m Hi. apply lookup_replicate_1 in Hi as [-> _]. by split. }
    { done. }
    rewrite Eac in Hs.
    assert (forall b mi, vs_map vs !! b = Some mi -> vs_map (p_vs s) !! b = Some mi) as Hsub.
    { intros b mi. rewrite Hdel. intros Hb. by apply lookup_delete_Some in Hb as [_ ?]. }
    destruct (ma_alias (granted a)) eqn:Hal; cbn [granted ma_alias] in Hal.
    2:{ cbn [rmap] in Hs; simplify_eq. split; [done|]. apply pinv_other; try done; [by auto|].
        intros pa. rewrite Hdel. rewrite (al_delete _ _ _ pa Hvb). rewrite bool_decide_false; [done|]. intros [Ha _]. cbn [snd mi_rights] in Ha. congruence. }
    destruct (I7 _ _ Hvb Hal) as (i & f & k & Hi & Hfb & Hfs). cbn [mi_pa mi_size] in Hfb, Hfs.
    assert (forall j g l, p_pfm s !! j = Some (Some g, l) -> pf_base g = p -> j = i) as Huniq.
    { intros j g l Hj Hg. destruct (decide (j = i)) as [|Hne]; [done|]. exfalso.
      assert (reg h !! j = Some g) as Hj2 by (by rewrite I3, Hj). assert (reg h !! i = Some f) as Hi2 by (by rewrite I3, Hi).
      apply (I6 _ _ _ _ Hj2 Hi2 Hne). eapply meets_base; [by eapply I5..|congruence]. }
    assert (0 < k) as Hk.
    { specialize (I8 _ _ _ Hi). rewrite (al_delete _ _ _ _ Hvb) in I8. rewrite bool_decide_true in I8; [lia|]. split; [done|]. by cbn. }
    pose proof (pfs_remove_spec (p_pfm s) p) as Hrm.
    destruct (pfs_remove_mapping (p_pfm s) p) as [fs [[]|e|]].
    2:{ destruct Hrm as (_ & _ & Hno). by apply Hno in Hi. }
    2:{ destruct Hrm as (_ & j & g & Hj & Hg). assert (j = i) as -> by (by eapply Huniq). rewrite Hi in Hj. simplify_eq. lia. }
    destruct Hrm as (j & g & l & Hj & Hg & -> & _). assert (j = i) as -> by (by eapply Huniq).
    rewrite Hi in Hj. injection Hj as <- ->. cbn [rmap] in Hs; simplify_eq. split; [done|].
    pose proof (lookup_lt_Some _ _ _ Hi) as Hlt.
    assert (forall j, <[i := (Some f, l)]> (p_pfm s) !! j =
        if decide (j = i) then Some (Some f, l) else p_pfm s !! j) as Hlk.
    { intros j. case_decide; [subst; by rewrite list_lookup_insert|by rewrite list_lookup_insert_ne]. }
    constructor; cbn [p_vs p_pfm p_active p_cache]; rewrite ?reg_snoc; cbn [reg_step]; try done.
    + by rewrite insert_length.
    + intros j. rewrite Hlk, I3. case_decide; [subst; by rewrite Hi|done].
    + intros j l'. rewrite Hlk. case_decide; [done|apply I4].
    + intros b mi Hb Ht. destruct (I7 _ _ (Hsub _ _ Hb) Ht) as (j & g & l' & Hj & H1 & H2). destruct (decide (j = i)) as [->|].
      * exists i, f, l. rewrite Hlk, decide_True by done. rewrite Hi in Hj. by simplify_eq.
      * exists j, g, l'. by rewrite Hlk, decide_False.
    + intros j g l'. rewrite Hlk, Hdel. intros Hj. case_decide as Hd.
      * simplify_eq. specialize (I8 _ _ _ Hi). rewrite (al_delete _ _ _ _ Hvb) in I8.
        rewrite bool_decide_true in I8; [lia|]. by split.
      * specialize (I8 _ _ _ Hj). rewrite (al_delete _ _ _ _ Hvb) in I8. case_bool_decide; lia.
  - (* a core *)
    destruct Hop as (Hr & Hm & Ht). unfold get_executor in Hs.
    destruct (lookup_lt_is_Some_2 (p_cache s) region) as [[l|] E]; [lia|..]; rewrite E in Hs.
    2:{ simplify_eq. split; [done|]. by apply pinv_same. }
    destruct (last l) as [x|].
    2:{ simplify_eq. split; [done|]. by apply pinv_same. }
    destruct oom; simplify_eq; (split; [done|]); apply pinv_other; try done; [by rewrite insert_length| |by rewrite insert_length].
    apply Forall_app. split; [done|]. by constructor.
  - (* register *)
    destruct Hop as (Hf & Hd). unfold pfs_add in Hs. pose proof (pfs_free_spec (p_pfm s)) as Hfr.
    destruct (pfs_free (p_pfm s)) as [i|]; cbn [rmap] in Hs; simplify_eq.
    2:{ split; [done|]. by apply pinv_same. }
    split; [done|]. destruct Hfr as [[k Hi] _]. pose proof (lookup_lt_Some _ _ _ Hi) as Hlt.
    assert (forall j, <[i := (Some f, 0)]> (p_pfm s) !! j =
        if decide (j = i) then Some (Some f, 0) else p_pfm s !! j) as Hlk.
    { intros j. case_decide; [subst; by rewrite list_lookup_insert|by rewrite list_lookup_insert_ne]. }
    assert (reg h !! i = None) as Hni by (by rewrite I3, Hi).
    assert (forall j, reg_step (reg h) (PoAddFrame f, Ok (PrFid i)) !! j = if decide (j = i) then Some f else reg h !! j) as Hrl.
    { intros j. cbn [reg_step]. case_decide; [subst; by rewrite lookup_insert|by rewrite lookup_insert_ne]. }
    constructor; cbn [p_vs p_pfm p_active p_cache]; rewrite ?reg_snoc; try done.
    + by rewrite insert_length.
    + intros j. rewrite Hlk, Hrl, I3. by case_decide.
    + intros j l. rewrite Hlk. case_decide; [done|apply I4].
    + intros j g. rewrite Hrl. case_decide; [by intros [= <-]|apply I5].
    + intros j1 j2 g1 g2. rewrite !Hrl. repeat case_decide; subst; intros H1 H2 Hne; simplify_eq; try done.
      * by eapply Hd.
      * intros (x & X1 & X2). eapply Hd; [exact H1|]. by exists x.
      * by eapply I6.
    + intros b mi Hb Ht. destruct (I7 _ _ Hb Ht) as (j & g & l & Hj & H1 & H2). exists j, g, l.
      rewrite Hlk, decide_False; [done|]. intros ->. congruence.
    + intros j g l. rewrite Hlk. case_decide as Hji; [|apply I8]. intros [= <- <-].
      destruct (decide (al (vs_map (p_vs s)) (pf_base f) = 0)) as [->|Hne]; [done|]. exfalso.
      apply al_pos in Hne as (b & mi & Hb & Ht & Hpa). destruct (I7 _ _ Hb Ht) as (j' & g' & l' & Hj' & H1 & H2).
      assert (reg h !! j' = Some g') as Hr' by (by rewrite I3, Hj'). apply (Hd _ _ Hr').
      eapply meets_base; [done|by eapply I5|congruence].
  - (* release *)
    unfold pfs_dealloc in Hs. destruct (p_pfm s !! id) as [[[f|] [|k]]|] eqn:E; cbn [rmap] in Hs; simplify_eq.
    2-5: split; [done|]; by apply pinv_same.
    split; [done|]. pose proof (lookup_lt_Some _ _ _ E) as Hlt.
    assert (forall j, <[id := (None, 0)]> (p_pfm s) !! j =
        if decide (j = id) then Some (None, 0) else p_pfm s !! j) as Hlk.
    { intros j. case_decide; [subst; by rewrite list_lookup_insert|by rewrite list_lookup_insert_ne]. }
    assert (forall j g, reg_step (reg h) (PoRelease id, Ok (PrFrame f)) !! j = Some g <-> j <> id /\ reg h !! j = Some g) as Hrl.
    { intros j g. cbn [reg_step]. rewrite lookup_delete_Some. naive_solver. }
    constructor; cbn [p_vs p_pfm p_active p_cache]; rewrite ?reg_snoc; try done.
    + by rewrite insert_length.
    + intros j. rewrite Hlk. cbn [reg_step]. case_decide; [subst; by rewrite lookup_delete|]. by rewrite lookup_delete_ne, I3.
    + intros j l. rewrite Hlk. case_decide; [congruence|apply I4].
    + intros j g Hj. apply Hrl in Hj as [_ Hj]. by eapply I5.
    + intros j1 j2 g1 g2 H1 H2. apply Hrl in H1 as [_ H1]. apply Hrl in H2 as [_ H2]. by eapply I6.
    + intros b mi Hb Ht. destruct (I7 _ _ Hb Ht) as (j & g & l & Hj & H1 & H2). exists j, g, l.
      rewrite Hlk, decide_False; [done|]. intros ->. rewrite E in Hj. injection Hj as <- <-.
      specialize (I8 _ _ _ E). assert (al (vs_map (p_vs s)) (pf_base f) = 0) as Hz by lia.
      apply (al_zero _ _ _ _ Hz Hb Ht). done.
    + intros j g l. rewrite Hlk. case_decide; [done|apply I8].
Qed.

Lemma pinv_run ops : forall h s, pinv h s -> hist_ok lg dbg nm h s ops ->
  let p := prc_run lg dbg nm s ops in
  pinv (h ++ p.2) p.1 /\ forall op r, (op, r) ∈ p.2 -> r <> Panic.
Proof using Type.
  induction ops as [|op ops IH]; intros h s I Hok; cbn [prc_run hist_ok] in *.
  { cbn zeta. cbn [fst snd]. rewrite app_nil_r. split; [done|]. intros ?? Hin. by apply elem_of_nil in Hin. }
  destruct Hok as [H1 H2]. destruct (prc_step lg dbg nm s op) as [s1 r] eqn:E. cbn [fst snd] in H2.
  destruct (pinv_step _ _ _ _ _ I H1 E) as [Hp I']. specialize (IH _ _ I' H2).
  destruct (prc_run lg dbg nm s1 ops) as [s2 rs]. cbn zeta in *. cbn [fst snd] in *.
  rewrite <- app_assoc in IH. cbn [app] in IH. destruct IH as [IH1 IH2]. split; [done|].
  intros o q Hin. apply elem_of_cons in Hin as [[= -> ->]|Hin]; [done|by eapply IH2].
Qed.

(** *** Clean histories *)
Definition exact (s : prc) : Prop := forall i f k, p_pfm s !! i = Some (Some f, k) -> al (vs_map (p_vs s)) (pf_base f) = k.

Lemma exact_step h s op s' r :
  pinv h s -> exact s -> op_ok lg nm h s op -> prc_step lg dbg nm s op = (s', r) -> clean_op s op r -> exact s'.
Proof using Type.
  intros I X Hop Hs Hc. pose proof I as [I1 I2 I3 I4 I5 I6 I7 I8 I9 I10].
  assert (forall vs eid off c act, (forall pa, al (vs_map vs) pa = al (vs_map (p_vs s)) pa) -> exact (mkPrc vs (p_pfm s) eid off c act)) as Hsame.
  { intros vs ???? Ha i f k Hi. cbn [p_vs p_pfm] in *. rewrite Ha. by eapply X. }
  destruct op as [f aff fail|b f a refill|f a|b id a refill|va|g region oom|f|id]; cbn [prc_step op_ok clean_op] in Hs, Hop, Hc.
  - destruct Hop as ([Hf Hal] & Hsz & Haff & Hoff & H48 & Hun).
    unfold alloc_executors in Hs. rewrite Hsz in Hs, Hf, Hal.
    destruct (vs_map_frame lg (p_vs s) (p_exoff s) (pf_base f) LARGE (ma_or ma_user ma_write_)) as [vs r0] eqn:Ev.
    destruct (map_keeps_alias _ _ _ _ (ma_or ma_user ma_write_) _ I1 Hf H48 eq_refl Ev) as (R' & _ & Hk & Hal').
    repeat case_match; simplify_eq; by apply Hsame.
  - destruct Hop as ([Hf _] & Ha & H48). destruct refill; [|by simplify_eq].
    destruct (vs_map_frame lg (p_vs s) b (pf_base f) (pf_size f) a) as [vs r0] eqn:Ev.
    destruct (map_keeps_alias _ _ _ _ _ _ I1 Hf H48 Ha Ev) as (R' & Hp & Hk & Hal').
    simplify_eq. by apply Hsame.
  - destruct Hop as (Hf & Ha & H48).
    destruct (vs_map_frame lg (p_vs s) (pf_base f) (pf_base f) (pf_size f) a) as [vs r0] eqn:Ev.
    destruct (map_keeps_alias _ _ _ _ _ _ I1 Hf H48 Ha Ev) as (R' & Hp & Hk & Hal').
    simplify_eq. by apply Hsame.
  - destruct Hop as (Ha & H48). unfold pfs_get, pfs_add_mapping in Hs.
    destruct (p_pfm s !! id) as [[[f|] k]|] eqn:E; [|by simplify_eq..].
    pose proof (I3 id) as Hid. rewrite E in Hid. specialize (H48 _ Hid).
    pose proof (lookup_lt_Some _ _ _ E) as Hlt.
    destruct (I5 _ _ Hid) as [Hsz _]. destruct refill; [|by simplify_eq; destruct Hc as [|[]]].
    destruct (map_step_cases (p_vs s) b (pf_base f) (pf_size f) a I1 Hsz H48) as (r0 & Ev & R' & Hp & Hcs).
    rewrite Ev in Hs. destruct r0 as [vs r0]. cbn [fst snd] in *. simplify_eq.
    assert (r0 = Ok tt /\ vs_resolve (p_vs s) b = Err NotMapped) as [-> Hb].
    { destruct r0 as [[]|e|]; cbn in Hc; [|exfalso..].
      - split; [done|]. by destruct Hc as [|[_ ?]].
      - destruct Hc as [[= ->]|[[] _]]. destruct Hcs as [(_ & _ & ? & _)|[-> _]]; [done|].
        destruct (map_frame_cases lg (p_vs s) b (pf_base f) (pf_size f) a (reach_inv _ _ _ I1) Hsz H48) as [[_ E2]|[(_ & _ & E2)|(_ & _ & [(_ & _ & t & E2 & _)|(? & ? & _ & _ & _ & [(_ & _ & _ & _ & E2)|(_ & E2)])])]]; rewrite E2 in Ev; done.
      - by destruct Hc as [|[]]. }
    destruct Hcs as [(Hm & Hn & _)|[_ Hno]]; [|by destruct Hno].
    intros j g l Hj. cbn [p_vs p_pfm] in *. rewrite Hm, al_insert by done.
    destruct (decide (j = id)) as [->|Hne].
    + rewrite list_lookup_insert in Hj by done. injection Hj as <- <-. rewrite bool_decide_true by (by split). f_equal. by eapply X.
    + rewrite list_lookup_insert_ne in Hj by done. rewrite bool_decide_false; [by eapply X|]. intros [_ Eb]. cbn [snd mi_pa] in Eb.
      assert (reg h !! j = Some g) as Hj2 by (by rewrite I3, Hj).
      apply (I6 _ _ _ _ Hj2 Hid Hne). by eapply meets_base; [eapply I5..|].
  - pose proof (C19_unmap lg dbg (p_vs s) va I1 Hop) as Hu.
    destruct (vs_resolve (p_vs s) va) as [pr|e|].
    2-3: destruct Hu as (e' & Eu & _); rewrite Eu in Hs; by simplify_eq.
    destruct Hu as [(_ & Eu)|(_ & vs & vb & p & sz & a & Eu & Hpz & Hw & Hvb & Hdel & _)]; rewrite Eu in Hs; [by simplify_eq|].
    destruct (ma_alias (granted a)) eqn:Hal; cbn [granted ma_alias] in Hal.
    2:{ cbn [rmap] in Hs; simplify_eq. apply Hsame.
        intros pa. rewrite Hdel. rewrite (al_delete _ _ _ pa Hvb). rewrite bool_decide_false; [done|]. intros [Ha _]. cbn [snd mi_rights] in Ha. congruence. }
    destruct (I7 _ _ Hvb Hal) as (i & f & k & Hi & Hfb & Hfs). cbn [mi_pa mi_size] in Hfb, Hfs.
    assert (forall j g l, p_pfm s !! j = Some (Some g, l) -> pf_base g = p -> j = i) as Huniq.
    { intros j g l Hj Hg. destruct (decide (j = i)) as [|Hne]; [done|]. exfalso.
      assert (reg h !! j = Some g) as Hj2 by (by rewrite I3, Hj). assert (reg h !! i = Some f) as Hi2 by (by rewrite I3, Hi).
      apply (I6 _ _ _ _ Hj2 Hi2 Hne). eapply meets_base; [by eapply I5..|congruence]. }
    assert (k = S (al (delete vb (vs_map (p_vs s))) (pf_base f))) as Hk.
    { rewrite <- (X _ _ _ Hi). rewrite (al_delete _ _ _ _ Hvb). rewrite bool_decide_true; [done|]. by split. }
    pose proof (pfs_remove_spec (p_pfm s) p) as Hrm.
    destruct (pfs_remove_mapping (p_pfm s) p) as [fs [[]|e|]].
    2:{ destruct Hrm as (_ & _ & Hno). by apply Hno in Hi. }
    2:{ destruct Hrm as (_ & j & g & Hj & Hg). assert (j = i) as -> by (by eapply Huniq). rewrite Hi in Hj. simplify_eq. }
    destruct Hrm as (j & g & l & Hj & Hg & -> & _). assert (j = i) as -> by (by eapply Huniq).
    rewrite Hi in Hj. injection Hj as <- ->. cbn [rmap] in Hs; simplify_eq.
    pose proof (lookup_lt_Some _ _ _ Hi) as Hlt.
    intros j g' l' Hj. cbn [p_vs p_pfm] in *. rewrite Hdel.
    destruct (decide (j = i)) as [->|Hne].
    + rewrite list_lookup_insert in Hj by done. by simplify_eq.
    + rewrite list_lookup_insert_ne in Hj by done. specialize (X _ _ _ Hj). rewrite (al_delete _ _ _ _ Hvb) in X.
      rewrite bool_decide_false in X; [done|]. intros [_ Eb]. cbn [snd mi_pa] in Eb. by apply Hne, (Huniq _ _ _ Hj).
  - destruct (get_executor (p_cache s) region) as [c [x|e|]]; [destruct oom|..]; simplify_eq; try done; by apply Hsame.
  - destruct Hop as (Hf & Hd). unfold pfs_add in Hs. pose proof (pfs_free_spec (p_pfm s)) as Hfr.
    destruct (pfs_free (p_pfm s)) as [i|]; cbn [rmap] in Hs; simplify_eq; [|by apply Hsame].
    destruct Hfr as [[k Hi] _]. pose proof (lookup_lt_Some _ _ _ Hi) as Hlt.
    intros j g l Hj. cbn [p_vs p_pfm] in *. destruct (decide (j = i)) as [->|Hne].
    + rewrite list_lookup_insert in Hj by done. injection Hj as <- <-.
      destruct (decide (al (vs_map (p_vs s)) (pf_base f) = 0)) as [->|Hz]; [done|]. exfalso.
      apply al_pos in Hz as (b & mi & Hb & Ht & Hpa). destruct (I7 _ _ Hb Ht) as (j' & g' & l' & Hj' & H1 & H2).
      assert (reg h !! j' = Some g') as Hr' by (by rewrite I3, Hj'). apply (Hd _ _ Hr').
      eapply meets_base; [done|by eapply I5|congruence].
    + rewrite list_lookup_insert_ne in Hj by done. by eapply X.
  - unfold pfs_dealloc in Hs. destruct (p_pfm s !! id) as [[[f|] [|k]]|] eqn:E; cbn [rmap] in Hs; simplify_eq; try by apply Hsame.
    pose proof (lookup_lt_Some _ _ _ E) as Hlt.
    intros j g l Hj. cbn [p_vs p_pfm] in *. destruct (decide (j = id)) as [->|Hne].
    + by rewrite list_lookup_insert in Hj.
    + rewrite list_lookup_insert_ne in Hj by done. by eapply X.
Qed.
Lemma exact_run ops : forall h s, pinv h s -> exact s -> hist_ok lg dbg nm h s ops -> clean lg dbg nm s ops ->
  exact (prc_run lg dbg nm s ops).1.
Proof using Type.
  induction ops as [|op ops IH]; intros h s I X Hok Hcl; cbn [prc_run hist_ok clean] in *; [done|].
  destruct Hok as [H1 H2]. destruct (prc_step lg dbg nm s op) as [s1 r] eqn:E. cbn [fst snd] in H2, Hcl. cbn zeta in Hcl. destruct Hcl as [C1 C2].
  destruct (pinv_step _ _ _ _ _ I H1 E) as [Hp I'].
  pose proof (exact_step _ _ _ _ _ I X H1 E C1) as X'. specialize (IH _ _ I' X' H2 C2).
  by destruct (prc_run lg dbg nm s1 ops) as [s2 rs].
Qed.
End inv.

(** ** Executors *)

Definition cached (c : list (option (list exr))) : list exr := concat (map (default []) c).
Definition push_all (c : list (option (list exr))) (aff : nat) (l : list exr) : list (option (list exr)) :=
  match l with [] => c | _ => <[aff := Some (match c !! aff with Some (Some l0) => l0 | _ => [] end ++ l)]> c end.

Lemma nth_exec_shift e v p z z' aff k :
  nth_exec (S e) (v + EXEC_SPACE) (mkPF (p + EXEC_SPACE) z) aff k = nth_exec e v (mkPF p z') aff (S k).
Proof.
  unfold nth_exec. cbn [pf_base]. rewrite Nat2N.inj_succ.
  f_equal; [lia|..]; rewrite N.mul_succ_l; set (N.of_nat k * EXEC_SPACE)%N; clearbody n; lia.
Qed.
Lemma push_all_cons c aff x l c1 : cache_push c aff x = Ok c1 -> push_all c1 aff l = push_all c aff (x :: l).
Proof.
  unfold cache_push. destruct (c !! aff) as [[l0|]|] eqn:E; [..|done]; intros [= <-];
    pose proof (lookup_lt_Some _ _ _ E); destruct l as [|y l]; cbn [push_all]; rewrite ?E; try done;
    rewrite list_lookup_insert by done; rewrite list_insert_insert; [by rewrite <- app_assoc|done].
Qed.
Definition carved (n : nat) (fail : option nat) : nat := match fail with Some k => k `min` n | None => n end.
Lemma carve_spec n : forall p v aff eid c fail z,
  carved n fail = 0 \/ aff < length c ->
  carve n p v aff eid c fail =
    (eid + carved n fail, push_all c aff (map (nth_exec eid v (mkPF p z) aff) (seq 0 (carved n fail))),
     if decide (carved n fail < n) then Err OutOfMemory else Ok tt).
Proof.
  induction n as [|n IH]; intros p v aff eid c fail z Hc; cbn [carve].
  { assert (carved 0 fail = 0) as -> by (destruct fail; cbn [carved]; lia). cbn. by rewrite Nat.add_0_r. }
  rewrite exec_new_ok. destruct (decide (fail = Some 0)) as [->|Hf].
  { cbn. by rewrite Nat.add_0_r. }
  assert (carved (S n) fail = S (carved n (Nat.pred <$> fail))) as Hcv.
  { destruct fail as [[|k]|]; [done|..]; cbn; lia. }
  rewrite Hcv in *. destruct Hc as [|Hc]; [lia|].
  set (x := mkEx eid aff v (v + INIT_STACK) (v + INIT_STACK + UPCALL_STACK) (p + INIT_STACK + UPCALL_STACK + KERNEL_BASE)).
  destruct (cache_push_ok c aff x Hc) as (c1 & E1 & L1).
  assert (carve n (p + EXEC_SPACE) (v + EXEC_SPACE) aff (S eid) c1 (Nat.pred <$> fail) =
    (eid + S (carved n (Nat.pred <$> fail)), push_all c aff (map (nth_exec eid v (mkPF p z) aff) (seq 0 (S (carved n (Nat.pred <$> fail))))),
      if decide (S (carved n (Nat.pred <$> fail)) < S n) then Err OutOfMemory else Ok tt)) as E.
  { rewrite (IH _ _ _ _ _ _ z) by (right; lia). f_equal; [f_equal; [lia|]|].
    - cbn [seq map]. rewrite (push_all_cons c aff x _ c1) by done. f_equal. f_equal.
      + subst x. unfold nth_exec. cbn [pf_base]. f_equal; lia.
      + rewrite <- seq_shift, map_map. apply map_ext. intros k. apply nth_exec_shift.
    - repeat case_decide; [done|lia|lia|done]. }
  rewrite E1. destruct fail as [[|k]|]; [done|..]; exact E.
Qed.
Lemma carve_out n : forall p v aff eid c fail,
  carved n fail <> 0 -> length c <= aff -> (carve n p v aff eid c fail).2 = Panic.
Proof.
  intros p v aff eid c fail Hn Ha. destruct n as [|n]; [destruct fail; cbn [carved] in Hn; lia|].
  cbn [carve]. rewrite exec_new_ok. unfold cache_push. rewrite (lookup_ge_None_2 c aff) by done.
  by destruct fail as [[|k]|].
Qed.

Lemma cached_insert c i o o' : c !! i = Some o ->
  cached (<[i := o']> c) ≡ₚ default [] o' ++ cached (delete i c) /\ cached c ≡ₚ default [] o ++ cached (delete i c).
Proof.
  intros Hi. pose proof (lookup_lt_Some _ _ _ Hi) as Hl.
  unfold cached. rewrite delete_take_drop, insert_take_drop by done.
  assert (concat (map (default []) c) = concat (map (default []) (take i c)) ++ default [] o ++ concat (map (default []) (drop (S i) c))) as ->.
  { rewrite <- (take_drop_middle c i o Hi) at 1. rewrite map_app, concat_app. done. }
  rewrite !map_app, !concat_app. cbn [map concat]. split; apply Permutation_app_swap_app.
Qed.
Lemma push_all_cached c aff l : l = [] \/ aff < length c -> cached (push_all c aff l) ≡ₚ l ++ cached c.
Proof.
  intros H. destruct l as [|x l]; [done|]. destruct H as [|H]; [done|]. unfold push_all.
  destruct (lookup_lt_is_Some_2 _ _ H) as [o Ho]. rewrite Ho.
  destruct (cached_insert c aff o (Some (match o with Some l0 => l0 | None => [] end ++ x :: l)) Ho) as [E1 E2].
  rewrite E2.
  destruct o as [l0|]; cbn [default] in *; rewrite E1.
  - unfold id. rewrite <- app_assoc. apply Permutation_app_swap_app.
  - done.
Qed.
Lemma push_all_length c aff l : length (push_all c aff l) = length c.
Proof. destruct l; [done|]. apply insert_length. Qed.
Lemma push_all_lookup c aff l r : r < length c -> l <> [] -> exists o, c !! r = Some o /\
  push_all c aff l !! r = Some (if decide (r = aff) then Some (default [] o ++ l) else o).
Proof.
  intros Hr Hl. destruct (lookup_lt_is_Some_2 _ _ Hr) as [o Ho]. exists o. split; [done|].
  destruct l as [|x l]; [done|]. unfold push_all. case_decide as Hd.
  - subst r. rewrite list_lookup_insert by done. rewrite Ho. by destruct o.
  - by rewrite list_lookup_insert_ne.
Qed.

Lemma ex_hist_snoc h o : ex_hist (h ++ [o]) = ex_step (ex_hist h) o.
Proof. unfold ex_hist. by rewrite foldl_app. Qed.
Lemma handed_snoc h o : handed (h ++ [o]) = handed h ++ match o with (PoAssign _ _ _, Ok (PrExec x)) => [x] | _ => [] end.
Proof.
  unfold handed. rewrite omap_app. f_equal. destruct o as [o r]. cbn. by destruct o, r as [[]| |].
Qed.
Lemma taken_snoc h o r : taken (h ++ [o]) r = taken h r + taken [o] r.
Proof. unfold taken. by rewrite List.filter_app, app_length. Qed.

Definition of_region (r : nat) (l : list exr) : list exr := filter (fun x => x_aff x = r) l.

Record xinv (h : list (pop * res pret)) (s : prc) : Prop := {
  xi_pos : (ex_hist h).1 = (p_eid s, p_exoff s);
  xi_len : length (p_cache s) = MAX_NUMA_NODES;
  xi_perm : exists lost, created h ≡ₚ cached (p_cache s) ++ handed h ++ lost;
  xi_aff : forall r l x, p_cache s !! r = Some (Some l) -> x ∈ l -> x_aff x = r;
  xi_cnt : forall r o, p_cache s !! r = Some o ->
    match o with
    | None => of_region r (created h) = [] /\ taken h r = 0
    | Some l => of_region r (created h) <> [] /\ length (of_region r (created h)) = length l + taken h r
    end }.

Lemma xinv_init vs : xinv [] (prc_init vs).
Proof.
  assert (forall r o, replicate MAX_NUMA_NODES (None : option (list exr)) !! r = Some o -> o = None) as Hn.
  { intros r o Hr. by apply lookup_replicate_1 in Hr as [-> _]. }
  constructor; cbn [prc_init p_eid p_exoff p_cache].
  - done.
  - done.
  - exists []. done.
  - intros r l x Hr. by apply Hn in Hr.
  - intros r o Hr. by apply Hn in Hr as ->.
Qed.

(** Steps that do not touch the executors. *)
Lemma xinv_other h s op r vs pfm act :
  xinv h s -> (forall t, ex_step t (op, r) = t) -> (forall l, match (op, r) with (PoAssign _ _ _, Ok (PrExec x)) => l ++ [x] | _ => l end = l) ->
  (forall q, taken [(op, r)] q = 0) ->
  xinv (h ++ [(op, r)]) (mkPrc vs pfm (p_eid s) (p_exoff s) (p_cache s) act).
Proof.
  intros [X1 X2 X3 X4 X5] E1 E2 E3.
  assert (handed (h ++ [(op, r)]) = handed h) as Eh.
  { rewrite handed_snoc. specialize (E2 (handed h)). destruct op; rewrite ?app_nil_r; try done. destruct r as [[]| |]; rewrite ?app_nil_r; done. }
  assert (created (h ++ [(op, r)]) = created h) as Ec by (unfold created; by rewrite ex_hist_snoc, E1).
  constructor; cbn [p_eid p_exoff p_cache].
  - by rewrite ex_hist_snoc, E1.
  - done.
  - rewrite Eh, Ec. done.
  - done.
  - intros q o Hq. rewrite Ec, taken_snoc, E3, Nat.add_0_r. by apply X5.
Qed.

Lemma of_region_app r l1 l2 : of_region r (l1 ++ l2) = of_region r l1 ++ of_region r l2.
Proof. apply filter_app. Qed.
Lemma of_region_carved r e v f aff ks : of_region r (map (nth_exec e v f aff) ks) =
  if decide (r = aff) then map (nth_exec e v f aff) ks else [].
Proof.
  induction ks as [|k ks IH]; cbn [map]; [by case_decide|]. unfold of_region in *. rewrite filter_cons. rewrite IH.
  cbn [nth_exec x_aff]. repeat case_decide; congruence.
Qed.

Lemma taken_disp f aff fail r q : taken [(PoDisp f aff fail, r)] q = 0.
Proof. done. Qed.

Section xstep.
Context (lg dbg : bool) (nm : nat).

Lemma xinv_step h s op s' r :
  xinv h s -> prc_step lg dbg nm s op = (s', r) -> r <> Panic -> xinv (h ++ [(op, r)]) s'.
Proof using Type.
  intros X Hs Hp. pose proof X as [X1 X2 X3 X4 X5].
  assert (forall o r', (forall t, ex_step t (o, r') = t) -> (forall l, match (o, r') with (PoAssign _ _ _, Ok (PrExec x)) => l ++ [x] | _ => l end = l) ->
    (forall q, taken [(o, r')] q = 0) -> xinv (h ++ [(o, r')]) s) as Hsame.
  { intros o r' E1 E2 E3. assert (s = mkPrc (p_vs s) (p_pfm s) (p_eid s) (p_exoff s) (p_cache s) (p_active s)) as E by (by destruct s).
    rewrite E. by apply xinv_other. }
  destruct op as [f aff fail|b f a refill|f a|b id a refill|va|g region oom|f|id]; cbn [prc_step] in Hs.
  - unfold alloc_executors in Hs. set (n := N.to_nat (pf_size f / EXEC_SPACE)) in *.
    destruct (vs_map_frame lg (p_vs s) (p_exoff s) (pf_base f) (pf_size f) (ma_or ma_user ma_write_)) as [vs [[]|e|]]; cbn [rmap] in Hs; [|by injection Hs as <- <-..].
    assert (carved n fail = 0 \/ aff < length (p_cache s)) as Hc.
    { destruct (decide (carved n fail = 0)) as [|Hne]; [by left|]. right.
      destruct (decide (aff < length (p_cache s))) as [|Hge]; [done|]. exfalso.
      pose proof (carve_out n (pf_base f) (p_exoff s) aff (p_eid s) (p_cache s) fail Hne ltac:(lia)) as Eo.
      destruct (carve n (pf_base f) (p_exoff s) aff (p_eid s) (p_cache s) fail) as [[? ?] rr]. cbn [snd] in Eo. subst rr.
      cbn [rmap] in Hs. by injection Hs as <- <-. }
    rewrite (carve_spec n _ _ _ _ _ _ (pf_size f) Hc) in Hs.
    assert (mkPF (pf_base f) (pf_size f) = f) as Ef by (by destruct f). rewrite Ef in Hs.
    set (l := map (nth_exec (p_eid s) (p_exoff s) f aff) (seq 0 (carved n fail))) in *.
    assert (forall off vs', ex_hist (h ++ [(PoDisp f aff fail, r)]) = (p_eid s + carved n fail, off, created h ++ l) ->
      xinv (h ++ [(PoDisp f aff fail, r)]) (mkPrc vs' (p_pfm s) (p_eid s + carved n fail) off (push_all (p_cache s) aff l) (p_active s))) as Hres.
    { intros off vs' E.
      assert (l = [] \/ aff < length (p_cache s)) as Hl.
      { destruct Hc as [Hc|?]; [left|by right]. subst l. by rewrite Hc. }
      constructor; cbn [p_eid p_exoff p_cache].
      - by rewrite E.
      - by rewrite push_all_length.
      - destruct X3 as [lost E3]. exists lost. unfold created at 1. rewrite E. cbn [snd]. rewrite handed_snoc, app_nil_r.
        rewrite push_all_cached by done. rewrite E3. rewrite <- (app_assoc l). apply Permutation_app_comm.
      - intros q l' x Hq Hx. destruct (decide (l = [])) as [El|El]; [rewrite El in Hq; by eapply X4|].
        assert (q < length (p_cache s)) as Hlt by (apply lookup_lt_Some in Hq; by rewrite push_all_length in Hq).
        destruct (push_all_lookup (p_cache s) aff l q Hlt El) as (o & Ho & Hq'). rewrite Hq in Hq'. injection Hq' as Hq'.
        case_decide as Hd; [|subst o; by eapply X4].
        injection Hq' as ->. apply elem_of_app in Hx as [Hx|Hx].
        + destruct o as [l0|]; [by eapply X4|]. by apply elem_of_nil in Hx.
        + subst l. apply elem_of_list_In, in_map_iff in Hx as (k & <- & _). done.
      - intros q o Hq. unfold created. rewrite E. cbn [snd]. rewrite of_region_app. rewrite taken_snoc, taken_disp, Nat.add_0_r.
        subst l. rewrite of_region_carved. set (l := map (nth_exec (p_eid s) (p_exoff s) f aff) (seq 0 (carved n fail))) in *.
        destruct (decide (l = [])) as [El|El].
        { rewrite El in *. assert ((if decide (q = aff) then [] else []) = ([] : list exr)) as -> by (by destruct (decide (q = aff))).
          rewrite app_nil_r. by apply X5. }
        assert (q < length (p_cache s)) as Hlt by (apply lookup_lt_Some in Hq; by rewrite push_all_length in Hq).
        destruct (push_all_lookup (p_cache s) aff l q Hlt El) as (o' & Ho & Hq'). rewrite Hq in Hq'. injection Hq' as Hq'.
        specialize (X5 _ _ Ho). case_decide as Hd; subst o.
        + split; [intros Hnil; by apply app_eq_nil in Hnil as [_ ?]|]. rewrite !app_length.
          destruct o' as [l0|].
          * destruct X5 as [_ ->]. change (default [] (Some l0)) with l0. lia.
          * destruct X5 as [-> ->]. change (default [] None) with (@nil exr). cbn [length]. lia.
        + by rewrite app_nil_r. }
    assert (ex_hist h = (p_eid s, p_exoff s, created h)) as Eh.
    { unfold created. rewrite <- X1. by destruct (ex_hist h). }
    destruct (decide (carved n fail < n)) as [Hlt|Hge]; cbn [rmap] in Hs; injection Hs as <- <-; apply Hres; rewrite ex_hist_snoc, Eh.
    + destruct fail as [k|]; cbn [carved] in *; [|lia]. subst l. cbn [ex_step]. assert (k `min` n = k) as -> by lia. done.
    + assert (carved n fail = n) as En by (destruct fail; cbn [carved] in *; lia).
      cbn [ex_step]. fold n. subst l. rewrite En. by destruct fail.
  - destruct refill; [|injection Hs as <- <-; apply Hsame; [by intros [[] ]|done..]].
    destruct (vs_map_frame lg (p_vs s) b (pf_base f) (pf_size f) a) as [vs r0].
    injection Hs as <- <-. apply xinv_other; [done|by intros [[] ]|done..].
  - destruct (vs_map_frame lg (p_vs s) (pf_base f) (pf_base f) (pf_size f) a) as [vs r0].
    injection Hs as <- <-. apply xinv_other; [done|by intros [[] ]|done..].
  - repeat case_match; simplify_eq; first [apply xinv_other|apply Hsame]; try done; by intros [[] ].
  - repeat case_match; simplify_eq; first [apply xinv_other|apply Hsame]; try done; by intros [[] ].
  - unfold get_executor in Hs. destruct (p_cache s !! region) as [[l|]|] eqn:E.
    2:{ injection Hs as <- <-. apply Hsame; [by intros [[] ]|done..]. }
    2:{ by injection Hs as <- <-. }
    destruct (last l) as [x|] eqn:El.
    2:{ injection Hs as <- <-. apply Hsame; [by intros [[] ]|done..]. }
    apply last_Some in El as [l' ->]. rewrite app_length in Hs. cbn [length] in Hs. rewrite Nat.add_1_r in Hs. cbn [Nat.pred] in Hs.
    rewrite take_app in Hs.
    pose proof (lookup_lt_Some _ _ _ E) as Hlt. destruct (X5 _ _ E) as [Hne Hcnt]. rewrite app_length in Hcnt. cbn [length] in Hcnt.
    destruct (cached_insert (p_cache s) region _ (Some l') E) as [P1 P2].
    change (default [] (Some l')) with l' in P1. change (default [] (Some (l' ++ [x]))) with (l' ++ [x]) in P2.
    assert (forall act r', ex_step (ex_hist h) (PoAssign g region oom, r') = ex_hist h -> taken [(PoAssign g region oom, r')] region = 1 ->
      (forall q, q <> region -> taken [(PoAssign g region oom, r')] q = 0) ->
      (handed (h ++ [(PoAssign g region oom, r')]) = handed h \/ handed (h ++ [(PoAssign g region oom, r')]) = handed h ++ [x]) ->
      xinv (h ++ [(PoAssign g region oom, r')]) (mkPrc (p_vs s) (p_pfm s) (p_eid s) (p_exoff s) (<[region := Some l']> (p_cache s)) act)) as Hres.
    { intros act r' E1 E2 E3 E4.
      assert (created (h ++ [(PoAssign g region oom, r')]) = created h) as Ec by (unfold created; by rewrite ex_hist_snoc, E1).
      constructor; cbn [p_eid p_exoff p_cache].
      - by rewrite ex_hist_snoc, E1.
      - by rewrite insert_length.
      - rewrite Ec. destruct X3 as [lost E5]. rewrite P2 in E5.
        destruct E4 as [-> | ->].
        + exists (x :: lost). rewrite E5, P1. rewrite <- !app_assoc. cbn [app].
          apply Permutation_app_head. rewrite (Permutation_middle _ _ x). apply Permutation_app_head. by rewrite Permutation_middle.
        + exists lost. rewrite E5, P1. rewrite <- !app_assoc. cbn [app].
          apply Permutation_app_head. rewrite (Permutation_middle _ _ x). apply Permutation_app_head. by rewrite Permutation_middle.
      - intros q l1 y Hq Hy. destruct (decide (q = region)) as [->|].
        + rewrite list_lookup_insert in Hq by done. injection Hq as <-. eapply X4; [exact E|]. apply elem_of_app. by left.
        + rewrite list_lookup_insert_ne in Hq by done. by eapply X4.
      - intros q o Hq. rewrite Ec, taken_snoc. destruct (decide (q = region)) as [->|].
        + rewrite list_lookup_insert in Hq by done. injection Hq as <-. rewrite E2. split; [done|]. lia.
        + rewrite list_lookup_insert_ne in Hq by done. rewrite E3, Nat.add_0_r by done. by apply X5. }
    assert (forall r', match r' with Ok _ => True | Err OutOfMemory => True | _ => False end ->
      ex_step (ex_hist h) (PoAssign g region oom, r') = ex_hist h /\ taken [(PoAssign g region oom, r')] region = 1 /\
      (forall q, q <> region -> taken [(PoAssign g region oom, r')] q = 0)) as Hmisc.
    { intros r' Hr'. unfold ex_step, taken. split; [by destruct (ex_hist h) as [[] ]|].
      destruct r' as [?|[]|]; try done; cbn [List.filter]; rewrite Nat.eqb_refl; (split; [done|]); intros q Hq;
        by assert ((region =? q)%nat = false) as -> by (by apply Nat.eqb_neq). }
    destruct oom; injection Hs as <- <-.
    + destruct (Hmisc (Err OutOfMemory) I) as (M1 & M2 & M3). apply Hres; [done..|]. left. rewrite handed_snoc. by rewrite app_nil_r.
    + destruct (Hmisc (Ok (PrExec x)) I) as (M1 & M2 & M3). apply Hres; [done..|]. right. by rewrite handed_snoc.
  - destruct (pfs_add (p_pfm s) f) as [fs r0]. injection Hs as <- <-. apply xinv_other; [done|by intros [[] ]|done..].
  - destruct (pfs_dealloc (p_pfm s) id) as [fs r0]. injection Hs as <- <-. apply xinv_other; [done|by intros [[] ]|done..].
Qed.
Lemma xinv_run ops : forall h s, xinv h s ->
  let p := prc_run lg dbg nm s ops in (forall op r, (op, r) ∈ p.2 -> r <> Panic) -> xinv (h ++ p.2) p.1.
Proof using Type.
  induction ops as [|op ops IH]; intros h s X; cbn [prc_run].
  { cbn zeta. cbn [fst snd]. intros _. by rewrite app_nil_r. }
  destruct (prc_step lg dbg nm s op) as [s1 r] eqn:E. specialize (IH (h ++ [(op, r)]) s1).
  destruct (prc_run lg dbg nm s1 ops) as [s2 rs]. cbn zeta in *. cbn [fst snd] in *. intros Hp.
  rewrite <- app_assoc in IH. cbn [app] in IH. apply IH.
  - eapply xinv_step; [done..|]. eapply Hp. by left.
  - intros o q Hin. eapply Hp. by right.
Qed.
End xstep.

(** *** What the history creates *)
Lemma ex_hist_eids h : map x_eid (created h) = seq 0 (ex_hist h).1.1.
Proof.
  unfold created. induction h as [|o h IH] using rev_ind; [done|]. rewrite ex_hist_snoc.
  destruct (ex_hist h) as [[e v] l]. cbn [fst snd] in *. destruct o as [op r].
  assert (forall k f aff, map x_eid (l ++ map (nth_exec e v f aff) (seq 0 k)) = seq 0 (e + k)) as H.
  { intros k f aff. rewrite map_app, IH, seq_app. f_equal. rewrite map_map. cbn [nth_exec x_eid].
    induction k as [|k IHk]; [done|]. rewrite !seq_S, map_app, IHk. cbn [map]. do 3 f_equal. }
  destruct op; cbn [ex_step]; try done. destruct r as [a|e0|]; [destruct fail; cbn [fst snd]; by rewrite H| |by destruct fail].
  destruct fail; cbn [fst snd]; [by rewrite H|done].
Qed.
Lemma ex_hist_from h x : x ∈ created h -> exists h1 f aff fail r h2 k,
  h = h1 ++ (PoDisp f aff fail, r) :: h2 /\ x = nth_exec (ex_hist h1).1.1 (ex_hist h1).1.2 f aff k /\
  match r with Ok _ => (N.of_nat k < pf_size f / EXEC_SPACE)%N | Err _ => exists m, fail = Some m /\ k < m | Panic => False end.
Proof.
  unfold created. induction h as [|o h IH] using rev_ind; [intros H; by apply elem_of_nil in H|]. rewrite ex_hist_snoc. intros Hx.
  assert (x ∈ (ex_hist h).2 \/ exists f aff fail r k, o = (PoDisp f aff fail, r) /\ x = nth_exec (ex_hist h).1.1 (ex_hist h).1.2 f aff k /\
     match r with Ok _ => (N.of_nat k < pf_size f / EXEC_SPACE)%N | Err _ => exists m, fail = Some m /\ k < m | Panic => False end) as [H|H].
  { destruct (ex_hist h) as [[e v] l]. cbn [fst snd] in *. destruct o as [op r].
    destruct op as [f aff fail|?|?|?|?|?|?|?]; cbn [ex_step snd] in Hx; try (by left).
    destruct r as [a|e0|]; [| |by destruct fail; left].
    - assert (x ∈ l ++ map (nth_exec e v f aff) (seq 0 (N.to_nat (pf_size f / EXEC_SPACE)))) as Hx' by (by destruct fail). clear Hx. rename Hx' into Hx. apply elem_of_app in Hx as [|Hx]; [by left|right].
      apply elem_of_list_In, in_map_iff in Hx as (k & <- & Hk). apply in_seq in Hk. exists f, aff, fail, (Ok a), k. split; [done|]. split; [done|]. lia.
    - destruct fail as [m|]; [|by left]. cbn [snd] in Hx. apply elem_of_app in Hx as [|Hx]; [by left|right].
      apply elem_of_list_In, in_map_iff in Hx as (k & <- & Hk). apply in_seq in Hk. exists f, aff, (Some m), (Err e0), k. split; [done|]. split; [done|]. exists m. split; [done|lia]. }
  - destruct (IH H) as (h1 & f & aff & fail & r & h2 & k & -> & E & K). exists h1, f, aff, fail, r, (h2 ++ [o]), k.
    split; [by rewrite <- app_assoc|]. done.
  - destruct H as (f & aff & fail & r & k & -> & E & K). by exists h, f, aff, fail, r, [], k.
Qed.
