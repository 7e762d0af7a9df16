(** C43: the memory system calls. *)
From Verif Require MemModel MemProps.
From Verif Require Import Base TlbModel SysModel NodeModel VsModel VsSpec VsProofs PrcModel PrcSpec TlbProps NodeProps VsProps PrcProofs PrcProps ScSpec.

Lemma map_frames_ok lg dbg nm a fs : forall s b,
  reach lg dbg (p_vs s) ->
  Forall (fun fr => page_sized lg (pf_size fr.1) /\ (pf_base fr.1 mod pf_size fr.1 = 0)%N /\ fr.2 = true) fs ->
  (forall i f r, fs !! i = Some (f, r) -> ((b + foldr (fun x t => pf_size x.1 + t) 0 (take i fs)) mod pf_size f = 0)%N) ->
  (b + foldr (fun x t => pf_size x.1 + t) 0 fs <= 2 ^ 48)%N ->
  (forall x, (b <= x)%N -> (x < b + foldr (fun x t => pf_size x.1 + t) 0 fs)%N -> vs_resolve (p_vs s) x = Err NotMapped) ->
  exists s', map_frames lg dbg nm s b a fs = (s', Ok tt) /\ reach lg dbg (p_vs s') /\
    p_pfm s' = p_pfm s /\ p_eid s' = p_eid s /\ p_exoff s' = p_exoff s /\ p_cache s' = p_cache s /\ p_active s' = p_active s /\
    forall x, (x < 2 ^ 48)%N -> vs_resolve (p_vs s') x =
      match placed b (map fst fs) x with Some p => Ok (p, granted a) | None => vs_resolve (p_vs s) x end.
Proof.
  induction fs as [|[f r] fs IH]; intros s b R Hf Hal H48 Hun; cbn [map_frames foldr] in *.
  { exists s. cbn [placed map]. done. }
  inversion_clear Hf as [|q0 l0 [H1 [H2 H3]] Hf']. cbn [fst snd] in *. subst r.
  pose proof (page_frame_pos _ _ H1) as Hpos.
  pose proof (Hal 0 f true eq_refl) as Hb. cbn [take foldr] in Hb. rewrite N.add_0_r in Hb.
  destruct (C17_map_unmapped_range lg dbg (p_vs s) b (pf_base f) (pf_size f) a R H1) as (vs & Ev & V1 & V2 & _); [lia|done|done|..].
  { intros y [Y1 Y2]. apply Hun; lia. }
  cbn [prc_step]. rewrite Ev. cbn [rmap].
  set (s1 := mkPrc vs (p_pfm s) (p_eid s) (p_exoff s) (p_cache s) (p_active s)).
  assert (reach lg dbg vs) as R1.
  { pose proof (reach_map lg dbg (p_vs s) b (pf_base f) (pf_size f) a R H1 ltac:(lia)) as R1. by rewrite Ev in R1. }
  destruct (IH s1 (b + pf_size f)%N R1 Hf') as (s' & Em & R' & E1 & E2 & E3 & E4 & E5 & Hres).
  - intros i g q Hi. specialize (Hal (S i) g q Hi). cbn [take foldr fst] in Hal. by rewrite N.add_assoc in Hal.
  - lia.
  - intros x X1 X2. cbn [s1 p_vs]. rewrite V2; [|lia|unfold within; lia]. apply Hun; lia.
  - exists s'. split; [exact Em|]. split; [done|]. split_and!; [done..|].
    intros x Hx. rewrite Hres by done. cbn [map fst placed]. case_decide as Hd.
    + rewrite <- (V1 x) by done. cbn [s1 p_vs].
      assert (forall gs b', (x < b')%N -> placed b' gs x = None) as Hno.
      { clear. induction gs as [|g gs IH]; intros b' Hb'; cbn [placed]; [done|]. case_decide; [lia|]. apply IH. lia. }
      by rewrite Hno by lia.
    + destruct (placed (b + pf_size f) (map fst fs) x); [done|]. cbn [s1 p_vs]. by apply V2.
Qed.

(** map: for a request of any size but 0 at an address aligned to the largest page used, in a
    range where nothing is mapped, exactly the range rounded up to base pages becomes readable
    and writable, backed by the pages supplied, large ones first; nothing else changes. *)
Theorem C43_map_partial lg dbg nm s b size larges bases :
  reach lg dbg (p_vs s) -> (0 < size)%N -> (lg = false -> size < LARGE)%N ->
  supply LARGE larges -> supply BASE bases ->
  (size / LARGE <= N.of_nat (length larges))%N -> ((rounded size - size / LARGE * LARGE) / BASE <= N.of_nat (length bases))%N ->
  (b mod BASE = 0)%N -> (LARGE <= size -> b mod LARGE = 0)%N -> (b + rounded size <= 2 ^ 48)%N ->
  (forall x, within b (rounded size) x -> vs_resolve (p_vs s) x = Err NotMapped) ->
  exists s' fs f, sys_map lg dbg nm s b size (Some (larges, bases)) = (s', Ok (pf_base f, rounded size)) /\
    fs = map fst (take (N.to_nat (size / LARGE)) larges ++ take (N.to_nat ((rounded size - size / LARGE * LARGE) / BASE)) bases) /\
    head fs = Some f /\
    forall x, (x < 2 ^ 48)%N ->
      (within b (rounded size) x -> exists p, placed b fs x = Some p /\ vs_resolve (p_vs s') x = Ok (p, ma_write_)) /\
      (~ within b (rounded size) x -> vs_resolve (p_vs s') x = vs_resolve (p_vs s) x).
Proof.
  intros R Hz Hlg Hl Hb Nl Nb Ab Al H48 Hun. unfold sys_map.
  destruct (MemModel.size_to_pages size) as [bp lp] eqn:Es. apply MemProps.C15_size_to_pages_minimal in Es as (S1 & S2 & S3).
  cbn [fst snd]. change 2097152%N with LARGE in *.
  assert (rounded size = bp * BASE + lp * LARGE)%N as Hr.
  { unfold rounded. change 4096%N with BASE in *. unfold BASE, LARGE in *. lia. }
  assert ((rounded size - size / LARGE * LARGE) / BASE = bp)%N as Hbp.
  { rewrite Hr, <- S2. replace (bp * BASE + lp * LARGE - lp * LARGE)%N with (bp * BASE)%N by lia. by apply N.div_mul. }
  rewrite <- S2 in *. rewrite Hbp in *.
  assert (N.to_nat lp <= length larges) as Kl by (clear -Nl; lia).
  assert (N.to_nat bp <= length bases) as Kb by (clear -Nb; lia).
  assert ((length larges <? N.to_nat lp) = false) as -> by (by apply Nat.ltb_ge).
  assert ((length bases <? N.to_nat bp) = false) as -> by (by apply Nat.ltb_ge).
  cbn [orb]. set (fl := take (N.to_nat lp) larges). set (fb := take (N.to_nat bp) bases).
  assert (length fl = N.to_nat lp) as Ll by (by apply take_length_le).
  assert (length fb = N.to_nat bp) as Lb by (by apply take_length_le).
  assert (supply LARGE fl) as Sl by (by apply Forall_take). assert (supply BASE fb) as Sb by (by apply Forall_take).
  assert (forall sz l, supply sz l -> foldr (fun x t => pf_size x.1 + t)%N 0%N l = (N.of_nat (length l) * sz)%N) as Hsum.
  { clear. intros sz l. induction l as [|x l IH]; intros H; [done|]. inversion_clear H as [|?? [H1 _] H2]. cbn [foldr length].
    rewrite IH by done. rewrite H1. lia. }
  assert (forall l1 l2, foldr (fun x t => pf_size x.1 + t)%N 0%N (l1 ++ l2 : list (pframe * bool)) =
     (foldr (fun x t => pf_size x.1 + t) 0 l1 + foldr (fun x t => pf_size x.1 + t) 0 l2)%N) as Happ.
  { clear. induction l1 as [|x l1 IH]; intros l2; [done|]. cbn [app foldr]. rewrite IH. lia. }
  assert (foldr (fun x t => pf_size x.1 + t)%N 0%N (fl ++ fb) = rounded size) as Htot.
  { rewrite Happ, (Hsum LARGE fl), (Hsum BASE fb), Ll, Lb, Hr by done. lia. }
  destruct (map_frames_ok lg dbg nm ma_write_ (fl ++ fb) s b R) as (s' & Em & R' & _ & _ & _ & _ & _ & Hres).
  - apply Forall_app. split.
    + assert (lg = true \/ fl = []) as [-> | ->]; [|clear -Sl|constructor].
      { destruct lg; [by left|right]. specialize (Hlg eq_refl). apply nil_length_inv. rewrite Ll. rewrite S2, N.div_small by done. done. }
      eapply Forall_impl; [exact Sl|]. intros [f r] (E1 & E2 & E3). cbn [fst snd] in *. rewrite E1. split; [by right|done].
    + eapply Forall_impl; [exact Sb|]. intros [f r] (E1 & E2 & E3). cbn [fst snd] in *. rewrite E1. split; [by left|done].
  - intros i f r Hi. apply lookup_app_Some in Hi as [Hi|[Hge Hi]].
    + pose proof (lookup_lt_Some _ _ _ Hi) as Hlt. rewrite take_app_le by lia.
      destruct (proj1 (Forall_lookup _ _) Sl _ _ Hi) as (E1 & _). cbn [fst] in E1. rewrite E1.
      rewrite (Hsum LARGE) by (by apply Forall_take). rewrite N.mod_add by done. apply Al. 
      assert (1 <= lp)%N as Hlp by (clear -Hlt Ll; lia). rewrite S2 in Hlp. destruct (N.lt_ge_cases size LARGE) as [Hs|]; [|done].
      by rewrite N.div_small in Hlp.
    + destruct (proj1 (Forall_lookup _ _) Sb _ _ Hi) as (E1 & _). cbn [fst] in E1. rewrite E1.
      rewrite take_app_ge by lia. rewrite Happ. rewrite (Hsum LARGE fl) by done. rewrite (Hsum BASE) by (by apply Forall_take).
      rewrite N.add_assoc, N.mod_add by done. change LARGE with (512 * BASE)%N. rewrite N.mul_assoc. by rewrite N.mod_add.
  - by rewrite Htot.
  - intros x X1 X2. rewrite Htot in X2. apply Hun. by split.
  - rewrite Em, Htot.
    assert (exists f r l, fl ++ fb = (f, r) :: l) as (f & r & l & Ef).
    { destruct (fl ++ fb) as [|[f r] l] eqn:E; [|by exists f, r, l]. exfalso. cbn [foldr] in Htot. unfold BASE, LARGE in *. lia. }
    rewrite Ef. exists s', (map fst (fl ++ fb)), f. split; [done|]. split; [by rewrite Ef|]. split; [by rewrite Ef|].
    assert (forall (fs : list (pframe * bool)) b' x, is_Some (placed b' (map fst fs) x) <-> within b' (foldr (fun x t => pf_size x.1 + t)%N 0%N fs) x) as Hpl.
    { clear. induction fs as [|[g q] fs IH]; intros b' x; cbn [map placed foldr fst].
      - split; [by intros []|]. unfold within. lia.
      - case_decide as Hd; [split; [unfold within; lia|by eauto]|]. rewrite IH. unfold within. lia. }
    intros x Hx. split.
    + intros Hw. rewrite <- Htot in Hw. apply Hpl in Hw as [p Hp]. exists p. split; [done|]. rewrite Hres by done. by rewrite Hp.
    + intros Hw. rewrite <- Htot in Hw. rewrite Hres by done. destruct (placed b (map fst (fl ++ fb)) x) eqn:E; [|done].
      exfalso. apply Hw, Hpl. by rewrite E.
Qed.
Print Assumptions C43_map_partial.

Definition ex_s : prc := prc_init vs_init.
Example C43_map_partial_hyps_met :
  let mem := ([(mkPF 0x40000000 LARGE, true)], replicate 2 (mkPF 0x9000 BASE, true)) in
  reach true true (p_vs ex_s) /\ supply LARGE mem.1 /\ supply BASE mem.2 /\ (0x400000 mod LARGE = 0)%N /\
  (forall x, vs_resolve (p_vs ex_s) x = Err NotMapped) /\
  (let p := sys_map true true 1 ex_s 0x400000 0x201001 (Some mem) in
   p.2 = Ok (0x40000000%N, 0x202000%N) /\ vs_resolve (p_vs p.1) 0x600123 = Ok (0x9123%N, ma_write_)).
Proof.
  cbn zeta. split; [constructor|]. split; [by repeat constructor|]. split; [by apply Forall_replicate|].
  split; [done|]. split; [apply init_unmapped|]. split; by vm_compute.
Qed.

(** Missing from the full claim: the calls that panic instead of failing. *)
Theorem C43_map_of_nothing_panics_refuted nm s b larges bases : (sys_map true true nm s b 0 (Some (larges, bases))).2 = Panic.
Proof. unfold sys_map. change (MemModel.size_to_pages 0) with (0, 0)%N. cbn [fst snd N.to_nat take app map_frames]. by destruct (_ || _). Qed.
Theorem C43_map_overlapping_panics_refuted : exists b larges bases s,
  s = (sys_map true true 1 ex_s b 4096 (Some (larges, bases))).1 /\ is_ok (sys_map true true 1 ex_s b 4096 (Some (larges, bases))).2 /\
  (sys_map true true 1 s b 4096 (Some ([], [(mkPF 0xa000 BASE, true)]))).2 = Panic.
Proof. exists 0x1000%N, [], [(mkPF 0x9000 BASE, true)]. eexists. split; [done|]. split; by vm_compute. Qed.
Theorem C43_map_unaligned_large_panics_refuted :
  (sys_map true true 1 ex_s 0x1000 LARGE (Some ([(mkPF 0x40000000 LARGE, true)], []))).2 = Panic.
Proof. by vm_compute. Qed.
Print Assumptions C43_map_of_nothing_panics_refuted.
Print Assumptions C43_map_overlapping_panics_refuted.
Print Assumptions C43_map_unaligned_large_panics_refuted.

(** unmap, in any state of a process: it removes exactly the mapping that contains the address
    and says which; or fails and changes nothing, and then the address is not mapped or not
    aligned. *)
Theorem C43_unmap lg dbg nm vs ops s h va :
  start_ok lg dbg vs -> hist_ok lg dbg (S nm) [] (prc_init vs) ops ->
  prc_run lg dbg (S nm) (prc_init vs) ops = (s, h) -> (va < 2 ^ 48)%N ->
  match sys_unmap lg dbg (S nm) s va with
  | (s', Ok (vb, sz)) =>
      (va mod 4096 = 0)%N /\ page_sized lg sz /\ within vb sz va /\
      (exists p r, forall x, within vb sz x -> vs_resolve (p_vs s) x = Ok ((p + (x - vb))%N, r) /\ vs_resolve (p_vs s') x = Err NotMapped) /\
      (forall x, (x < 2 ^ 48)%N -> ~ within vb sz x -> vs_resolve (p_vs s') x = vs_resolve (p_vs s) x)
  | (s', Err e) => s' = s /\ (vs_resolve (p_vs s) va = Err NotMapped \/ (va mod 4096 <> 0)%N)
  | (s', Panic) => False
  end.
Proof.
  intros H0 Hok E Hva. pose proof (run_pinv _ _ _ _ _ _ _ H0 Hok E) as I. pose proof (pi_reach _ _ _ _ _ I) as R.
  pose proof (pinv_step lg dbg (S nm) h s (PoUnmap va)) as Hst.
  pose proof (C19_unmap lg dbg (p_vs s) va R Hva) as Hu. unfold sys_unmap.
  destruct (prc_step lg dbg (S nm) s (PoUnmap va)) as [s' r] eqn:Es. destruct (Hst s' r I Hva eq_refl) as [Hnp I'].
  cbn [prc_step] in Es.
  assert (forall (o : res (N * mapact)), vs_resolve (p_vs s) va = o -> (forall x, o <> Ok x) -> o = Err NotMapped) as Hnm.
  { intros o Ho Hx. unfold vs_resolve, pt_resolve in Ho. destruct (walk (vs_pt (p_vs s)) va) as [[l sz]|]; [|done]. by destruct (Hx ((l_pa l + va mod sz)%N, from_flags (l_fl l))). }
  destruct (vs_resolve (p_vs s) va) as [pr|e0|] eqn:Er.
  2,3: destruct Hu as (e' & Eu & _); rewrite Eu in Es; injection Es as <- <-; split; [done|]; left; by apply Hnm.
  destruct Hu as [(Hne & Eu)|(Hz & v' & vb & p & sz & a & Eu & Hp & Hw & _ & _ & H1 & H2)]; rewrite Eu in Es.
  { injection Es as <- <-. split; [done|]. by right. }
  destruct (if ma_alias (granted a) then _ else _) as [fs [[]|e|]]; [|by injection Es as <- <-..].
  destruct (add_cores_spec (S nm) (p_active s) (replicate (S nm) (mkCbm 0 0))) as (hs & Eac & L & _).
  { by rewrite replicate_length. }
  { intros i m Hi. apply lookup_replicate_1 in Hi as [-> _]. by split. }
  { apply (pi_act _ _ _ _ _ I). }
  rewrite Eac in Es. cbn [rmap] in Es. injection Es as <- <-. destruct hs as [|c hs]; [done|]. cbn [p_vs].
  split; [done|]. split; [done|]. split; [done|]. split; [|exact H2]. exists p, (granted a). exact H1.
Qed.
Print Assumptions C43_unmap.

(** map by frame id, with the rights of the call. *)
Theorem C43_map_frame_id lg dbg nm vs ops s h b id s' pa sz :
  start_ok lg dbg vs -> hist_ok lg dbg nm [] (prc_init vs) ops ->
  prc_run lg dbg nm (prc_init vs) ops = (s, h) ->
  (forall f, reg h !! id = Some f -> (b + pf_size f <= 2 ^ 48)%N) -> vs_resolve (p_vs s) b = Err NotMapped ->
  sys_map_frame_id lg dbg nm s b id true = (s', Ok (pa, sz)) ->
  reg h !! id = Some (mkPF pa sz) /\
  (forall y, (y < sz)%N -> vs_resolve (p_vs s') (b + y) = Ok ((pa + y)%N, MA true true false false false true)).
Proof.
  intros H0 Hok E H48 Hb Hs. unfold sys_map_frame_id in Hs.
  destruct (prc_step lg dbg nm s (PoMapId b id ma_frame_id true)) as [s1 r] eqn:Es.
  assert (op_ok lg nm h s (PoMapId b id ma_frame_id true)) as Hop by (split; done).
  pose proof (C26_map_by_id lg dbg nm vs ops s h b id ma_frame_id true s1 H0 Hok E Hop) as Hm. rewrite Es in Hm.
  destruct (reg h !! id) as [f|].
  2:{ injection Hm as <- ->. done. }
  destruct r as [p|e|]; [|done..]. destruct (Hm p eq_refl) as [-> Hy]. injection Hs as <- <- <-.
  split; [by destruct f|]. intros y Hlt. by apply Hy.
Qed.
Print Assumptions C43_map_frame_id.

(** allocate and release: the id returned names the frame whose address is returned, and
    releasing it gives that frame back. *)
Theorem C43_alloc_release lg dbg nm s size f s' id pa :
  pf_size f = size ->
  sys_alloc_physical lg dbg nm s size (Some f) = (s', Ok (id, pa)) ->
  pa = pf_base f /\ (size = 4096%N \/ size = 2097152%N) /\ p_vs s' = p_vs s /\
  exists s'', sys_release_physical lg dbg nm s' (N.to_nat id) = (s'', Some f, Ok (0%N, 0%N)) /\ p_vs s'' = p_vs s.
Proof.
  intros Hf. unfold sys_alloc_physical. intros Hs.
  assert (size = BASE \/ size = LARGE) as Hsz.
  { destruct (N.eqb_spec size BASE); [by left|]. destruct (N.eqb_spec size LARGE); [by right|]. done. }
  assert (negb (size =? BASE)%N && negb (size =? LARGE)%N = false) as Hc.
  { destruct Hsz as [-> | ->]; done. }
  rewrite Hc in Hs. cbn [prc_step] in Hs. unfold pfs_add in Hs. pose proof (pfs_free_spec (p_pfm s)) as Hfr.
  destruct (pfs_free (p_pfm s)) as [i|]; cbn [rmap] in Hs; [|done]. injection Hs as <- <- <-.
  destruct Hfr as [[k Hi] _]. pose proof (lookup_lt_Some _ _ _ Hi) as Hlt. split; [done|]. split; [done|]. split; [done|].
  unfold sys_release_physical. rewrite Nat2N.id. cbn [prc_step p_pfm]. unfold pfs_dealloc. rewrite list_lookup_insert by done.
  cbn [rmap]. rewrite Hf. assert ((size =? BASE)%N || (size =? LARGE)%N = true) as -> by (destruct Hsz as [-> | ->]; done).
  eexists. split; [done|]. done.
Qed.
Print Assumptions C43_alloc_release.

(** A release that fails keeps the frame out of the allocator and changes nothing. *)
Theorem C43_failed_release lg dbg nm vs ops s h id s' back e :
  start_ok lg dbg vs -> hist_ok lg dbg nm [] (prc_init vs) ops ->
  prc_run lg dbg nm (prc_init vs) ops = (s, h) ->
  sys_release_physical lg dbg nm s id = (s', back, Err e) -> s' = s /\ back = None.
Proof.
  intros H0 Hok E Hs. pose proof (C26_release_safe lg dbg nm vs ops s h id H0 Hok E) as Hr. unfold sys_release_physical in Hs.
  destruct (prc_step lg dbg nm s (PoRelease id)) as [s1 r]. cbn [fst snd] in Hr.
  destruct r as [[]|e0|]; [done|done|done|done|done|done| | |done].
  - by destruct (_ || _).
  - injection Hs as <- <- <-. split; [|done]. destruct (reg h !! id); apply Hr.
Qed.
Print Assumptions C43_failed_release.

(** The frame is lost if all ids are taken. *)
Theorem C43_alloc_with_full_table_leaks_refuted : exists s f,
  (sys_alloc_physical true true 1 s BASE (Some f)).2 = Err TooManyRegisteredFrames /\
  (sys_alloc_physical true true 1 s BASE (Some f)).1 = s /\ ~ exists k, (Some f, k) ∈ p_pfm s.
Proof.
  exists (mkPrc vs_init (replicate 192 (Some (mkPF 0x5000 4096), 0)) 0 EXECUTOR_OFFSET [] []), (mkPF 0x9000 4096).
  split; [by vm_compute|]. split; [by vm_compute|]. intros [k Hk]. cbn [p_pfm] in Hk. by apply elem_of_replicate in Hk as [[=] _].
Qed.
Print Assumptions C43_alloc_with_full_table_leaks_refuted.

(** identify is the translation. *)
Theorem C43_identify dbg s a : (a < KERNEL_BASE)%N ->
  sys_identify dbg s a = match vs_resolve (p_vs s) a with Ok (p, _) => Ok (p, 0%N) | Err e => Err e | Panic => Panic end.
Proof.
  intros Ha. unfold sys_identify. assert ((a <? KERNEL_BASE)%N = true) as -> by (by apply N.ltb_lt). rewrite andb_false_r.
  by destruct (vs_resolve (p_vs s) a) as [[]| |].
Qed.
Print Assumptions C43_identify.

(** map_device maps any physical page, also memory that belongs to others, at its own address. *)
Theorem C43_map_device lg dbg nm s b :
  reach lg dbg (p_vs s) -> (b + 4096 <= 2 ^ 48)%N -> (b mod 4096 = 0)%N ->
  (forall x, within b 4096 x -> vs_resolve (p_vs s) x = Err NotMapped) ->
  exists s', sys_map_device lg dbg nm s b 4096 = (s', Ok (b, 4096%N)) /\
    (forall x, within b 4096 x -> vs_resolve (p_vs s') x = Ok (x, ma_write_)) /\
    (forall x, (x < 2 ^ 48)%N -> ~ within b 4096 x -> vs_resolve (p_vs s') x = vs_resolve (p_vs s) x).
Proof.
  intros R H48 Ha Hun. unfold sys_map_device. cbn [prc_step pf_base pf_size].
  destruct (C17_map_unmapped_range lg dbg (p_vs s) b b 4096 ma_write_ R) as (vs & Ev & V1 & V2 & _); [by left|done..|].
  rewrite Ev. cbn [rmap]. eexists. split; [done|]. cbn [p_vs]. split; [|done].
  intros x Hx. rewrite V1 by done. change (granted ma_write_) with ma_write_. do 2 f_equal. destruct Hx. lia.
Qed.
Print Assumptions C43_map_device.

Example C43_hyps_met :
  let p := prc_run true true 2 (prc_init vs_init) ex_ops in
  start_ok true true vs_init /\ hist_ok true true 2 [] (prc_init vs_init) ex_ops /\
  (sys_unmap true true 2 p.1 0x3000).2 = Ok (0x3000, 4096)%N /\ (sys_unmap true true 2 p.1 0x5000).2 = Err NotMapped /\
  (sys_map_frame_id true true 2 p.1 0x9000 1 true).2 = Ok (0x7000, 4096)%N /\ vs_resolve (p_vs p.1) 0x9000 = Err NotMapped /\
  (sys_alloc_physical true true 2 p.1 4096 (Some (mkPF 0xb000 4096))).2 = Ok (2, 0xb000)%N /\
  (sys_release_physical true true 2 p.1 0).2 = Err FrameStillMapped /\
  sys_identify true p.1 0x3008 = Ok (0x5008, 0)%N /\ (sys_map_device true true 2 p.1 0xfee00000 4096).2 = Ok (0xfee00000, 4096)%N.
Proof.
  cbn zeta. split; [apply ex_start|]. split; [apply ex_hist_ok|]. repeat split; by vm_compute.
Qed.
