(** C51: memory of processes that run in a rack. *)
From Verif Require MemModel.
From Verif Require Import Base NodeModel VsModel VsSpec PrcModel PrcSpec PrcProps IsoModel IsoSpec IsoProofs IsoProps RmModel RmSpec RmProofs.

Lemma rack_started_ok dbg nm R : rack_started dbg R -> exists O, rok dbg nm O R.
Proof.
  intros [H0 Hc]. destruct (started_ok dbg nm _ H0) as [O [M1 M2 M3 M4]]. exists O.
  split; rewrite ?Hc.
  - split; [done|done|done|]. intros p x Hx. cbn [with_free mc_free]. apply wide_false. split; [by eapply M4|apply not_elem_of_nil].
  - apply NoDup_nil_2.
  - intros x Hx. by apply elem_of_nil in Hx.
  - assert (forall p id f, ~ regd (mc_ps (rr_m R)) p id f) as Hn.
    { intros p id f (s & Hs & Hf). destruct (st_prc _ _ H0 _ _ Hs) as (vs & -> & _). unfold pfr, prc_init, pfs_init in Hf. cbn [p_pfm] in Hf.
      destruct (replicate MAX_FRAMES_PER_PROCESS (None, 0) !! id) as [[o n]|] eqn:E; [|done].
      apply lookup_replicate in E as [[= -> _] _]. done. }
    split; intros; exfalso; by eapply Hn.
Qed.
Lemma step_sees dbg nm O R i p c R' r q va : rok dbg nm O R -> rm_ok R p c -> rack_step dbg nm R i p c = Some (R', r) -> q <> p ->
  loads (rr_m R') q va = loads (rr_m R) q va /\ forall pa, reaches (rr_m R') q va pa <-> reaches (rr_m R) q va pa.
Proof.
  intros I Hr H Hq. destruct (rack_step_ok _ _ _ _ _ _ _ _ _ I Hr H) as ((_ & Hk & Hp & Hm) & _).
  assert (forall s, user_translate (rr_m R') s va = user_translate (rr_m R) s va) as Ht by (intros s; unfold user_translate; by rewrite Hk).
  unfold loads, reaches. rewrite (Hp _ Hq). split.
  - destruct (mc_ps (rr_m R) !! q) as [s|] eqn:Es; [|done]. rewrite Ht. destruct (user_translate (rr_m R) s va) as [[pa rt]|] eqn:Et; [|done].
    f_equal. eapply Hm; [exact Hq|]. eapply (mok_reaches dbg nm O _ _ va); [apply I|]. by exists s, rt.
  - intros pa. split; intros (s & rt & Es & Et); exists s, rt; (split; [done|]); by rewrite ?Ht in *.
Qed.
Lemma rack_run_ok dbg nm l : forall O R R' rs, rok dbg nm O R -> rms_ok dbg nm R l -> rack_run dbg nm R l = Some (R', rs) ->
  (exists O', rok dbg nm O' R') /\ mc_kern (rr_m R') = mc_kern (rr_m R) /\
  forall q va, (forall i c, (i, q, c) ∉ l) ->
    loads (rr_m R') q va = loads (rr_m R) q va /\ forall pa, reaches (rr_m R') q va pa <-> reaches (rr_m R) q va pa.
Proof.
  induction l as [|[[i p] c] l IH]; intros O R R' rs I Hr H; cbn [rack_run rms_ok] in *.
  { injection H as <- <-. split; [by exists O|]. done. }
  destruct Hr as [Hr1 Hr2]. destruct (rack_step dbg nm R i p c) as [[R1 r]|] eqn:E; [|done].
  destruct (rack_run dbg nm R1 l) as [[R2 rs']|] eqn:E2; [|done]. injection H as <- <-.
  destruct (rack_step_ok _ _ _ _ _ _ _ _ _ I Hr1 E) as (([O1 I1] & Hk & _) & _). destruct (IH _ _ _ _ I1 Hr2 E2) as (J1 & J2 & J3).
  split; [done|]. split; [congruence|]. intros q va Hq.
  assert (q <> p) as Hne by (intros ->; apply (Hq i c); by left).
  destruct (J3 q va) as [K1 K2]; [intros i' c' Hc'; apply (Hq i' c'); by right|].
  destruct (step_sees _ _ _ _ _ _ _ _ _ q va I Hr1 E Hne) as [L1 L2]. split; [congruence|]. intros pa. by rewrite K2, L2.
Qed.

(** After any history of calls of any number of processes on any number of machines: no two
    processes reach the same byte, no process reaches memory that the controller or a cache of a
    client holds, no page is in two caches, or in a cache and free, and the kernel's tables are
    as they were.  Missing: device memory, requests at or above KERNEL_BASE, and frames of other
    sizes than 4 KiB and 2 MiB (see below). *)
Theorem C51_isolation_partial dbg nm R l R' rs :
  rack_started dbg R -> rms_ok dbg nm R l -> rack_run dbg nm R l = Some (R', rs) ->
  (forall p q va vb pa, p <> q -> reaches (rr_m R') p va pa -> ~ reaches (rr_m R') q vb pa) /\
  (forall p va pa, reaches (rr_m R') p va pa -> mc_free (rr_m R') (pa / 4096) = false /\ (pa / 4096)%N ∉ cached R') /\
  NoDup (cached R') /\ (forall x, x ∈ cached R' -> mc_free (rr_m R') x = false) /\
  mc_kern (rr_m R') = mc_kern (rr_m R).
Proof.
  intros H0 Hr H. destruct (rack_started_ok dbg nm R H0) as [O I]. destruct (rack_run_ok dbg nm l O R R' rs I Hr H) as ([O' I'] & Hk & _).
  pose proof (ro_m _ _ _ _ I') as M'.
  assert (forall p va pa, reaches (rr_m R') p va pa -> O' p (pa / BASE)%N) as Ho by (intros p va pa Hp; by eapply (mok_reaches dbg nm O' _ _ va)).
  split; [|split; [|split; [apply I'|split; [apply I'|done]]]].
  - intros p q va vb pa Hne H1 H2. apply (mo_apart _ _ _ _ M' p q (pa / BASE)%N Hne); by eapply Ho.
  - intros p va pa H1. apply Ho in H1. apply (mo_free _ _ _ _ M') in H1. cbn [with_free mc_free] in H1. by apply wide_false in H1.
Qed.
Print Assumptions C51_isolation_partial.

(** What a process sees of its memory does not change while only others run.  Missing: as above. *)
Theorem C51_no_interference_partial dbg nm R0 l0 R rs0 l R' rs q :
  rack_started dbg R0 -> rms_ok dbg nm R0 l0 -> rack_run dbg nm R0 l0 = Some (R, rs0) ->
  rms_ok dbg nm R l -> rack_run dbg nm R l = Some (R', rs) -> (forall i c, (i, q, c) ∉ l) ->
  forall va, loads (rr_m R') q va = loads (rr_m R) q va /\ forall pa, reaches (rr_m R') q va pa <-> reaches (rr_m R) q va pa.
Proof.
  intros H0 Hr0 E0 Hr E Hq va. destruct (rack_started_ok dbg nm R0 H0) as [O I].
  destruct (rack_run_ok dbg nm l0 O R0 R rs0 I Hr0 E0) as ([O1 I1] & _ & _).
  destruct (rack_run_ok dbg nm l O1 R R' rs I1 Hr E) as (_ & _ & H). by apply H.
Qed.
Print Assumptions C51_no_interference_partial.

(** A map that succeeds makes as many bytes accessible as the request has, in whole pages, and all
    that did not come from the cache of the client reads as zeros.  Missing: as above, and the
    contents of pages from the cache (see below). *)
Theorem C51_map_partial dbg nm R0 l0 R rs0 i p b size oom frames refills R' pa len :
  rack_started dbg R0 -> rms_ok dbg nm R0 l0 -> rack_run dbg nm R0 l0 = Some (R, rs0) ->
  rm_ok R p (RmMap b size oom frames refills) ->
  rack_step dbg nm R i p (RmMap b size oom frames refills) = Some (R', Some (Ok (pa, len))) ->
  len = in_pages size /\
  (forall x, within b len x -> is_Some (loads (rr_m R') p x)) /\
  (forall cache x, cache_of R i p = Some cache -> within b (len - 4096 * N.of_nat (length cache)) x -> loads (rr_m R') p x = Some 0%N).
Proof.
  intros H0 Hr0 E0 Hr E. destruct (rack_started_ok dbg nm R0 H0) as [O I].
  destruct (rack_run_ok dbg nm l0 O R0 R rs0 I Hr0 E0) as ([O1 I1] & _ & _).
  destruct (rack_step_ok dbg nm O1 R i p _ R' _ I1 Hr E) as (_ & H1 & H2 & H3). split; [done|]. split; [done|].
  intros cache x Hc Hx. apply H3. by rewrite Hc.
Qed.
Print Assumptions C51_map_partial.

(** A map of memory that is free in the process succeeds and maps all of it, if the controller
    runs and has memory, the tables can be built, at most 508 large pages are needed from the
    controller, and the base is aligned (to 2 MiB if the request is that large).  Each condition
    is needed: see the theorems below and C43. *)
Theorem C51_map_succeeds_partial dbg nm R0 l0 R rs0 i p s cache b size frames refills R' r :
  rack_started dbg R0 -> rms_ok dbg nm R0 l0 -> rack_run dbg nm R0 l0 = Some (R, rs0) ->
  rm_ok R p (RmMap b size false (Some frames) refills) ->
  mc_ps (rr_m R) !! p = Some s -> cache_of R i p = Some cache ->
  (0 < size)%N -> (b mod 4096 = 0)%N -> ((2097152 <= size)%N -> (b mod 2097152 = 0)%N) ->
  (forall x, within b (in_pages size) x -> vs_resolve (p_vs s) x = Err NotMapped) ->
  mc_dead (rr_m R) = false -> (larges_needed size (length cache) <= 508)%N -> Forall (fun ok => ok = true) refills ->
  rack_step dbg nm R i p (RmMap b size false (Some frames) refills) = Some (R', r) ->
  exists pa, r = Some (Ok (pa, in_pages size)).
Proof.
  intros H0 Hr0 E0 Hr Hs Hc Hpos Ha Ha2 Hu Hd Hmax Hrf E. destruct (rack_started_ok dbg nm R0 H0) as [O I].
  destruct (rack_run_ok dbg nm l0 O R0 R rs0 I Hr0 E0) as ([O1 I1] & _ & _).
  unfold rack_step in E. rewrite Hs, Hc in E. destruct (rr_down R !! i) as [[]|]; [done| |done].
  exact (rm_map_go dbg nm O1 R i p s cache b size frames refills R' r I1 Hs Hc Hpos Hr Ha Ha2 Hu Hd Hmax Hrf E).
Qed.
Print Assumptions C51_map_succeeds_partial.

(** A rack of two machines with the processes of [ex_mach]. *)
Definition ex_rack : rrack := mkRr ex_mach [[[]; []]; [[]; []]] [false; false].
Lemma ex_rack_started dbg : rack_started dbg ex_rack.
Proof. split; [apply ex_started|done]. Qed.

Definition rm_okb (R : rrack) (p : nat) (c : rmcall) : bool :=
  match c with
  | RmMap b size _ _ _ => (b + size + 4095 <=? KERNEL_BASE)%N
  | RmLocal c => request_okb (rr_m R) p c
  | RmAlloc size _ => (size =? 4096)%N || (size =? 2097152)%N
  | RmRelease _ _ _ => true
  end.
Fixpoint rms_okb (dbg : bool) (nm : nat) (R : rrack) (l : list (nat * nat * rmcall)) : bool :=
  match l with
  | [] => true
  | (i, p, c) :: l => rm_okb R p c && match rack_step dbg nm R i p c with Some (R', _) => rms_okb dbg nm R' l | None => true end
  end.
Lemma request_okb_ok m p c : request_okb m p c = true -> request_ok m p c.
Proof.
  intros H1. destruct c as [b size [[ls bs]|]|b|b size|b id refill|size mem|id|f aff fail|va v|va]; cbn [request_okb request_ok] in *; try done.
  1-3: by (apply N.leb_le || apply N.ltb_lt).
  apply andb_true_iff in H1 as [Ha Hb]. split; [by apply Nat.ltb_lt|]. intros s Hs. rewrite Hs in Hb. by apply N.leb_le.
Qed.
Lemma rms_okb_ok dbg nm l : forall R, rms_okb dbg nm R l = true -> rms_ok dbg nm R l.
Proof.
  induction l as [|[[i p] c] l IH]; intros R H; [done|]. cbn [rms_okb rms_ok] in *. apply andb_true_iff in H as [H1 H2]. split.
  - destruct c as [b size oom frames refills|c|size frame|id room dcm]; cbn [rm_okb rm_ok] in *; [by apply N.leb_le|by apply request_okb_ok| |done].
    apply orb_true_iff in H1 as [H1|H1]; apply N.eqb_eq in H1; [by left|by right].
  - destruct (rack_step dbg nm R i p c) as [[R' r]|]; [by apply IH|done].
Qed.

(** Process 0 maps a page on machine 0 and a page on machine 1 and writes to both; process 1
    allocates a frame, maps, unmaps and releases it; process 0 then maps 2 MiB and two pages, one
    of the 511 pages that were left over each time. *)
Definition ex_rm_calls : list (nat * nat * rmcall) :=
  [(0, 0, RmMap 0x1000 4096 false (Some [mkPF 0x200000 LARGE]) [true]); (0, 0, RmLocal (CWrite 0x1010 42));
   (1, 0, RmMap 0x2000 4096 false (Some [mkPF 0x400000 LARGE]) [true]); (1, 0, RmLocal (CWrite 0x2010 43));
   (1, 1, RmAlloc 4096 (Some (mkPF 0x600000 LARGE))); (1, 1, RmLocal (CMapId 0x1000 0 true)); (1, 1, RmLocal (CWrite 0x1003 9));
   (1, 1, RmRelease 0 true true); (1, 1, RmLocal (CUnmap 0x1000)); (1, 1, RmRelease 0 true true);
   (0, 0, RmMap 0x400000 0x202000 false (Some [mkPF 0x600000 LARGE]) [true; true; true]); (0, 0, RmLocal (CRead 0x400003));
   (1, 0, RmLocal (CRead 0x1010)); (1, 0, RmLocal (CRead 0x2010))].
Example C51_hyps_met :
  rack_started true ex_rack /\ rms_ok true 1 ex_rack ex_rm_calls /\
  option_map snd (rack_run true 1 ex_rack ex_rm_calls) =
    Some [Some (Ok (0x200000, 4096)%N); Some (Ok (42, 0)%N); Some (Ok (0x400000, 4096)%N); Some (Ok (43, 0)%N);
      Some (Ok (0, 0x600000)%N); Some (Ok (0x600000, 4096)%N); Some (Ok (9, 0)%N); Some (Err FrameStillMapped); Some (Ok (0x1000, 4096)%N);
      Some (Ok (0, 0)%N); Some (Ok (0x600000, 0x202000)%N); Some (Ok (0, 0)%N); Some (Ok (42, 0)%N); Some (Ok (43, 0)%N)] /\
  option_map (fun x => (length (default [] (cache_of x.1 0 0)), length (default [] (cache_of x.1 1 0)))) (rack_run true 1 ex_rack ex_rm_calls) =
    Some (N.to_nat 509, N.to_nat 511).
Proof.
  split; [apply ex_rack_started|]. split; [apply rms_okb_ok; vm_compute; reflexivity|]. split; vm_compute; reflexivity.
Qed.

(** A map of 2 MiB and a page in a process that already uses memory, with pages in the cache. *)
Example C51_map_succeeds_partial_hyps_met :
  exists R0 l0 R rs0 i p s cache b size frames refills R' r,
    rack_started true R0 /\ rms_ok true 1 R0 l0 /\ rack_run true 1 R0 l0 = Some (R, rs0) /\
    rm_ok R p (RmMap b size false (Some frames) refills) /\
    mc_ps (rr_m R) !! p = Some s /\ cache_of R i p = Some cache /\ cache <> [] /\
    (0 < size)%N /\ (b mod 4096 = 0)%N /\ ((2097152 <= size)%N -> (b mod 2097152 = 0)%N) /\
    (forall x, within b (in_pages size) x -> vs_resolve (p_vs s) x = Err NotMapped) /\
    mc_dead (rr_m R) = false /\ (larges_needed size (length cache) <= 508)%N /\ Forall (fun ok => ok = true) refills /\
    rack_step true 1 R i p (RmMap b size false (Some frames) refills) = Some (R', r).
Proof.
  set (l0 := [(0, 0, RmMap 0x8000000000 4096 false (Some [mkPF 0x200000 LARGE]) [true])]).
  assert (option_map (fun x => (mc_dead (rr_m x.1), length (default [] (cache_of x.1 0 0)),
      option_map (fun s => bool_decide (vs_pt (p_vs s) !! 0%N = None)) (mc_ps (rr_m x.1) !! 0))) (rack_run true 1 ex_rack l0) =
    Some (false, N.to_nat 511, Some true)) as H by (by vm_compute).
  assert (rms_ok true 1 ex_rack l0) as Hok by (apply rms_okb_ok; vm_compute; reflexivity).
  assert (match rack_run true 1 ex_rack l0 with
          | Some (R, _) => match rack_step true 1 R 0 0 (RmMap 0x400000 2101248 false (Some [mkPF 0x600000 LARGE]) [true; true]) with Some _ => true | None => false end
          | None => false end = true) as Hst by (by vm_compute).
  destruct (rack_run true 1 ex_rack l0) as [[R rs0]|] eqn:E0; [|done]. cbn [option_map fst snd] in H. injection H as Hd Hl Hpt.
  destruct (rack_step true 1 R 0 0 _) as [[R' r]|] eqn:E; [|done]. destruct (cache_of R 0 0) as [cache|] eqn:Hc; [|exfalso; clear -Hl; cbn in Hl; lia].
  change (default [] (Some cache)) with cache in Hl. destruct (mc_ps (rr_m R) !! 0) as [s|] eqn:Hs.
  2:{ exfalso. clear -E Hs. unfold rack_step in E. rewrite Hs in E. destruct (rr_down R !! 0) as [[]|]; done. }
  cbn [option_map] in Hpt. injection Hpt as Hpt. apply bool_decide_eq_true_1 in Hpt.
  exists ex_rack, l0, R, rs0, 0, 0, s, cache, 0x400000%N, 2101248%N, [mkPF 0x600000 LARGE], [true; true], R', r.
  split; [apply ex_rack_started|]. split; [done|]. split; [exact E0|]. split; [cbn [rm_ok]; by apply N.leb_le|]. split; [done|]. split; [done|].
  split; [intros ->; cbn in Hl; lia|]. split; [done|]. split; [done|]. split; [done|].
  split.
  { intros x [X1 X2]. change (in_pages 2101248) with 2101248%N in X2.
    apply VsProps.resolve_none. unfold walk. replace (i4 x) with 0%N; [by rewrite Hpt|]. unfold i4. rewrite N.div_small; [done|]. clear -X2. change SLOT with 549755813888%N. lia. }
  split; [done|]. split; [|split; [by repeat constructor|exact E]]. unfold larges_needed. rewrite Hl. by vm_compute.
Qed.

(** Not all memory from map is zeroed: a page that comes from the cache of the client holds what
    another process left there. *)
Theorem C51_cached_page_not_zeroed_refuted :
  exists R l R' rs, rack_started true R /\ rms_ok true 1 R l /\
    l = [(0, 1, RmAlloc 2097152 (Some (mkPF 0x200000 LARGE))); (0, 1, RmLocal (CMapId 0x200000 0 true)); (0, 1, RmLocal (CWrite 0x3FF008 42));
         (0, 1, RmLocal (CUnmap 0x200000)); (0, 1, RmRelease 0 true true);
         (0, 0, RmMap 0x1000 4096 false (Some [mkPF 0x200000 LARGE]) [true]); (0, 0, RmMap 0x2000 4096 false None [true]);
         (0, 0, RmLocal (CRead 0x2008))] /\
    rack_run true 1 R l = Some (R', rs) /\ last rs = Some (Some (Ok (42, 0)%N)).
Proof.
  exists ex_rack. set (l := [(0, 1, RmAlloc _ _); _; _; _; _; _; _; _]).
  assert (option_map (fun x => last x.2) (rack_run true 1 ex_rack l) = Some (Some (Some (Ok (42, 0)%N)))) as H by (by vm_compute).
  destruct (rack_run true 1 ex_rack l) as [[R' rs]|] eqn:E; [|done]. cbn [option_map fst snd] in H. injection H as H.
  exists l, R', rs. split; [apply ex_rack_started|]. split; [apply rms_okb_ok; vm_compute; reflexivity|].
  split; [reflexivity|]. split; [exact E|exact H].
Qed.
Print Assumptions C51_cached_page_not_zeroed_refuted.

(** allocate_physical accepts any size, and the frame it registers is as large as asked for,
    though the controller supplied 2 MiB: a process that asks for 4 MiB reaches memory of
    another. *)
Theorem C51_oversized_frame_refuted :
  exists R l R' rs va vb pa, rack_started true R /\ rack_run true 1 R l = Some (R', rs) /\
    l = [(0, 1, RmMap 0x200000 0x200000 false (Some [mkPF 0x600000 LARGE]) [true]);
         (0, 0, RmAlloc 0x400000 (Some (mkPF 0x400000 LARGE))); (0, 0, RmLocal (CMapId 0x400000 0 true))] /\
    rs = [Some (Ok (0x600000, 0x200000)%N); Some (Ok (0, 0x400000)%N); Some (Ok (0x400000, 0x400000)%N)] /\
    reaches (rr_m R') 0 va pa /\ reaches (rr_m R') 1 vb pa.
Proof.
  exists ex_rack. set (l := [(0, 1, RmMap _ _ _ _ _); _; _]).
  assert (option_map (fun x => (translate (rr_m x.1) 0 0x600000, translate (rr_m x.1) 1 0x200000, x.2)) (rack_run true 1 ex_rack l) =
    Some (Some 0x600000%N, Some 0x600000%N, [Some (Ok (0x600000, 0x200000)%N); Some (Ok (0, 0x400000)%N); Some (Ok (0x400000, 0x400000)%N)])) as H by (by vm_compute).
  destruct (rack_run true 1 ex_rack l) as [[R' rs]|] eqn:E; [|done]. cbn [option_map fst snd] in H. injection H as H1 H2 H3.
  exists l, R', rs, 0x600000%N, 0x200000%N, 0x600000%N. split; [apply ex_rack_started|]. split; [exact E|]. split; [reflexivity|]. split; [exact H3|].
  split; by apply translate_reaches.
Qed.
Print Assumptions C51_oversized_frame_refuted.

(** A request for nothing, and one for a range that is mapped already, stop the client. *)
Theorem C51_bad_map_stops_client_refuted :
  exists R l1 l2 R1 R2 rs1 rs2, rack_started true R /\ rms_ok true 1 R l1 /\ rms_ok true 1 R l2 /\
    l1 = [(0, 0, RmMap 0x1000 0 false None [])] /\
    rack_run true 1 R l1 = Some (R1, rs1) /\ rs1 = [Some Panic] /\ rr_down R1 = [true; false] /\
    l2 = [(0, 0, RmMap 0x1000 4096 false (Some [mkPF 0x200000 LARGE]) [true]); (1, 0, RmMap 0x1000 4096 false (Some [mkPF 0x400000 LARGE]) [true])] /\
    rack_run true 1 R l2 = Some (R2, rs2) /\ rs2 = [Some (Ok (0x200000, 4096)%N); Some Panic] /\ rr_down R2 = [false; true].
Proof.
  exists ex_rack. set (l1 := [(0, 0, RmMap _ _ _ _ _)]). set (l2 := [(0, 0, RmMap _ _ _ _ _); _]).
  assert (option_map (fun x => (rr_down x.1, x.2)) (rack_run true 1 ex_rack l1) = Some ([true; false], [Some Panic])) as H1 by (by vm_compute).
  assert (option_map (fun x => (rr_down x.1, x.2)) (rack_run true 1 ex_rack l2) = Some ([false; true], [Some (Ok (0x200000, 4096)%N); Some Panic])) as H2 by (by vm_compute).
  destruct (rack_run true 1 ex_rack l1) as [[R1 rs1]|] eqn:E1; [|done]. destruct (rack_run true 1 ex_rack l2) as [[R2 rs2]|] eqn:E2; [|done].
  cbn [option_map fst snd] in H1, H2. injection H1 as H11 H12. injection H2 as H21 H22.
  exists l1, l2, R1, R2, rs1, rs2. split; [apply ex_rack_started|]. split; [apply rms_okb_ok; vm_compute; reflexivity|].
  split; [apply rms_okb_ok; vm_compute; reflexivity|]. split; [reflexivity|]. split; [exact E1|]. split; [exact H12|]. split; [exact H11|].
  split; [reflexivity|]. split; [exact E2|]. split; [exact H22|exact H21].
Qed.
Print Assumptions C51_bad_map_stops_client_refuted.

(** [n] consecutive large pages. *)
Definition larges_from (j n : nat) : list pframe := map (fun k => mkPF (N.of_nat k * LARGE) LARGE) (seq j n).
Lemma take_larges n : forall j fr, (forall x, (N.of_nat j * 512 <= x)%N -> fr x = true) -> exists fr', take_frames fr LARGE (larges_from j n) = Some fr'.
Proof.
  unfold larges_from. induction n as [|n IH]; intros j fr H; [by exists fr|]. cbn [seq map take_frames].
  set (f := mkPF (N.of_nat j * LARGE) LARGE).
  assert (frame_ok true f) as Hf. { split; [by right|]. cbn [f pf_base pf_size]. by apply N.mod_mul. }
  assert (pf_base f / BASE = N.of_nat j * 512)%N as Eb.
  { cbn [f pf_base]. replace (N.of_nat j * LARGE)%N with (N.of_nat j * 512 * BASE)%N by (unfold LARGE, BASE; lia). by rewrite N.div_mul. }
  assert ((pf_base f + pf_size f) / BASE = N.of_nat j * 512 + 512)%N as Eb'.
  { cbn [f pf_base pf_size]. replace (N.of_nat j * LARGE + LARGE)%N with ((N.of_nat j * 512 + 512) * BASE)%N by (unfold LARGE, BASE; lia). by rewrite N.div_mul. }
  assert (take_frame fr LARGE f = Some (fun x => fr x && negb (page_of_frame f x))) as ->.
  { unfold take_frame. cbn [f pf_base pf_size]. rewrite N.eqb_refl, N.mod_mul by done. cbn [N.eqb andb].
    assert (forallb fr (frame_pages f) = true) as ->; [|done]. apply forallb_forall. intros x Hx. apply elem_of_list_In, elem_pages in Hx; [|done].
    apply H. unfold page_of_frame in Hx. apply andb_true_iff in Hx as [Hx _]. apply N.leb_le in Hx. lia. }
  apply IH. intros x Hx. rewrite H by lia. cbn [andb]. apply negb_true_iff. unfold page_of_frame. rewrite Eb'. apply andb_false_iff. right. apply N.ltb_ge. lia.
Qed.
Definition big_rack : rrack := mkRr (mkMach (mc_ps ex_mach) ex_kern (fun x => (512 <=? x)%N) (fun _ => 7%N) false) [[[]; []]; [[]; []]] [false; false].
Lemma big_rack_started dbg : rack_started dbg big_rack.
Proof.
  split; [|done]. destruct (ex_started dbg) as [A1 A2 A3 A4 A5]. split; [done|exact A2|exact A3|exact A4|].
  intros p s x pa r Hs _ Hr. assert (s = prc_init vs_init) as ->; [|cbn [prc_init p_vs] in Hr; by rewrite init_unmapped in Hr].
  destruct p as [|[|p]]; cbn in Hs; by inversion Hs.
Qed.

Lemma size_large size : (MemModel.size_to_pages size).2 = (size / 2097152)%N.
Proof.
  unfold MemModel.size_to_pages, MemModel.LARGE_PAGE. cbn [fst snd].
  pose proof (N.div_mod size 2097152 ltac:(done)) as H. set (q := (size / 2097152)%N) in *. set (r := (size mod 2097152)%N) in *. clearbody q r. subst size.
  replace (2097152 * q + r - r)%N with (q * 2097152)%N by lia. rewrite N.mod_mul, N.div_mul by done. destruct (decide (0 < 0)%N); [lia|done].
Qed.

(** A request for more large pages than the reply of the controller has room for stops the
    controller, whatever the allocators supply; after that no call that needs it is answered. *)
Theorem C51_large_map_stops_controller dbg nm R i p b size frames refills R' r :
  (509 * 2097152 <= size)%N -> mc_dead (rr_m R) = false ->
  rack_step dbg nm R i p (RmMap b size false frames refills) = Some (R', r) ->
  r = None /\ mc_dead (rr_m R') = true.
Proof.
  intros Hs Ha. unfold rack_step. destruct (rr_down R !! i) as [[]|]; [done| |done]. destruct (mc_ps (rr_m R) !! p); [|done].
  destruct (cache_of R i p) as [cache|]; [|done]. unfold rm_map. rewrite size_large.
  assert (509 <= size / 2097152)%N as Hl by (apply N.div_le_lower_bound; lia).
  set (bp := N.to_nat (MemModel.size_to_pages size).1). set (lp := N.to_nat (size / 2097152)) in *.
  assert (509 <= N.of_nat lp)%N as Hl' by (unfold lp; lia). clearbody bp lp.
  set (k := min (length cache) bp). set (nl := lp + (if bp - k =? 0 then 0 else 1)). assert (N.of_nat lp <= N.of_nat nl)%N as Hn by (unfold nl; lia).
  clearbody nl k. destruct (Nat.eqb_spec nl 0) as [->|_]; [lia|]. rewrite Ha.
  destruct frames as [fs|]; [|by intros [= <- <-]]. destruct (length fs =? nl); [|done]. destruct (take_frames (mc_free (rr_m R)) LARGE fs); [|done].
  assert ((RM_MSG <? shmem_reply nl)%N = true) as ->; [|by intros [= <- <-]]. apply N.ltb_lt. unfold RM_MSG, shmem_reply. lia.
Qed.
Print Assumptions C51_large_map_stops_controller.
Theorem C51_controller_needed dbg nm R i p c R' r : mc_dead (rr_m R) = true -> rack_step dbg nm R i p c = Some (R', r) ->
  mc_dead (rr_m R') = true /\
  match c with
  | RmAlloc _ _ => r = None
  | RmMap _ size oom _ _ => (2097152 <= size)%N -> oom = false -> r = None
  | RmRelease _ _ _ => r <> Some (Ok (0, 0)%N)
  | RmLocal _ => r <> None
  end.
Proof.
  intros Ha. unfold rack_step. destruct (rr_down R !! i) as [[]|]; [done| |done]. destruct (mc_ps (rr_m R) !! p) as [s|]; [|done].
  destruct (cache_of R i p) as [cache|]; [|done].
  destruct c as [b size oom frames refills|c|size frame|id room dcm].
  - destruct oom; [intros [= <- <-]; split; [done|by intros]|]. unfold rm_map. rewrite size_large.
    assert (2097152 <= size -> 1 <= size / 2097152)%N as Hl by (intros; apply N.div_le_lower_bound; lia).
    set (bp := N.to_nat (MemModel.size_to_pages size).1). set (lp := N.to_nat (size / 2097152)) in *.
    assert (2097152 <= size -> 1 <= N.of_nat lp)%N as Hl' by (unfold lp; lia). clearbody bp lp.
    set (k := min (length cache) bp). set (nl := lp + (if bp - k =? 0 then 0 else 1)). assert (N.of_nat lp <= N.of_nat nl)%N as Hn by (unfold nl; lia).
    clearbody nl k. destruct (Nat.eqb_spec nl 0) as [->|_].
    + unfold map_found. destruct (_ =? _); [|done]. destruct (map_frames _ _ _ _ _ _ _) as [s' q]. intros [= <- <-]. split; [done|]. intros. lia.
    + rewrite Ha. by intros [= <- <-].
  - destruct (local_call c); [|done]. destruct (mach_step _ _ _ _ _) as [[m' q]|]; [|done]. by intros [= <- <-].
  - unfold rm_alloc. rewrite Ha. by intros [= <- <-].
  - unfold rm_release. rewrite Ha. destruct (prc_step _ _ _ _ _) as [s' [[]| |]]; by intros [= <- <-].
Qed.
Print Assumptions C51_controller_needed.
(** A rack where that happens though all pages asked for are free. *)
Theorem C51_large_map_refuted :
  exists R p b size fs refills R' free, rack_started true R /\ rm_ok R p (RmMap b size false (Some fs) refills) /\ size = (509 * 2097152)%N /\
    take_frames (mc_free (rr_m R)) LARGE fs = Some free /\ mc_dead (rr_m R) = false /\
    rack_step true 1 R 0 p (RmMap b size false (Some fs) refills) = Some (R', None) /\ mc_dead (rr_m R') = true.
Proof.
  assert (forall x, (N.of_nat 1 * 512 <= x)%N -> mc_free (rr_m big_rack) x = true) as Hf by (intros x Hx; apply N.leb_le; lia).
  destruct (take_larges (N.to_nat 509) 1 _ Hf) as [free Ht]. set (fs := larges_from 1 (N.to_nat 509)) in *.
  assert (length fs = N.to_nat 509) as Hl by (unfold fs, larges_from; by rewrite map_length, seq_length). clearbody fs.
  exists big_rack, 0, 0x200000%N, (509 * 2097152)%N, fs, [], (mkRr (with_free (rr_m big_rack) free true) [[[]; []]; [[]; []]] [false; false]), free.
  split; [apply big_rack_started|]. split; [by vm_compute|]. split; [done|]. split; [exact Ht|]. split; [done|]. split; [|done].
  unfold rack_step. change (rr_down big_rack !! 0) with (Some false). change (mc_ps (rr_m big_rack) !! 0) with (Some (prc_init vs_init)).
  change (cache_of big_rack 0 0) with (Some ([] : list N)). cbv beta iota zeta.
  unfold rm_map. change (N.to_nat (MemModel.size_to_pages (509 * 2097152)).1) with 0. change (N.to_nat (MemModel.size_to_pages (509 * 2097152)).2) with (N.to_nat 509).
  cbn [length min Nat.sub Nat.eqb]. rewrite Nat.add_0_r. rewrite Hl, Nat.eqb_refl, Ht.
  change (N.to_nat 509 =? 0) with false. change (mc_dead (rr_m big_rack)) with false. change (RM_MSG <? shmem_reply (N.to_nat 509))%N with true. reflexivity.
Qed.
Print Assumptions C51_large_map_refuted.
