(** C44: processes are isolated from each other and from the kernel's part of the page table. *)
From Verif Require MemModel.
From Verif Require Import Base NodeModel VsModel VsSpec PrcModel PrcSpec PrcProps IsoModel IsoSpec IsoProofs.

(** After any history of calls of any number of processes: no two processes reach the same byte
    of physical memory, no process reaches free memory, and the kernel's tables are as they
    were.  Missing: device memory, and requests at or above KERNEL_BASE (see the refutations
    below). *)
Theorem C44_isolation_partial dbg nm m l m' rs :
  started dbg m -> requests_ok dbg nm m l -> mach_run dbg nm m l = Some (m', rs) ->
  (forall p q va vb pa, p <> q -> reaches m' p va pa -> ~ reaches m' q vb pa) /\
  (forall p va pa, reaches m' p va pa -> mc_free m' (pa / 4096) = false) /\
  mc_kern m' = mc_kern m.
Proof.
  intros H0 Hr H. destruct (started_ok dbg nm m H0) as [O M]. destruct (mach_run_ok dbg nm l O m m' rs M Hr H) as ([O' M'] & Hk & _).
  split; [|split; [|done]].
  - intros p q va vb pa Hne H1 H2. apply (mo_apart _ _ _ _ M' p q (pa / BASE)%N Hne); by eapply mok_reaches.
  - intros p va pa H1. eapply (mo_free _ _ _ _ M' p). by eapply mok_reaches.
Qed.
Print Assumptions C44_isolation_partial.

(** What a process sees of its memory, addresses and contents, does not change while only others
    run.  Missing: as above. *)
Theorem C44_no_interference_partial dbg nm m0 l0 m rs0 l m' rs q :
  started dbg m0 -> requests_ok dbg nm m0 l0 -> mach_run dbg nm m0 l0 = Some (m, rs0) ->
  requests_ok dbg nm m l -> mach_run dbg nm m l = Some (m', rs) -> (forall c, (q, c) ∉ l) ->
  forall va, loads m' q va = loads m q va /\ forall pa, reaches m' q va pa <-> reaches m q va pa.
Proof.
  intros H0 Hr0 E0 Hr E Hq va. destruct (started_ok dbg nm m0 H0) as [O M].
  destruct (mach_run_ok dbg nm l0 O m0 m rs0 M Hr0 E0) as ([O1 M1] & _ & _).
  destruct (mach_run_ok dbg nm l O1 m m' rs M1 Hr E) as (_ & _ & H). by apply H.
Qed.
Print Assumptions C44_no_interference_partial.

(** Memory obtained with map reads as zeros, whoever used it before.  Missing: as above, and
    memory obtained with allocate_physical. *)
Theorem C44_map_is_zeroed_partial dbg nm m0 l0 m rs0 p b size mem m' pa len :
  started dbg m0 -> requests_ok dbg nm m0 l0 -> mach_run dbg nm m0 l0 = Some (m, rs0) ->
  request_ok m p (CMap b size mem) -> mach_step dbg nm m p (CMap b size mem) = Some (m', Ok (pa, len)) ->
  forall x, within b len x -> loads m' p x = Some 0%N.
Proof.
  intros H0 Hr0 E0 Hr E. destruct (started_ok dbg nm m0 H0) as [O M].
  destruct (mach_run_ok dbg nm l0 O m0 m rs0 M Hr0 E0) as ([O1 M1] & _ & _).
  by destruct (mach_step_ok dbg nm O1 m p _ m' _ M1 Hr E) as (_ & _ & _ & _ & _ & H).
Qed.
Print Assumptions C44_map_is_zeroed_partial.

(** A machine with two processes.  The kernel has physical memory in slot 128 and an empty table
    in slot 132 (arch/x86_64/vspace/mod.rs:96-105); the pages from 1 MiB to 8 MiB are free. *)
Definition ex_kern : gmap N (gmap N pdpte) :=
  <[132%N := ∅]> {[128%N := {[0%N := P3Page (mkLeaf 0 (entry_flags true ma_kernel_))]}]}.
Definition ex_mach : mach :=
  mkMach [prc_init vs_init; prc_init vs_init] ex_kern (fun x => (256 <=? x)%N && (x <? 2048)%N) (fun _ => 7%N) false.
Lemma ex_started dbg : started dbg ex_mach.
Proof.
  assert (forall p s, mc_ps ex_mach !! p = Some s -> s = prc_init vs_init) as Hps.
  { intros [|[|p]] s H; cbn in H; by inversion H. }
  split.
  - done.
  - intros i [x Hx]. cbn [ex_mach mc_kern] in Hx. unfold ex_kern in Hx.
    apply lookup_insert_Some in Hx as [[<- _]|[_ Hx]]; [done|]. by apply lookup_singleton_Some in Hx as [<- _].
  - intros p s Hs. exists vs_init. split; [by eapply Hps|]. split; [apply ex_start|].
    intros i [x Hx]. cbn [vs_init vs_pt] in Hx. by rewrite lookup_empty in Hx.
  - intros p q s t x y pa pb r r' _ Hs _ _ _ Hr. apply Hps in Hs as ->. cbn [prc_init p_vs] in Hr. by rewrite init_unmapped in Hr.
  - intros p s x pa r Hs _ Hr. apply Hps in Hs as ->. cbn [prc_init p_vs] in Hr. by rewrite init_unmapped in Hr.
Qed.

(** Process 0 maps a page and writes to it; both get executors; process 1 registers a frame,
    maps it twice, unmaps it and releases it; process 0 then maps the same frame. *)
Definition ex_calls : list (nat * mcall) :=
  [(0, CMap 0x1000 4096 (Some ([], [(mkPF 0x100000 4096, true)]))); (0, CWrite 0x1010 42);
   (0, CExec (mkPF 0x200000 LARGE) 0 None); (1, CExec (mkPF 0x400000 LARGE) 3 None);
   (1, CAlloc 4096 (Some (mkPF 0x102000 4096))); (1, CMapId 0x1000 0 true); (1, CMapId 0x5000 0 true); (1, CWrite 0x1003 9);
   (1, CUnmap 0x1000); (1, CRelease 0); (1, CRead 0x5003); (1, CUnmap 0x5000); (1, CRelease 0);
   (0, CMap 0x2000 4096 (Some ([], [(mkPF 0x102000 4096, true)]))); (0, CRead 0x2003); (0, CRead 0x1010)].
Definition request_okb (m : mach) (p : nat) (c : mcall) : bool :=
  match c with
  | CMap b size mem => match mem with
      | Some (ls, bs) => (b + N.of_nat (length ls) * LARGE + N.of_nat (length bs) * BASE <=? KERNEL_BASE)%N
      | None => true
      end
  | CUnmap b => (b <? KERNEL_BASE)%N
  | CMapDevice _ _ => false
  | CMapId b _ _ => (b + LARGE <=? KERNEL_BASE)%N
  | CExec _ aff _ => (aff <? MAX_NUMA_NODES) &&
      match mc_ps m !! p with Some s => (p_exoff s + LARGE <=? KERNEL_BASE)%N | None => true end
  | _ => true
  end.
Fixpoint requests_okb (dbg : bool) (nm : nat) (m : mach) (l : list (nat * mcall)) : bool :=
  match l with
  | [] => true
  | (p, c) :: l => request_okb m p c && match mach_step dbg nm m p c with Some (m', _) => requests_okb dbg nm m' l | None => true end
  end.
Lemma requests_okb_ok dbg nm l : forall m, requests_okb dbg nm m l = true -> requests_ok dbg nm m l.
Proof.
  induction l as [|[p c] l IH]; intros m H; [done|]. cbn [requests_okb requests_ok] in *. apply andb_true_iff in H as [H1 H2]. split.
  - destruct c as [b size [[ls bs]|]|b|b size|b id refill|size mem|id|f aff fail|va v|va]; cbn [request_okb request_ok] in *; try done.
    1-3: by (apply N.leb_le || apply N.ltb_lt).
    apply andb_true_iff in H1 as [Ha Hb]. split; [by apply Nat.ltb_lt|]. intros s Hs. rewrite Hs in Hb. by apply N.leb_le.
  - destruct (mach_step dbg nm m p c) as [[m' r]|]; [by apply IH|done].
Qed.
Lemma ex_requests_ok : requests_ok true 1 ex_mach ex_calls.
Proof. apply requests_okb_ok. by vm_compute. Qed.

(** The conditions hold of this history; its answers; process 0 keeps its byte while process 1
    runs, and finds zeros in the frame process 1 wrote to. *)
Example C44_hyps_met :
  started true ex_mach /\ requests_ok true 1 ex_mach ex_calls /\
  option_map snd (mach_run true 1 ex_mach ex_calls) =
    Some [Ok (0x100000, 4096)%N; Ok (42, 0)%N; Ok (10, 0)%N; Ok (10, 0)%N; Ok (0, 0x102000)%N; Ok (0x102000, 4096)%N; Ok (0x102000, 4096)%N;
      Ok (9, 0)%N; Ok (0x1000, 4096)%N; Err FrameStillMapped; Ok (9, 0)%N; Ok (0x5000, 4096)%N; Ok (0, 0)%N;
      Ok (0x102000, 4096)%N; Ok (0, 0)%N; Ok (42, 0)%N].
Proof. split; [apply ex_started|]. split; [apply ex_requests_ok|]. vm_compute. reflexivity. Qed.

Lemma step_other_prc dbg nm m p c m' r q : mach_step dbg nm m p c = Some (m', r) -> q <> p -> mc_ps m' !! q = mc_ps m !! q.
Proof.
  intros H Hq. unfold mach_step in H. repeat case_match; try done; injection H as <- <-; cbn [put_prc mc_ps]; rewrite ?list_lookup_insert_ne by done; done.
Qed.
Definition translate (m : mach) (p : nat) (va : N) : option N :=
  match mc_ps m !! p with Some s => fst <$> user_translate m s va | None => None end.
Lemma translate_reaches m p va pa : translate m p va = Some pa -> reaches m p va pa.
Proof.
  unfold translate. destruct (mc_ps m !! p) as [s|] eqn:Es; [|done]. destruct (user_translate m s va) as [[x r]|] eqn:E; [|done].
  intros [= <-]. by exists s, r.
Qed.

(** Not so with map_device: it maps any physical memory, such as a page of another process. *)
Theorem C44_map_device_refuted :
  exists m l m' rs va vb pa, started true m /\ mach_run true 1 m l = Some (m', rs) /\
    reaches m' 0 va pa /\ reaches m' 1 vb pa /\ rs = [Ok (0x100000, 4096)%N; Ok (0x100000, 4096)%N].
Proof.
  set (l := [(0, CMap 0x1000 4096 (Some ([], [(mkPF 0x100000 4096, true)]))); (1, CMapDevice 0x100000 4096)]).
  assert (option_map (fun x => (translate x.1 0 0x1000, translate x.1 1 0x100000, x.2)) (mach_run true 1 ex_mach l) =
    Some (Some 0x100000%N, Some 0x100000%N, [Ok (0x100000, 4096)%N; Ok (0x100000, 4096)%N])) as H by (by vm_compute).
  destruct (mach_run true 1 ex_mach l) as [[m' rs]|] eqn:E; [|done]. cbn [option_map fst snd] in H. injection H as H1 H2 H3.
  exists ex_mach, l, m', rs, 0x1000%N, 0x100000%N, 0x100000%N. split; [apply ex_started|]. split; [done|].
  split; [by apply translate_reaches|]. split; [by apply translate_reaches|done].
Qed.
Print Assumptions C44_map_device_refuted.

(** Nor with a base above KERNEL_BASE, which map does not refuse: the new entry is in a table of
    the kernel, so it appears in the page tables of all processes. *)
Theorem C44_kernel_half_refuted :
  exists m p b mem m' r s va, started true m /\ mach_step true 1 m p (CMap b 4096 mem) = Some (m', r) /\
    (KERNEL_BASE <= b)%N /\ mc_kern m' <> mc_kern m /\ p <> 1 /\ mc_ps m' !! 1 = Some s /\ mc_ps m !! 1 = Some s /\
    vs_resolve (p_vs (shared_in (mc_kern m) s)) va = Err NotMapped /\
    is_ok (vs_resolve (p_vs (shared_in (mc_kern m') s)) va) = true.
Proof.
  set (mem := Some ([] : list (pframe * bool), [(mkPF 0x100000 4096, true)])). set (s := prc_init vs_init).
  assert (option_map (fun x => (is_ok (vs_resolve (p_vs (shared_in (mc_kern x.1) s)) (132 * SLOT)), is_ok x.2)) (mach_step true 1 ex_mach 0 (CMap (132 * SLOT) 4096 mem)) =
    Some (true, true)) as H by (by vm_compute).
  destruct (mach_step true 1 ex_mach 0 (CMap (132 * SLOT) 4096 mem)) as [[m' r]|] eqn:E; [|done]. cbn [option_map fst snd] in H. injection H as H1 H2.
  exists ex_mach, 0, (132 * SLOT)%N, mem, m', r, s, (132 * SLOT)%N. split; [apply ex_started|]. split; [done|].
  split; [by vm_compute|].
  assert (vs_resolve (p_vs (shared_in (mc_kern ex_mach) s)) (132 * SLOT) = Err NotMapped) as H0 by (by vm_compute).
  split. { intros Ek. rewrite Ek in H1. by vm_compute in H1. }
  split; [done|]. split; [|done].
  by rewrite (step_other_prc _ _ _ _ _ _ _ 1 E).
Qed.
Print Assumptions C44_kernel_half_refuted.

(** Nor is memory from allocate_physical zeroed: process 1 reads what process 0 wrote. *)
Theorem C44_allocated_frame_not_zeroed_refuted :
  exists m l m' rs, started true m /\ requests_ok true 1 m l /\
    l = [(0, CAlloc 4096 (Some (mkPF 0x100000 4096))); (0, CMapId 0x1000 0 true); (0, CWrite 0x1008 42); (0, CUnmap 0x1000); (0, CRelease 0);
         (1, CAlloc 4096 (Some (mkPF 0x100000 4096))); (1, CMapId 0x9000 0 true); (1, CRead 0x9008)] /\
    mach_run true 1 m l = Some (m', rs) /\ last rs = Some (Ok (42, 0)%N).
Proof.
  exists ex_mach. set (l := [(0, CAlloc _ _); _; _; _; _; _; _; _]).
  assert (option_map (fun x => last x.2) (mach_run true 1 ex_mach l) = Some (Some (Ok (42, 0)%N))) as H by (by vm_compute).
  destruct (mach_run true 1 ex_mach l) as [[m' rs]|] eqn:E; [|done]. cbn [option_map fst snd] in H. injection H as H.
  exists l, m', rs. split; [apply ex_started|]. split; [apply requests_okb_ok; vm_compute; reflexivity|].
  split; [reflexivity|]. split; [exact E|exact H].
Qed.
Print Assumptions C44_allocated_frame_not_zeroed_refuted.
