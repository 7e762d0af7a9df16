(** Concrete histories of the kernel heap: the hypotheses of C47, C48, C49 are met, and
    the cases in which the full properties fail. *)
From Verif Require Import Base MemModel MemSpec MemProofs BootModel BootSpec BootProofs HeapModel HeapSpec HeapProofs HeapProofs2 HeapProofs3 HeapProofs4 HeapProps.
Open Scope N_scope.

(** Checks by computation. *)
Fixpoint disjb (l : list frame) : bool :=
  match l with
  | [] => true
  | f :: r => forallb (fun g => (f_base f + f_size f <=? f_base g) || (f_base g + f_size g <=? f_base f)) r && disjb r
  end.
Lemma disjb_ok l : disjb l = true -> pairwise_disjoint l.
Proof.
  intros H. apply cov_disjoint. intros a. induction l as [|f l IH]; [cbn; lia|].
  cbn [disjb] in H. apply andb_true_iff in H as [H1 H2]. specialize (IH H2). cbn [cov]. case_decide as Hc; [|lia].
  destruct (decide (cov l a = 0)%nat) as [->|Hz]; [lia|exfalso].
  destruct (cov_elem l a) as (g & Hg & Hgc); [lia|].
  rewrite forallb_forall in H1. specialize (H1 g). rewrite <- elem_of_list_In in H1. specialize (H1 Hg).
  apply orb_true_iff in H1 as [H1|H1]; apply N.leb_le in H1; unfold covers in *; lia.
Qed.
Definition lowb (l : list frame) : bool := forallb (fun f => f_base f + f_size f <=? 2199023255552) l.
Lemma lowb_ok l : lowb l = true -> forall f, f ∈ l -> f_base f + f_size f <= 2199023255552.
Proof. intros H f Hf. unfold lowb in H. rewrite forallb_forall in H. specialize (H f). rewrite <- elem_of_list_In in H. by apply N.leb_le, H. Qed.
Definition cacheb (c : mcache) : bool := forallb (fun a => a mod 4096 =? 0) (mc_base c) && forallb (fun a => a mod 2097152 =? 0) (mc_large c).
Lemma cacheb_ok c : cacheb c = true -> cache_ok c.
Proof.
  intros H. apply andb_true_iff in H as [H1 H2]. rewrite forallb_forall in H1, H2.
  split; apply stdpp.list.Forall_forall; intros x Hx; apply elem_of_list_In in Hx; apply N.eqb_eq; [by apply H1|by apply H2].
Qed.
Definition ncb (l : list mcache) : bool := forallb (fun p => cacheb p.2 && (mc_node p.2 =? N.of_nat p.1)) (imap pair l).
Definition coreb (nodes : N) (c : core) : bool :=
  cacheb (ar_pm (co_cur c)) && (mc_node (ar_pm (co_cur c)) =? ar_aff (co_cur c)) &&
  (N.of_nat (length (mc_base (ar_pm (co_cur c)))) <=? 381) && (N.of_nat (length (mc_large (ar_pm (co_cur c)))) <=? 128) &&
  forallb (fun o => match o with None => true | Some _ => false end) (co_arenas c) &&
  (ar_aff (co_cur c) <? N.max 1 nodes) && (ar_aff (co_cur c) <? N.of_nat (length (co_arenas c))).
Definition initb (k : N) (h : heap) : bool :=
  (3 <=? k) && (k <=? 11) && (hp_mb h =? 2 ^ k) && (hp_sbrk h =? BIGBASE) &&
  match hp_zone h, hp_big h with [], [] => true | _, _ => false end &&
  disjb (all_free h) && lowb (all_free h) && ncb (hp_nc h) && forallb (coreb (hp_nodes h)) (hp_cores h) &&
  (N.max 1 (hp_nodes h) <=? N.of_nat (length (hp_nc h))).
Lemma initb_ok k h : initb k h = true -> heap_init h.
Proof.
  unfold initb. rewrite !andb_true_iff. intros (((((((((H1 & H2) & H3) & H4) & H5) & H6) & H7) & H8) & H9) & H10).
  apply N.leb_le in H1, H2, H10. apply N.eqb_eq in H3, H4.
  destruct (hp_zone h) eqn:Ez; [|done]. destruct (hp_big h) eqn:Eb; [|done].
  constructor; try done.
  - exists k. done.
  - by apply disjb_ok.
  - by apply lowb_ok.
  - intros i c Hi. unfold ncb in H8. rewrite forallb_forall in H8. specialize (H8 (i, c)).
    rewrite <- elem_of_list_In in H8. assert (Hin : (i, c) ∈ imap pair (hp_nc h)).
    { apply elem_of_list_lookup. exists i. by rewrite list_lookup_imap, Hi. }
    specialize (H8 Hin). apply andb_true_iff in H8 as [A B]. cbn [fst snd] in A, B. apply N.eqb_eq in B. split; [by apply cacheb_ok|done].
  - intros i c Hi. rewrite forallb_forall in H9. specialize (H9 c). rewrite <- elem_of_list_In in H9.
    specialize (H9 (elem_of_list_lookup_2 _ _ _ Hi)). unfold coreb in H9. rewrite !andb_true_iff in H9.
    destruct H9 as ((((((A & B) & C) & D) & E) & F) & G).
    apply N.eqb_eq in B. apply N.leb_le in C, D. apply N.ltb_lt in F, G.
    split; [by apply cacheb_ok|]. split; [done|]. split; [lia|]. split; [lia|]. split; [|done].
    intros j a Hj. rewrite forallb_forall in E. specialize (E (Some a)). rewrite <- elem_of_list_In in E.
    specialize (E (elem_of_list_lookup_2 _ _ _ Hj)). done.
Qed.
Definition layoutb (op : hop) : bool :=
  match op with
  | HAlloc _ size align _ _ => (0 <? size) && (0 <? align) && (2097152 mod align =? 0)
  | HRealloc _ _ n _ _ => 0 <? n
  | _ => true
  end.
Definition classb (live : list blk) (op : hop) : bool :=
  match op with
  | HRealloc _ i n _ _ => match live !! i with
      | Some b => negb ((b_size b <=? MAX_ZONE) && negb (b_size b =? 4096) && (n <=? class_of (b_size b))) || (class_of n =? class_of (b_size b))
      | None => true end
  | _ => true
  end.
Definition homeb (st : heap * list blk) (op : hop) : bool :=
  match op with
  | HFree c i | HRealloc c i _ _ _ => match st.2 !! i with
      | Some b => negb ((131072 <? b_size b) && (b_size b <=? 2097152)) || (node_of st.1 c =? b_node b)
      | None => true end
  | _ => true
  end.
Fixpoint alongb (G : heap * list blk -> hop -> bool) (st : heap * list blk) (ops : list hop) : bool :=
  match ops with
  | [] => true
  | op :: r => G st op && match hstep st op with Some st' => alongb G st' r | None => true end
  end.
Lemma alongb_ok (G : heap * list blk -> hop -> Prop) Gb ops : (forall st op, Gb st op = true -> G st op) ->
  forall st, alongb Gb st ops = true -> along G st ops.
Proof.
  intros HG. induction ops as [|op ops IH]; intros st H; cbn [alongb along] in *; [done|].
  apply andb_true_iff in H as [H1 H2]. split; [by apply HG|]. destruct (hstep st op); [by apply IH|done].
Qed.
Lemma layoutb_ok op : layoutb op = true -> layout_ok op.
Proof.
  destruct op; cbn; try done.
  - rewrite !andb_true_iff. intros [[H1 H2] H3]. apply N.ltb_lt in H1, H2. apply N.eqb_eq in H3. done.
  - intros H. by apply N.ltb_lt in H.
Qed.
Lemma classb_ok live op : classb live op = true -> keeps_class live op.
Proof.
  destruct op; cbn; try done. intros H b Hb H1 H2 H3. rewrite Hb in H.
  apply orb_true_iff in H as [H|H]; [|by apply N.eqb_eq in H].
  apply N.leb_le in H1, H3. apply N.eqb_neq in H2. rewrite H1, H3, H2 in H. done.
Qed.
Lemma homeb_ok st op : homeb st op = true -> frees_home st op.
Proof.
  destruct op; cbn; try done; intros H b Hb [H1 H2]; rewrite Hb in H;
  (apply orb_true_iff in H as [H|H]; [|by apply N.eqb_eq in H]);
  apply N.ltb_lt in H1; apply N.leb_le in H2; rewrite H1, H2 in H; done.
Qed.

(** ** A machine with two nodes and two cores *)
Definition bpages (lo n : nat) : list N := map (fun i => N.of_nat i * 4096) (seq lo n).
Definition lpages (lo n : nat) : list N := map (fun i => N.of_nat i * 2097152) (seq lo n).
Definition xh : heap :=
  mkHp 256 2 [mkCore (mkAr 0 (mkMc 0 (bpages 1 30) (lpages 1 4))) (replicate 4 None);
              mkCore (mkAr 1 (mkMc 1 (bpages 31 2) (lpages 5 2))) (replicate 4 None)]
    [mkMc 0 (bpages 40 5) (lpages 7 3); mkMc 1 (bpages 50 5) (lpages 10 3)] [] BIGBASE [].
(** Small, large and big blocks, a resize that moves, one in place, a change of node, frees. *)
Definition xops : list hop :=
  [HAlloc 0 10 8 [] [None; Some (0%nat, 4096)];
   HAlloc 1 200000 4096 [] [];
   HAlloc 0 2097153 4096 [1%nat] [None; Some (0%nat, 4194304)];
   HRealloc 0 0 12 [] [];
   HRealloc 0 0 100 [] [None; Some (0%nat, 12288)];
   HAffinity 0 1;
   HAlloc 0 300000 64 [] [];
   HFree 0 1].
Definition xfin : heap * list blk := match hrun (xh, []) xops with Some st => st | None => (xh, []) end.
Lemma xinit : heap_init xh.
Proof. apply (initb_ok 8). vm_compute. reflexivity. Qed.
Lemma xrun : hrun (xh, []) xops = Some xfin.
Proof. vm_compute. reflexivity. Qed.
Lemma xgood : along (fun st op => layout_ok op /\ keeps_class st.2 op /\ frees_home st op) (xh, []) xops.
Proof.
  apply (alongb_ok _ (fun st op => layoutb op && classb st.2 op && homeb st op)).
  - intros st op H. apply andb_true_iff in H as [H H3]. apply andb_true_iff in H as [H1 H2].
    split; [by apply layoutb_ok|]. split; [by apply classb_ok|by apply homeb_ok].
  - vm_compute. reflexivity.
Qed.
Lemma xgood' : along (fun st op => layout_ok op /\ keeps_class st.2 op) (xh, []) xops.
Proof. eapply along_impl; [|exact xgood]. intros st op (H1 & H2 & _). done. Qed.
Example C47_hyps_met : heap_init xh /\ along (fun st op => layout_ok op /\ keeps_class st.2 op) (xh, []) xops /\
  hrun (xh, []) xops = Some xfin /\ map b_size (snd xfin) = [100; 2097153; 300000].
Proof. split; [apply xinit|]. split; [apply xgood'|]. split; [apply xrun|]. vm_compute. reflexivity. Qed.
Example C48_hyps_met : heap_init xh /\ along (fun st op => layout_ok op /\ keeps_class st.2 op /\ frees_home st op) (xh, []) xops /\
  hrun (xh, []) xops = Some xfin /\ map b_node (snd xfin) = [0; 0; 1] /\ node_of (fst xfin) 0 = 1.
Proof. split; [apply xinit|]. split; [apply xgood|]. split; [apply xrun|]. vm_compute. done. Qed.
Example C48_select_hyps_met : fst (k_affinity (fst xfin) 1 0) = Ok true /\ fst (k_affinity (fst xfin) 1 2) = Ok false.
Proof. vm_compute. done. Qed.
Example C49_hyps_met : heap_init xh /\ along (fun st op => layout_ok op /\ keeps_class st.2 op) (xh, []) xops /\
  hrun (xh, []) xops = Some xfin /\ fst (k_alloc (fst xfin) 1 500000 8 [] []) = Ok (Some (KBASE + 12582912)) /\
  fst (k_dealloc (fst xfin) 0 (KBASE + 20971520) 300000 64) = Ok tt.
Proof. split; [apply xinit|]. split; [apply xgood'|]. split; [apply xrun|]. vm_compute. done. Qed.
(** A big block, freed: the pages at 2 MiB and 8 KiB it had. *)
Example C49_big_hyps_met : hrun xfin [HFree 1 1] <> None /\ option_map b_size (snd xfin !! 1%nat) = Some 2097153 /\
  translate (fst xfin) BIGBASE = Some 2097152 /\ translate (fst xfin) (BIGBASE + 2097152) = Some 8192.
Proof. split; [|vm_compute; done]. vm_compute. discriminate. Qed.
(** Plenty of memory, and a request for 300 MiB: a panic. *)
Example C49_huge_panics : fst (k_alloc (mkHp 256 1 [mkCore (mkAr 0 (mkMc 0 (bpages 1 100) (lpages 1 128))) (replicate 4 None)]
    [mkMc 0 (bpages 101 100) (lpages 130 300)] [] BIGBASE []) 0 314572800 8 [] []) = Panic.
Proof. vm_compute. reflexivity. Qed.

(** ** Refutations *)
(** Shrinking a small block in place and freeing it frees the slot of another block,
    which then is handed out a second time. *)
Definition rh : heap := mkHp 256 1 [mkCore (mkAr 0 (mkMc 0 [4096] [])) (replicate 4 None)] [mkMc 0 [] []] [] BIGBASE [].
Definition rops : list hop :=
  [HAlloc 0 16 8 [] [None; Some (0%nat, 4112)]; HAlloc 0 16 8 [] [Some (0%nat, 4128)];
   HRealloc 0 0 8 [] []; HFree 0 0; HAlloc 0 16 8 [] [Some (0%nat, 4128)]].
Theorem C47_heap_blocks_disjoint_refuted : exists h0 ops h b c,
  heap_init h0 /\ along (fun _ op => layout_ok op) (h0, []) ops /\ hrun (h0, []) ops = Some (h, [b; c]) /\
  b_ptr b = b_ptr c /\ b_size b = 16 /\ b_size c = 16.
Proof.
  exists rh, rops. eexists. exists (mkBlk (KBASE + 4128) 16 8 0), (mkBlk (KBASE + 4128) 16 8 0).
  split; [apply (initb_ok 8); vm_compute; reflexivity|].
  split; [apply (alongb_ok _ (fun _ op => layoutb op)); [intros st op; apply layoutb_ok|vm_compute; reflexivity]|].
  split; [vm_compute; reflexivity|]. done.
Qed.
Print Assumptions C47_heap_blocks_disjoint_refuted.

(** A large block freed on a core with another node selected is given out as memory of
    that node. *)
Definition nh : heap := mkHp 256 2
  [mkCore (mkAr 0 (mkMc 0 [] [2097152])) (replicate 4 None); mkCore (mkAr 1 (mkMc 1 [] [])) (replicate 4 None)]
  [mkMc 0 [] []; mkMc 1 [] []] [] BIGBASE [].
Definition nops : list hop := [HAlloc 0 200000 8 [] []; HFree 1 0; HAlloc 1 200000 8 [] []].
Theorem C48_blocks_on_selected_node_refuted : exists h0 ops h b a,
  heap_init h0 /\ along (fun st op => layout_ok op /\ keeps_class st.2 op) (h0, []) ops /\ hrun (h0, []) ops = Some (h, [b]) /\
  translate h (b_ptr b) = Some a /\ forall f, f ∈ all_free h0 -> covers f a -> f_aff f <> b_node b.
Proof.
  exists nh, nops. eexists. exists (mkBlk (KBASE + 2097152) 200000 8 1), 2097152.
  split; [apply (initb_ok 8); vm_compute; reflexivity|].
  split.
  { apply (alongb_ok _ (fun st op => layoutb op && classb st.2 op)).
    - intros st op H. apply andb_true_iff in H as [H1 H2]. split; [by apply layoutb_ok|by apply classb_ok].
    - vm_compute. reflexivity. }
  split; [vm_compute; reflexivity|]. split; [vm_compute; reflexivity|].
  intros f Hf _. assert (Hall : all_free nh = [lframe 0 2097152]) by (vm_compute; reflexivity). rewrite Hall in Hf.
  apply elem_of_list_singleton in Hf as ->. cbn. discriminate.
Qed.
Print Assumptions C48_blocks_on_selected_node_refuted.

(** Freeing a large block on a core that holds 128 large pages panics. *)
Definition fh : heap := mkHp 256 1
  [mkCore (mkAr 0 (mkMc 0 [] (lpages 1 128))) (replicate 4 None); mkCore (mkAr 0 (mkMc 0 [] (lpages 200 1))) (replicate 4 None)]
  [mkMc 0 [] []] [] BIGBASE [].
Theorem C49_heap_free_refuted : exists h0 ops h b,
  heap_init h0 /\ along (fun st op => layout_ok op /\ keeps_class st.2 op /\ frees_home st op) (h0, []) ops /\
  hrun (h0, []) ops = Some (h, [b]) /\ fst (k_dealloc h 0 (b_ptr b) (b_size b) (b_align b)) = Panic.
Proof.
  exists fh, [HAlloc 1 200000 8 [] []]. eexists. exists (mkBlk (KBASE + 419430400) 200000 8 0).
  split; [apply (initb_ok 8); vm_compute; reflexivity|].
  split.
  { apply (alongb_ok _ (fun st op => layoutb op && classb st.2 op && homeb st op)).
    - intros st op H. apply andb_true_iff in H as [H H3]. apply andb_true_iff in H as [H1 H2].
      split; [by apply layoutb_ok|]. split; [by apply classb_ok|by apply homeb_ok].
    - vm_compute. reflexivity. }
  split; [vm_compute; reflexivity|]. vm_compute. reflexivity.
Qed.
Print Assumptions C49_heap_free_refuted.
