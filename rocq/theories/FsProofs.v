(** Invariants of the file-system model and refinement of FsSpec. *)
From Verif Require Import Base FileModel FileSpec FileProofs FsModel FsSpec.

Lemma BPS_pos : 0 < BASE_PAGE_SIZE.
Proof. unfold BASE_PAGE_SIZE. apply Nat.ltb_lt. by vm_compute. Qed.
Global Opaque BASE_PAGE_SIZE MAX_FILES_PER_PROCESS.

(** *** Well-formed nodes *)
Definition node_ok (num : N) (m : memnode) : Prop :=
  mn_num m = num /\
  match mn_type m with
  | Directory => mn_file m = None
  | RegFile => exists f, mn_file m = Some f /\ wf_buffers BASE_PAGE_SIZE (mcache f)
  end.

Record fs_ok (s : mlnrfs) : Prop := {
  fo_nodes : forall id m, mnodes s !! id = Some m -> node_ok id m /\ (id < nextmno s)%N;
  fo_names : forall nm id, files s !! nm = Some id -> is_Some (mnodes s !! id);
  fo_inj : forall n1 n2 id, files s !! n1 = Some id -> files s !! n2 = Some id -> n1 = n2;
  fo_next : (2 <= nextmno s)%N }.

Record node_inv (n : node) : Prop := {
  ni_fs : fs_ok (fs n);
  ni_len : forall pid t, pmap n !! pid = Some t -> length t = MAX_FILES_PER_PROCESS;
  ni_fd : forall pid t fd e, pmap n !! pid = Some t -> t !! fd = Some (Some e) ->
          (fd_mnode e < nextmno (fs n))%N }.

Lemma fs_init_ok : fs_ok fs_init.
Proof.
  split; cbn.
  - intros id m. rewrite lookup_singleton_Some. intros [<- <-]. split; [|unfold MNODE_OFFSET; lia].
    split; done.
  - intros nm id. rewrite lookup_singleton_Some. intros [<- <-]. rewrite lookup_singleton. eauto.
  - intros n1 n2 id. rewrite !lookup_singleton_Some. naive_solver.
  - unfold MNODE_OFFSET. lia.
Qed.

Lemma node_init_inv : node_inv node_init.
Proof.
  split; cbn; [apply fs_init_ok| |]; intros *; rewrite lookup_empty; done.
Qed.

Lemma fs_insert_node_ok s path modes t :
  fs_ok s -> fs_ok (fs_insert_node s path modes t).2.
Proof.
  intros [H1 H2 H3 H4]. unfold fs_insert_node.
  destruct (files s !! path) eqn:E; cbn; [by split|].
  split; cbn.
  - intros id m. rewrite lookup_insert_Some. intros [[<- <-]|[Hne Hm]].
    + split; [|lia]. destruct t; split; cbn; eauto using wf_buffers.
    + destruct (H1 _ _ Hm). split; [done|lia].
  - intros nm id. rewrite lookup_insert_Some. intros [[<- <-]|[Hne Hm]].
    + rewrite lookup_insert. eauto.
    + destruct (decide (nextmno s = id)) as [->|]; [rewrite lookup_insert; eauto|].
      rewrite lookup_insert_ne by done. eauto.
  - intros n1 n2 id. rewrite !lookup_insert_Some.
    assert (forall nm, files s !! nm = Some (nextmno s) -> False) as Hf.
    { intros nm Hnm. destruct (H2 _ _ Hnm) as [m Hm]. destruct (H1 _ _ Hm). lia. }
    intros [[<- <-]|[? Ha]] [[<- Hb]|[? Hb]]; try done; try (exfalso; eauto; done).
    + subst. exfalso; eauto.
    + eauto.
  - lia.
Qed.

Lemma fs_delete_ok s path : fs_ok s -> fs_ok (fs_delete s path).2.
Proof.
  intros [H1 H2 H3 H4]. unfold fs_delete.
  destruct (files s !! path) as [num|] eqn:E; cbn; [|by split].
  split; cbn.
  - intros id m. rewrite lookup_delete_Some. intros [? Hm]. eauto.
  - intros nm id. rewrite lookup_delete_Some. intros [Hne Hm].
    rewrite lookup_delete_ne; [eauto|]. intros ->. apply Hne. eauto.
  - intros n1 n2 id. rewrite !lookup_delete_Some. naive_solver.
  - done.
Qed.

Lemma fs_update_node_ok s num m' :
  fs_ok s -> node_ok num m' -> is_Some (mnodes s !! num) ->
  fs_ok (mkFs (<[num := m']> (mnodes s)) (files s) (nextmno s)).
Proof.
  intros [H1 H2 H3 H4] Hok [m Hm]. split; cbn; [| |done|done].
  - intros id m0. rewrite lookup_insert_Some. intros [[<- <-]|[Hne Hm0]]; [|eauto].
    split; [done|]. by destruct (H1 _ _ Hm).
  - intros nm id Hnm. destruct (decide (num = id)) as [->|]; [rewrite lookup_insert; eauto|].
    rewrite lookup_insert_ne by done. eauto.
Qed.

Lemma memnode_truncate_ok num m : node_ok num m -> node_ok num (memnode_truncate m).2.
Proof.
  intros [H1 H2]. unfold memnode_truncate. destruct (mn_type m) eqn:E; cbn; [by split; [|rewrite E]|].
  destruct H2 as (f & Hf & Hw). rewrite Hf. destruct (is_writable (fmodes f)); cbn.
  - split; cbn; [done|]. eexists; split; [done|]. constructor.
  - split; [done|]. rewrite E. eauto.
Qed.

Lemma memnode_write_ok avail num m d off : node_ok num m -> node_ok num (memnode_write avail m d off).2.
Proof.
  intros [H1 H2]. unfold memnode_write. destruct (mn_type m) eqn:E; cbn; [by split; [|rewrite E]|].
  destruct H2 as (f & Hf & Hw). rewrite Hf. destruct (is_writable (fmodes f)); cbn.
  - destruct (write_file _ _ _ _ _) as [r f'] eqn:Ew. cbn. split; cbn; [done|].
    eexists; split; [done|].
    destruct (write_file_spec BASE_PAGE_SIZE avail f d off BPS_pos Hw) as [Hw' _].
    by rewrite Ew in Hw'.
  - split; [done|]. rewrite E. eauto.
Qed.

Lemma fs_truncate_ok s path : fs_ok s -> fs_ok (fs_truncate s path).2.
Proof.
  intros Hs. unfold fs_truncate.
  destruct (files s !! path) as [num|] eqn:E; [|done].
  destruct (mnodes s !! num) as [m|] eqn:Em; [|done].
  destruct (memnode_truncate m) as [r m'] eqn:Et. cbn.
  apply fs_update_node_ok; eauto.
  replace m' with (memnode_truncate m).2 by (by rewrite Et).
  apply memnode_truncate_ok. by apply Hs in Em as [].
Qed.

Lemma fs_write_ok avail s num d off : fs_ok s -> fs_ok (fs_write avail s num d off).2.
Proof.
  intros Hs. unfold fs_write.
  destruct (mnodes s !! num) as [m|] eqn:Em; [|done].
  destruct (memnode_write avail m d off) as [r m'] eqn:Et. cbn.
  apply fs_update_node_ok; eauto.
  replace m' with (memnode_write avail m d off).2 by (by rewrite Et).
  apply memnode_write_ok. by apply Hs in Em as [].
Qed.

Lemma fs_rename_ok s old new : fs_ok s -> fs_ok (fs_rename s old new).2.
Proof.
  intros Hs. unfold fs_rename.
  destruct (files s !! old) as [id|] eqn:E; [|done].
  set (s1 := match files s !! new with Some _ => _ | None => s end).
  assert (Hs1 : fs_ok s1).
  { subst s1. destruct (files s !! new); [by apply fs_delete_ok|done]. }
  destruct (files s1 !! old) as [num|] eqn:E1; [|done].
  assert (Hn : old <> new -> files s1 !! new = None).
  { intros. subst s1. destruct (files s !! new) eqn:En; [|done].
    unfold fs_delete. rewrite En. cbn. by rewrite lookup_delete. }
  assert (old <> new) as Hne.
  { intros ->. subst s1. rewrite E in E1. unfold fs_delete in E1. rewrite E in E1. cbn in E1.
    by rewrite lookup_delete in E1. }
  assert (fs_ok (mkFs (mnodes s1) (<[new := num]> (delete old (files s1))) (nextmno s1))) as Hok.
  { destruct Hs1 as [H1 H2 H3 H4]. split; cbn; [done| | |done].
    - intros nm i. rewrite lookup_insert_Some. intros [[<- <-]|[? Hm]]; [eauto|].
      apply lookup_delete_Some in Hm as []. eauto.
    - intros n1 n2 i. rewrite !lookup_insert_Some, !lookup_delete_Some.
      intros [[<- <-]|[? [? Ha]]] [[<- Hb]|[? [? Hb]]]; try done; subst.
      + exfalso; eauto.
      + exfalso; eauto.
      + eauto. }
  destruct (delete old (files s1) !! new); done.
Qed.

(** *** Descriptor tables *)
Lemma first_none_Some t i :
  first_none t = Some i <->
  t !! i = Some None /\ forall j, j < i -> exists e, t !! j = Some (Some e).
Proof.
  revert i. induction t as [|[e|] t IH]; intros i; cbn.
  - split; [done|]. intros [H _]. by destruct i.
  - rewrite fmap_Some. split.
    + intros (k & Hk & ->). apply IH in Hk as [H1 H2]. split; [done|].
      intros [|j] Hj; cbn; [eauto|]. apply H2. lia.
    + intros [H1 H2]. destruct i as [|i]; [done|]. exists i. split; [|done].
      apply IH. split; [done|]. intros j Hj. apply (H2 (S j)). lia.
  - split.
    + intros [= <-]. split; [done|]. lia.
    + intros [H1 H2]. destruct i as [|i]; [done|]. destruct (H2 0) as [e He]; [lia|done].
Qed.

Lemma first_none_None t :
  first_none t = None <-> forall i, i < length t -> exists e, t !! i = Some (Some e).
Proof.
  induction t as [|[e|] t IH]; cbn.
  - split; [lia|done].
  - rewrite fmap_None, IH. split.
    + intros H [|i] Hi; cbn; [eauto|]. apply H. lia.
    + intros H i Hi. apply (H (S i)). lia.
  - split; [done|]. intros H. destruct (H 0) as [e He]; [lia|done].
Qed.

Lemma get_fd_Some t fd e : get_fd t fd = Some e <-> t !! fd = Some (Some e).
Proof. unfold get_fd. destruct (t !! fd) as [[|]|]; cbn; naive_solver. Qed.

(** *** The invariant is preserved *)
Lemma set_fd_inv n pid t fd e s' :
  node_inv n -> fs_ok s' -> (nextmno (fs n) <= nextmno s')%N ->
  pmap n !! pid = Some t -> (fd_mnode e < nextmno s')%N ->
  node_inv (mkNodeSt (<[pid := <[fd := Some e]> t]> (pmap n)) s').
Proof.
  intros [H1 H2 H3] Hs Hle Ht He. split; cbn; [done| |].
  - intros p0 t0. rewrite lookup_insert_Some. intros [[<- <-]|[? Hp]]; [|eauto].
    rewrite insert_length. eauto.
  - intros p0 t0 fd0 e0. rewrite lookup_insert_Some. intros [[<- <-]|[? Hp]] Hl.
    + destruct (decide (fd = fd0)) as [<-|].
      * apply list_lookup_insert_Some in Hl as [(_ & [= <-] & _)|[? _]]; done.
      * rewrite list_lookup_insert_ne in Hl by done. specialize (H3 _ _ _ _ Ht Hl). lia.
    + specialize (H3 _ _ _ _ Hp Hl). lia.
Qed.

Lemma node_inv_fs n s' :
  node_inv n -> fs_ok s' -> (nextmno (fs n) <= nextmno s')%N -> node_inv (mkNodeSt (pmap n) s').
Proof.
  intros [H1 H2 H3] Hs Hle. split; cbn; [done|done|].
  intros p t fd e Hp Hl. specialize (H3 _ _ _ _ Hp Hl). lia.
Qed.

Lemma close_inv n pid t fd s' :
  node_inv n -> fs_ok s' -> (nextmno (fs n) <= nextmno s')%N ->
  pmap n !! pid = Some t ->
  node_inv (mkNodeSt (<[pid := <[fd := None]> t]> (pmap n)) s').
Proof.
  intros [H1 H2 H3] Hs Hle Ht. split; cbn; [done| |].
  - intros p0 t0. rewrite lookup_insert_Some. intros [[<- <-]|[? Hp]]; [|eauto].
    rewrite insert_length. eauto.
  - intros p0 t0 fd0 e0. rewrite lookup_insert_Some. intros [[<- <-]|[? Hp]] Hl.
    + destruct (decide (fd = fd0)) as [<-|].
      * apply list_lookup_insert_Some in Hl as [(_ & ? & _)|[? _]]; done.
      * rewrite list_lookup_insert_ne in Hl by done. specialize (H3 _ _ _ _ Ht Hl). lia.
    + specialize (H3 _ _ _ _ Hp Hl). lia.
Qed.

Lemma fs_truncate_next s p : nextmno (fs_truncate s p).2 = nextmno s.
Proof.
  unfold fs_truncate. destruct (files s !! p) as [num|]; [|done].
  destruct (mnodes s !! num) as [m|]; [|done]. by destruct (memnode_truncate m).
Qed.
Lemma fs_write_next a s num d o : nextmno (fs_write a s num d o).2 = nextmno s.
Proof.
  unfold fs_write. destruct (mnodes s !! num) as [m|]; [|done].
  by destruct (memnode_write a m d o).
Qed.
Lemma fs_delete_next s p : nextmno (fs_delete s p).2 = nextmno s.
Proof. unfold fs_delete. by destruct (files s !! p). Qed.
Lemma fs_rename_next s p q : nextmno (fs_rename s p q).2 = nextmno s.
Proof.
  unfold fs_rename. destruct (files s !! p); [|done].
  set (s1 := match files s !! q with Some _ => _ | None => s end).
  assert (nextmno s1 = nextmno s) as E.
  { subst s1. destruct (files s !! q); [apply fs_delete_next|done]. }
  destruct (files s1 !! p); [|done]. by destruct (delete p (files s1) !! q).
Qed.
Lemma fs_insert_node_next s p m t :
  (nextmno s <= nextmno (fs_insert_node s p m t).2)%N.
Proof. unfold fs_insert_node. destruct (files s !! p); cbn; lia. Qed.

Lemma with_mnode_spec n pid fd k :
  with_mnode n pid fd k =
  match pmap n !! pid with
  | Some t => match get_fd t fd with
              | Some e => k (fd_mnode e)
              | None => (Err InvalidFileDescriptor, n)
              end
  | None => (Err InvalidFileDescriptor, n)
  end.
Proof.
  unfold with_mnode, dispatch. destruct (pmap n !! pid) as [t|]; [|done].
  by destruct (get_fd t fd).
Qed.

Lemma dealloc_alloc t fid t1 :
  allocate_fd t = Some (fid, t1) ->
  t !! fid = Some None /\ t1 = <[fid := Some fd_default]> t /\
  (deallocate_fd t1 fid).2 = t.
Proof.
  unfold allocate_fd. intros H. apply bind_Some in H as (i & Hi & [= -> <-]).
  apply first_none_Some in Hi as [H1 H2].
  split; [done|]. split; [done|].
  unfold deallocate_fd. rewrite list_lookup_insert by (by eapply lookup_lt_Some).
  cbn. rewrite list_insert_insert. by apply list_insert_id.
Qed.

Lemma step_inv avail n r : node_inv n -> node_inv (step avail n r).2.
Proof.
  intros Hn. pose proof (ni_fs _ Hn) as Hfs.
  destruct r as [pid|pid name flags modes|pid fd d off|pid fd len off|pid fd|pid name|pid name|pid old new|pid name modes]; cbn [step].
  - cbn. destruct (pmap n !! pid) eqn:E; [done|]. cbn.
    destruct Hn as [H1 H2 H3]. split; cbn; [done| |].
    + intros p t. rewrite lookup_insert_Some. intros [[<- <-]|[? ?]]; [|eauto].
      unfold fdtable_default. by rewrite replicate_length.
    + intros p t fd e. rewrite lookup_insert_Some. intros [[<- <-]|[? Hp]] Hl; [|eauto].
      unfold fdtable_default in Hl. apply lookup_replicate in Hl as [? ?]. done.
  - unfold dispatch_mut, dispatch_open.
    destruct (match fs_lookup (fs n) name with None => _ | Some _ => false end); [done|].
    destruct (pmap n !! pid) as [t|] eqn:Et; [|done].
    destruct (allocate_fd t) as [[fid t1]|] eqn:Ea; [|done].
    apply dealloc_alloc in Ea as (Ha1 & -> & Hd).
    assert (forall s', fs_ok s' -> (nextmno (fs n) <= nextmno s')%N ->
      node_inv (mkNodeSt (<[pid:=(deallocate_fd (<[fid:=Some fd_default]> t) fid).2]> (pmap n)) s')) as Hrb.
    { intros s' ? ?. rewrite Hd. rewrite insert_id by done. by apply node_inv_fs. }
    assert (forall s' m, fs_ok s' -> (nextmno (fs n) <= nextmno s')%N -> (m < nextmno s')%N ->
      node_inv (mkNodeSt (<[pid:=<[fid:=Some (fd_update fd_default m flags)]> (<[fid:=Some fd_default]> t)]> (pmap n)) s')) as Hfin.
    { intros s' m ? ? ?. rewrite list_insert_insert. eapply set_fd_inv; eauto. }
    destruct (fs_lookup (fs n) name) as [m|] eqn:El.
    + assert (m < nextmno (fs n))%N as Hm.
      { destruct (fo_names _ Hfs _ _ El) as [mm Hmm]. by destruct (fo_nodes _ Hfs _ _ Hmm). }
      destruct (is_truncate flags).
      * pose proof (fs_truncate_ok (fs n) name Hfs) as Ho.
        pose proof (fs_truncate_next (fs n) name) as Hx.
        destruct (fs_truncate (fs n) name) as [[|e|] s'] eqn:Ett; cbn in *.
        -- apply Hfin; auto; lia.
        -- apply Hrb; auto; lia.
        -- apply node_inv_fs; auto; lia.
      * apply Hfin; auto; lia.
    + pose proof (fs_insert_node_ok (fs n) name modes RegFile Hfs) as Ho.
      unfold fs_create. unfold fs_insert_node in *. unfold fs_lookup in El.
      rewrite El in *. cbn in *. apply Hfin; cbn; auto; lia.
  - rewrite with_mnode_spec. destruct (pmap n !! pid) as [t|] eqn:Et; [|done].
    destruct (get_fd t fd) as [e|] eqn:Ee; [|done].
    cbn. unfold dispatch_write. rewrite Et, Ee.
    destruct (is_write (fd_flags e)); cbn; [|done].
    set (curr := match off with Some o => Ok o | None => _ end).
    destruct curr as [c| |]; [|done|done].
    pose proof (fs_write_ok avail (fs n) (fd_mnode e) d c Hfs) as Ho.
    pose proof (fs_write_next avail (fs n) (fd_mnode e) d c) as Hx.
    destruct (fs_write avail (fs n) (fd_mnode e) d c) as [r s'] eqn:Ew. cbn in *.
    apply get_fd_Some in Ee.
    destruct r; cbn; [|apply node_inv_fs; auto; lia|apply node_inv_fs; auto; lia].
    destruct off; cbn; [apply node_inv_fs; auto; lia|].
    unfold set_fd. cbn. eapply set_fd_inv; eauto; [lia|]. cbn.
    rewrite Hx. eapply ni_fd; eauto.
  - rewrite with_mnode_spec. destruct (pmap n !! pid) as [t|] eqn:Et; [|done].
    destruct (get_fd t fd) as [e|] eqn:Ee; [|done].
    cbn. rewrite Et, Ee. destruct (is_read (fd_flags e)); cbn; [|done].
    destruct (fs_read _ _ _ _) as [[k dst]| |]; cbn; [|done|done].
    destruct off; [done|]. apply get_fd_Some in Ee.
    unfold set_fd. eapply set_fd_inv; eauto. cbn. eapply ni_fd; eauto.
  - cbn. destruct (pmap n !! pid) as [t|] eqn:Et; [|done].
    unfold deallocate_fd. destruct (t !! fd) as [[e|]|] eqn:El; cbn; [|done|done].
    eapply close_inv; eauto; lia.
  - cbn. destruct (pmap n !! pid) as [t|] eqn:Et; [|done].
    destruct (fs_lookup (fs n) name) eqn:El; cbn; [|done].
    rewrite Et, El. by destruct (fs_file_info (fs n) n0).
  - cbn. destruct (pmap n !! pid) as [t|] eqn:Et; [|done].
    apply node_inv_fs; [done|by apply fs_delete_ok|rewrite fs_delete_next; lia].
  - cbn. destruct (pmap n !! pid) as [t|] eqn:Et; [|done].
    apply node_inv_fs; [done|by apply fs_rename_ok|rewrite fs_rename_next; lia].
  - cbn. destruct (pmap n !! pid) as [t|] eqn:Et; [|done].
    apply node_inv_fs; [done|by apply fs_insert_node_ok|apply fs_insert_node_next].
Qed.

Lemma run_inv n l : node_inv n -> node_inv (run n l).2.
Proof.
  revert n. induction l as [|[av r] l IH]; intros n Hn; [done|]. cbn.
  pose proof (step_inv av n r Hn) as H.
  destruct (step av n r) as [o n1]. cbn in H. specialize (IH n1 H).
  by destruct (run n1 l).
Qed.

(** States reachable by requests from boot. *)
Definition reachable (n : node) : Prop := exists l, n = (run node_init l).2.
Lemma reachable_inv n : reachable n -> node_inv n.
Proof. intros [l ->]. apply run_inv, node_init_inv. Qed.
