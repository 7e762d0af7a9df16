(** Refinement: the file-system model answers every request as FsSpec does. *)
From Verif Require Import Base FileModel FileSpec FileProofs FsModel FsSpec FsProofs.

Definition content_rel (c : list N) (a : afile) : Prop :=
  asize a = length c /\ forall i, abyte a i = default 0%N (c !! i).

Lemma content_rel_new : content_rel [] a_new.
Proof. by split. Qed.

Lemma content_rel_truncate a : content_rel [] (a_truncate a).
Proof. by split. Qed.

Lemma content_rel_read c a off n :
  content_rel c a -> a_read a off n = take n (drop off c).
Proof.
  intros [H1 H2]. unfold a_read. apply list_eq. intros i.
  rewrite list_lookup_fmap.
  destruct (decide (i < n /\ off + i < length c)) as [Hi|Hi].
  - rewrite lookup_seq_lt by lia. cbn. rewrite lookup_take by lia.
    rewrite lookup_drop, H2.
    destruct (lookup_lt_is_Some_2 c (off + i)) as [x Hx]; [lia|]. by rewrite Hx.
  - rewrite lookup_seq_ge by lia. cbn.
    destruct (decide (i < n)); [|by rewrite lookup_take_ge by lia].
    rewrite lookup_take, lookup_drop by lia. symmetry. apply lookup_ge_None. lia.
Qed.

Lemma pad_lookup n c i : default 0%N (pad n c !! i) = default 0%N (c !! i).
Proof.
  unfold pad. destruct (decide (i < length c)).
  - by rewrite lookup_app_l by lia.
  - rewrite lookup_app_r by lia. rewrite (lookup_ge_None_2 c) by lia. cbn.
    destruct (replicate (n - length c) 0%N !! (i - length c)) eqn:E; [|done].
    by apply lookup_replicate in E as [-> _].
Qed.

Lemma content_rel_write c a off d :
  content_rel c a ->
  content_rel (splice off d (pad (off + length d) c)) (a_write a off d).
Proof.
  intros [H1 H2]. split; cbn.
  - rewrite splice_length; rewrite pad_length; lia.
  - intros i. rewrite splice_lookup by (rewrite pad_length; lia).
    case_decide; [done|]. by rewrite pad_lookup.
Qed.

(** Correspondence of states. *)
Definition obj_rel (m : memnode) (o : aobj) : Prop :=
  match o with
  | ADir => mn_type m = Directory
  | AReg modes a =>
    mn_type m = RegFile /\ exists f, mn_file m = Some f /\ fmodes f = modes /\
      content_rel (concat (mcache f)) a
  end.

Definition h_of (e : fdentry) : handle := mkH (fd_mnode e) (fd_flags e) (fd_offset e).

Record st_rel (n : node) (a : afs) : Prop := {
  sr_procs : forall pid, pid ∈ a_procs a <-> is_Some (pmap n !! pid);
  sr_open : forall pid fd,
    a_open a !! (pid, fd) = (t ← pmap n !! pid; h_of <$> get_fd t fd);
  sr_names : a_names a = files (fs n);
  sr_objs : forall id, option_Forall2 obj_rel (mnodes (fs n) !! id) (a_objs a !! id);
  sr_next : a_next a = nextmno (fs n) }.

Lemma st_rel_init : st_rel node_init a_init.
Proof.
  split; cbn.
  - intros pid. rewrite lookup_empty. split; [set_solver|]. intros [? ?]; done.
  - intros pid fd. rewrite !lookup_empty. done.
  - done.
  - intros id. destruct (decide (id = 1%N)) as [->|].
    + rewrite !lookup_singleton. constructor. done.
    + rewrite !lookup_singleton_ne by done. constructor.
  - done.
Qed.

Lemma least_free_spec n a pid t :
  node_inv n -> st_rel n a -> pmap n !! pid = Some t ->
  least_free a pid = first_none t.
Proof.
  intros Hn Hr Ht. unfold least_free.
  pose proof (ni_len _ Hn _ _ Ht) as Hlen.
  assert (Hop : forall fd, a_open a !! (pid, fd) = h_of <$> get_fd t fd).
  { intros fd. rewrite (sr_open _ _ Hr), Ht. done. }
  destruct (first_none t) as [i|] eqn:E.
  - apply first_none_Some in E as [E1 E2].
    assert (i < MAX_FILES_PER_PROCESS).
    { rewrite <- Hlen. by eapply lookup_lt_Some. }
    assert (list_find (fun fd => a_open a !! (pid, fd) = None) (seq 0 MAX_FILES_PER_PROCESS)
            = Some (i, i)) as ->; [|done].
    apply list_find_Some. rewrite lookup_seq_lt by done. split; [done|]. split.
    + rewrite Hop. unfold get_fd. by rewrite E1.
    + intros j y Hj Hji. apply lookup_seq in Hj as [-> _]. rewrite Hop. rewrite Nat.add_0_l.
      destruct (E2 j Hji) as [e He]. unfold get_fd. rewrite He. done.
  - pose proof (proj1 (first_none_None t) E) as E'.
    assert (list_find (fun fd => a_open a !! (pid, fd) = None) (seq 0 MAX_FILES_PER_PROCESS)
            = None) as ->; [|done].
    apply list_find_None. apply Forall_forall. intros fd Hin.
    apply elem_of_seq in Hin. rewrite Hop.
    destruct (E' fd) as [e He]; [lia|]. unfold get_fd. by rewrite He.
Qed.

(** Updating one descriptor on both sides. *)
Lemma sr_open_set n a pid t fd e :
  st_rel n a -> pmap n !! pid = Some t -> fd < length t ->
  forall p0 fd0,
  <[(pid, fd) := h_of e]> (a_open a) !! (p0, fd0) =
  (t0 ← <[pid := <[fd := Some e]> t]> (pmap n) !! p0; h_of <$> get_fd t0 fd0).
Proof.
  intros Hr Ht Hlt p0 fd0.
  destruct (decide (p0 = pid)) as [->|Hp].
  - rewrite lookup_insert. cbn. destruct (decide (fd0 = fd)) as [->|Hf].
    + rewrite lookup_insert. unfold get_fd. by rewrite list_lookup_insert.
    + rewrite lookup_insert_ne by congruence. rewrite (sr_open _ _ Hr), Ht. cbn.
      unfold get_fd. by rewrite list_lookup_insert_ne.
  - rewrite !lookup_insert_ne by congruence. apply (sr_open _ _ Hr).
Qed.

Lemma sr_open_del n a pid t fd :
  st_rel n a -> pmap n !! pid = Some t -> fd < length t ->
  forall p0 fd0,
  delete (pid, fd) (a_open a) !! (p0, fd0) =
  (t0 ← <[pid := <[fd := None]> t]> (pmap n) !! p0; h_of <$> get_fd t0 fd0).
Proof.
  intros Hr Ht Hlt p0 fd0.
  destruct (decide (p0 = pid)) as [->|Hp].
  - rewrite lookup_insert. cbn. destruct (decide (fd0 = fd)) as [->|Hf].
    + rewrite lookup_delete. unfold get_fd. by rewrite list_lookup_insert.
    + rewrite lookup_delete_ne by congruence. rewrite (sr_open _ _ Hr), Ht. cbn.
      unfold get_fd. by rewrite list_lookup_insert_ne.
  - rewrite lookup_insert_ne, lookup_delete_ne by congruence. apply (sr_open _ _ Hr).
Qed.

Lemma sr_procs_ins n a pid (t t' : list (option fdentry)) :
  st_rel n a -> pmap n !! pid = Some t ->
  forall p, p ∈ a_procs a <-> is_Some (<[pid := t']> (pmap n) !! p).
Proof.
  intros Hr Ht p. rewrite (sr_procs _ _ Hr). destruct (decide (p = pid)) as [->|].
  - rewrite lookup_insert, Ht. split; eauto.
  - by rewrite lookup_insert_ne.
Qed.

Lemma sr_objs_ins n a num m o :
  st_rel n a -> obj_rel m o ->
  forall id, option_Forall2 obj_rel (<[num := m]> (mnodes (fs n)) !! id) (<[num := o]> (a_objs a) !! id).
Proof.
  intros Hr Ho id. destruct (decide (id = num)) as [->|].
  - rewrite !lookup_insert. by constructor.
  - rewrite !lookup_insert_ne by done. apply (sr_objs _ _ Hr).
Qed.

Lemma sr_objs_del n a num :
  st_rel n a ->
  forall id, option_Forall2 obj_rel (delete num (mnodes (fs n)) !! id) (delete num (a_objs a) !! id).
Proof.
  intros Hr id. destruct (decide (id = num)) as [->|].
  - rewrite !lookup_delete. constructor.
  - rewrite !lookup_delete_ne by done. apply (sr_objs _ _ Hr).
Qed.

Lemma opt_rel_None n a id :
  st_rel n a -> mnodes (fs n) !! id = None -> a_objs a !! id = None.
Proof. intros Hr H. pose proof (sr_objs _ _ Hr id) as X. rewrite H in X. by inversion X. Qed.

Lemma opt_rel_Some n a id m :
  st_rel n a -> mnodes (fs n) !! id = Some m -> exists o, a_objs a !! id = Some o /\ obj_rel m o.
Proof. intros Hr H. pose proof (sr_objs _ _ Hr id) as X. rewrite H in X. inversion X; eauto. Qed.

Lemma obj_rel_cases num m o :
  node_ok num m -> obj_rel m o ->
  (mn_type m = Directory /\ mn_file m = None /\ o = ADir) \/
  (exists f a, mn_type m = RegFile /\ mn_file m = Some f /\ o = AReg (fmodes f) a /\
     wf_buffers BASE_PAGE_SIZE (mcache f) /\ content_rel (concat (mcache f)) a).
Proof.
  intros [_ Hok] Ho. destruct o as [|modes a]; cbn in Ho.
  - left. rewrite Ho in Hok. done.
  - right. destruct Ho as (Ht & f & Hf & <- & Hc). rewrite Ht in Hok.
    destruct Hok as (f' & Hf' & Hw). assert (f' = f) by congruence. subst f'.
    exists f, a. done.
Qed.

(** What [memnode_read] returns, in terms of the contents. *)
Lemma memnode_read_spec m f n off :
  mn_type m = RegFile -> mn_file m = Some f -> wf_buffers BASE_PAGE_SIZE (mcache f) ->
  is_readable (fmodes f) = true ->
  exists buf, memnode_read m (replicate n 0%N) off =
    Ok (length (take n (drop off (concat (mcache f)))), buf) /\
    take (length (take n (drop off (concat (mcache f))))) buf
      = take n (drop off (concat (mcache f))).
Proof.
  intros Ht Hf Hw Hr. unfold memnode_read. rewrite Ht, Hf, Hr. cbn [negb].
  rewrite (get_size_content BASE_PAGE_SIZE) by done. rewrite replicate_length.
  set (c := concat (mcache f)) in *.
  case_decide as H1.
  { rewrite drop_ge by lia. rewrite take_nil. eexists. split; done. }
  case_decide as H2.
  { assert (take n (drop off c) = []) as ->.
    { apply nil_length_inv. rewrite take_length, drop_length. lia. }
    eexists. split; done. }
  rewrite decide_False by lia.
  rewrite read_file_spec; [|apply BPS_pos|done|lia|fold c; lia|rewrite replicate_length; lia].
  fold c. set (k := Nat.min (length c - off) n) in *.
  replace (off + k - off) with k by lia.
  assert (Hk : take k (drop off c) = take n (drop off c)).
  { subst k. destruct (decide (n <= length c - off)).
    - by rewrite Nat.min_r by lia.
    - rewrite Nat.min_l by lia. rewrite !take_ge; auto; rewrite drop_length; lia. }
  assert (Hlk : length (take n (drop off c)) = k).
  { rewrite take_length, drop_length. lia. }
  rewrite Hlk, Hk. eexists. split; [done|].
  unfold splice. rewrite take_0. cbn [app]. by apply take_app_alt.
Qed.

Lemma memnode_write_spec avail m f d off :
  mn_type m = RegFile -> mn_file m = Some f -> wf_buffers BASE_PAGE_SIZE (mcache f) ->
  is_writable (fmodes f) = true ->
  (memnode_write avail m d off).1 <> Err OutOfMemory ->
  exists f', memnode_write avail m d off =
    (Ok (length d), mkNode (mn_num m) (mn_name m) (mn_type m) (Some f')) /\
    fmodes f' = fmodes f /\
    concat (mcache f') = splice off d (pad (off + length d) (concat (mcache f))).
Proof.
  intros Ht Hf Hw Hr. unfold memnode_write. rewrite Ht, Hf, Hr. cbn [negb].
  destruct (write_file_spec BASE_PAGE_SIZE avail f d off BPS_pos Hw) as (Hw' & Hm & Hres).
  destruct (write_file BASE_PAGE_SIZE avail f d off) as [r f'] eqn:E. cbn [fst snd] in *.
  case_decide as Hc.
  - destruct Hres as [-> _]. done.
  - destruct Hres as [-> Hcc]. intros _. exists f'. done.
Qed.

Definition benign (o : res nresult) : Prop := o <> Panic /\ o <> Err OutOfMemory.

Lemma step_refines avail n a r :
  node_inv n -> st_rel n a -> benign (step avail n r).1 ->
  to_reply (step avail n r).1 = (s_step a r).1 /\ st_rel (step avail n r).2 (s_step a r).2.
Proof.
  intros Hn Hr Hb. pose proof (ni_fs _ Hn) as Hfs.
  pose proof (sr_names _ _ Hr) as Hnm. pose proof (sr_next _ _ Hr) as Hnx.
  destruct r as [pid|pid name flags modes|pid fd d off|pid fd len off|pid fd|pid name|pid name|pid old new|pid name modes];
    cbn [step s_step] in *.
  - (* add process *)
    cbn in *. destruct (pmap n !! pid) eqn:E.
    + rewrite decide_True by (apply (sr_procs _ _ Hr); eauto). done.
    + rewrite decide_False by (rewrite (sr_procs _ _ Hr), E; intros [? ?]; done).
      cbn. split; [done|]. split; cbn.
      * intros p. rewrite elem_of_union, elem_of_singleton, (sr_procs _ _ Hr).
        destruct (decide (p = pid)) as [->|].
        -- rewrite lookup_insert. split; eauto.
        -- rewrite lookup_insert_ne by done. naive_solver.
      * intros p fd. destruct (decide (p = pid)) as [->|].
        -- rewrite lookup_insert, (sr_open _ _ Hr), E. cbn. unfold get_fd, fdtable_default.
           destruct (replicate MAX_FILES_PER_PROCESS None !! fd) as [x|] eqn:Ex; [|done].
           apply lookup_replicate in Ex as [-> _]. done.
        -- rewrite lookup_insert_ne by done. apply (sr_open _ _ Hr).
      * done.
      * apply (sr_objs _ _ Hr).
      * done.
  - (* open *)
    unfold s_open. rewrite Hnm. cbn in *. unfold dispatch_open in *.
    unfold fs_lookup in *. destruct (files (fs n) !! name) as [m|] eqn:El.
    + destruct (pmap n !! pid) as [t|] eqn:Et; [|by destruct Hb].
      rewrite (least_free_spec n a pid t) by done.
      unfold allocate_fd in *. destruct (first_none t) as [fid|] eqn:Ef; cbn in *; [|done].
      apply first_none_Some in Ef as [Ef1 Ef2].
      assert (Hlt : fid < length t) by (by eapply lookup_lt_Some).
      destruct (fo_names _ Hfs _ _ El) as [mm Hmm].
      destruct (fo_nodes _ Hfs _ _ Hmm) as [Hok Hlt2].
      destruct (opt_rel_Some n a m mm Hr Hmm) as (o & Ho & Hor).
      rewrite Ho. rewrite !list_insert_insert.
      destruct (is_truncate flags) eqn:Etr.
      * unfold fs_truncate in *. rewrite El, Hmm in *. unfold memnode_truncate in *.
        destruct (obj_rel_cases m mm o Hok Hor) as [(H1 & H2 & ->)|(f & ac & H1 & H2 & -> & Hw & Hc)];
          rewrite H1, ?H2 in *.
        -- cbn in *. split; [done|]. unfold deallocate_fd.
           rewrite list_lookup_insert by done. cbn. rewrite list_insert_insert, list_insert_id by done.
           rewrite insert_id by done. rewrite insert_id by done.
           by destruct n as [? [? ? ?]].
        -- destruct (is_writable (fmodes f)) eqn:Ew; cbn in *.
           ++ split; [done|]. split; cbn.
              ** by eapply sr_procs_ins.
              ** apply (sr_open_set n a pid t fid (mkFd m flags 0)); auto.
              ** done.
              ** apply sr_objs_ins; [done|]. cbn. split; [done|]. eexists. split; [done|].
                 split; [done|]. apply content_rel_truncate.
              ** done.
           ++ split; [done|]. unfold deallocate_fd.
              rewrite list_lookup_insert by done. cbn. rewrite list_insert_insert, list_insert_id by done.
              rewrite insert_id by done. rewrite insert_id by done.
              by destruct n as [? [? ? ?]].
      * cbn. split; [done|]. split; cbn.
        -- by eapply sr_procs_ins.
        -- apply (sr_open_set n a pid t fid (mkFd m flags 0)); auto.
        -- done.
        -- apply (sr_objs _ _ Hr).
        -- done.
    + destruct (is_create flags) eqn:Ec; cbn in *; [|done].
      destruct (pmap n !! pid) as [t|] eqn:Et; [|by destruct Hb].
      rewrite (least_free_spec n a pid t) by done.
      unfold allocate_fd in *. destruct (first_none t) as [fid|] eqn:Ef; cbn in *; [|done].
      apply first_none_Some in Ef as [Ef1 Ef2].
      assert (Hlt : fid < length t) by (by eapply lookup_lt_Some).
      unfold fs_create, fs_insert_node in *. rewrite El in *. cbn in *.
      rewrite !list_insert_insert.
      split; [done|]. rewrite Hnx. split; cbn.
      * by eapply sr_procs_ins.
      * apply (sr_open_set n a pid t fid (mkFd (nextmno (fs n)) flags 0)); auto.
      * by rewrite Hnm, Hnx.
      * rewrite Hnx. apply sr_objs_ins; [done|]. cbn. split; [done|]. eexists. split; [done|].
        split; [done|]. apply content_rel_new.
      * by rewrite Hnx.
  - (* write *)
    rewrite with_mnode_spec in *. unfold s_write. rewrite (sr_open _ _ Hr).
    destruct (pmap n !! pid) as [t|] eqn:Et; cbn in *; [|done].
    destruct (get_fd t fd) as [e|] eqn:Ee; cbn in *; [|done].
    unfold dispatch_write in *. rewrite Et, Ee in *.
    destruct (is_write (fd_flags e)) eqn:Ewf; cbn in *; [|done].
    apply get_fd_Some in Ee as Ee'. assert (Hlt : fd < length t) by (by eapply lookup_lt_Some).
    destruct (mnodes (fs n) !! fd_mnode e) as [m|] eqn:Em.
    + destruct (opt_rel_Some n a _ m Hr Em) as (o & Ho & Hor). rewrite Ho.
      destruct (fo_nodes _ Hfs _ _ Em) as [Hok _].
      destruct (obj_rel_cases _ m o Hok Hor) as [(H1 & H2 & ->)|(f & ac & H1 & H2 & -> & Hw & Hc)].
      * (* directory *)
        assert (forall c, fs_write avail (fs n) (fd_mnode e) d c =
           (Err PermissionError, mkFs (<[fd_mnode e:=m]> (mnodes (fs n))) (files (fs n)) (nextmno (fs n)))) as Hfw.
        { intros c. unfold fs_write. rewrite Em. unfold memnode_write. by rewrite H1. }
        assert (fs_file_info (fs n) (fd_mnode e) = Ok (mkInfo 1 0)) as Hfi.
        { unfold fs_file_info. by rewrite Em, H1. }
        rewrite insert_id in Hfw by done.
        rewrite Hfi in *.
        destruct off as [o|]; [|destruct (is_append (fd_flags e))]; cbn in *; rewrite Hfw in *; cbn in *;
          (split; [done|]; by destruct n as [? [? ? ?]]).
      * assert (fs_file_info (fs n) (fd_mnode e) = Ok (mkInfo 2 (length (concat (mcache f))))) as Hfi.
        { unfold fs_file_info. rewrite Em, H1, H2. by rewrite get_size_content. }
        rewrite Hfi in *.
        set (curr := match off with Some o => Ok o | None => _ end) in *.
        set (pos := match off with Some o => o | None => if is_append (fd_flags e) then asize ac else fd_offset e end).
        assert (curr = Ok pos) as Hcur.
        { subst curr pos. destruct off; [done|]. destruct (is_append (fd_flags e)); [|done].
          destruct Hc as [-> _]. done. }
        rewrite Hcur in *. clear curr Hcur.
        unfold fs_write in *. rewrite Em in *.
        destruct (is_writable (fmodes f)) eqn:Ewr; cbn [negb] in *.
        -- destruct (memnode_write_spec avail m f d pos H1 H2 Hw Ewr) as (f' & Hmw & Hmo & Hcc).
           { intros Hx. destruct (memnode_write avail m d pos) as [r' m'] eqn:Ex.
             cbn in Hx. subst r'. cbn in Hb. by destruct Hb. }
           rewrite Hmw in *. cbn. 
           assert (obj_rel (mkNode (mn_num m) (mn_name m) (mn_type m) (Some f'))
                     (AReg (fmodes f) (a_write ac pos d))) as Hor'.
           { cbn. split; [done|]. exists f'. split; [done|]. split; [done|].
             rewrite Hcc. by apply content_rel_write. }
           destruct off; cbn.
           ++ split; [done|]. split; cbn.
              ** apply (sr_procs _ _ Hr).
              ** apply (sr_open _ _ Hr).
              ** done.
              ** by apply sr_objs_ins.
              ** done.
           ++ split; [done|]. split; cbn.
              ** by eapply sr_procs_ins.
              ** apply (sr_open_set n a pid t fd (mkFd (fd_mnode e) (fd_flags e) _)); auto.
              ** done.
              ** by apply sr_objs_ins.
              ** done.
        -- assert (memnode_write avail m d pos = (Err PermissionError, m)) as Hmw.
           { unfold memnode_write. by rewrite H1, H2, Ewr. }
           rewrite Hmw in *. cbn. rewrite insert_id by done.
           split; [done|]. by destruct n as [? [? ? ?]].
    + rewrite (opt_rel_None n a) by done.
      assert (forall c, fs_write avail (fs n) (fd_mnode e) d c = (Err InvalidFile, fs n)) as Hfw.
      { intros c. unfold fs_write. by rewrite Em. }
      assert (fs_file_info (fs n) (fd_mnode e) = Panic) as Hfi.
      { unfold fs_file_info. by rewrite Em. }
      rewrite Hfi in *.
      destruct off as [o|]; [|destruct (is_append (fd_flags e))]; cbn in *;
        rewrite ?Hfw in *; cbn in *; try (by destruct Hb);
        (split; [done|]; by destruct n).
  - (* read *)
    rewrite with_mnode_spec in *. unfold s_read. rewrite (sr_open _ _ Hr).
    destruct (pmap n !! pid) as [t|] eqn:Et; cbn in *; [|done].
    destruct (get_fd t fd) as [e|] eqn:Ee; cbn in *; [|done].
    rewrite Et, Ee in *.
    destruct (is_read (fd_flags e)) eqn:Ewf; cbn in *; [|done].
    apply get_fd_Some in Ee as Ee'. assert (Hlt : fd < length t) by (by eapply lookup_lt_Some).
    unfold fs_read in *.
    destruct (mnodes (fs n) !! fd_mnode e) as [m|] eqn:Em.
    + destruct (opt_rel_Some n a _ m Hr Em) as (o & Ho & Hor). rewrite Ho.
      destruct (fo_nodes _ Hfs _ _ Em) as [Hok _].
      destruct (obj_rel_cases _ m o Hok Hor) as [(H1 & H2 & ->)|(f & ac & H1 & H2 & -> & Hw & Hc)].
      * unfold memnode_read. rewrite H1. done.
      * destruct (is_readable (fmodes f)) eqn:Erd.
        2:{ unfold memnode_read. rewrite H1, H2, Erd. done. }
        cbn [negb].
        set (pos := match off with Some o => o | None => fd_offset e end).
        replace (match off with Some o => o | None => fd_offset e end) with pos by done.
        assert (match off with None => fd_offset e | Some o => o end = pos) as Hpos by done.
        rewrite Hpos in *.
        destruct (memnode_read_spec m f len pos H1 H2 Hw Erd) as (buf & Hmr & Hbuf).
        rewrite Hmr in *. rewrite (content_rel_read _ _ _ _ Hc).
        cbn. rewrite Hbuf. split; [done|].
        destruct off; [done|]. split; cbn.
        -- by eapply sr_procs_ins.
        -- apply (sr_open_set n a pid t fd (mkFd (fd_mnode e) (fd_flags e) _)); auto.
        -- done.
        -- apply (sr_objs _ _ Hr).
        -- done.
    + rewrite (opt_rel_None n a) by done. done.
  - (* close *)
    cbn in *. rewrite (sr_open _ _ Hr).
    destruct (pmap n !! pid) as [t|] eqn:Et; cbn in *; [|by destruct Hb].
    unfold deallocate_fd in *. unfold get_fd.
    destruct (t !! fd) as [[e|]|] eqn:El; cbn in *; [|done|done].
    split; [done|]. split; cbn.
    + by eapply sr_procs_ins.
    + apply sr_open_del; auto. by eapply lookup_lt_Some.
    + done.
    + apply (sr_objs _ _ Hr).
    + done.
  - (* info *)
    cbn in *. unfold fs_lookup in *.
    destruct (pmap n !! pid) as [t|] eqn:Et.
    2:{ rewrite decide_False; [done|]. rewrite (sr_procs _ _ Hr), Et. by intros []. }
    rewrite decide_True by (apply (sr_procs _ _ Hr); eauto).
    rewrite Hnm. destruct (files (fs n) !! name) as [id|] eqn:El; cbn in *; [|done].
    unfold fs_lookup in *. rewrite Et, El in *.
    destruct (fo_names _ Hfs _ _ El) as [m Em].
    destruct (fo_nodes _ Hfs _ _ Em) as [Hok _].
    destruct (opt_rel_Some n a _ m Hr Em) as (o & Ho & Hor). rewrite Ho.
    unfold fs_file_info. rewrite Em.
    destruct (obj_rel_cases _ m o Hok Hor) as [(H1 & H2 & ->)|(f & ac & H1 & H2 & -> & Hw & Hc)];
      rewrite H1, ?H2; [done|]. cbn. rewrite get_size_content by done.
    destruct Hc as [-> _]. done.
  - (* delete *)
    cbn in *. destruct (pmap n !! pid) as [t|] eqn:Et.
    2:{ rewrite decide_False; [done|]. rewrite (sr_procs _ _ Hr), Et. by intros []. }
    rewrite decide_True by (apply (sr_procs _ _ Hr); eauto).
    unfold lift_fs, fs_delete in *. rewrite Hnm.
    destruct (files (fs n) !! name) as [id|] eqn:El; cbn in *.
    2:{ split; [done|]. by destruct n. }
    split; [done|]. split; cbn.
    + apply (sr_procs _ _ Hr).
    + apply (sr_open _ _ Hr).
    + by rewrite Hnm.
    + by apply sr_objs_del.
    + done.
  - (* rename *)
    cbn in *. destruct (pmap n !! pid) as [t|] eqn:Et.
    2:{ rewrite decide_False; [done|]. rewrite (sr_procs _ _ Hr), Et. by intros []. }
    rewrite decide_True by (apply (sr_procs _ _ Hr); eauto).
    unfold lift_fs, fs_rename, s_rename in *. rewrite Hnm.
    destruct (files (fs n) !! old) as [id|] eqn:El; cbn in *.
    2:{ split; [done|]. by destruct n. }
    case_decide as Heq.
    + subst new. rewrite El in *. unfold fs_delete in *. rewrite El in *. cbn in *.
      rewrite lookup_delete in *. cbn in *. split; [done|]. split; cbn.
      * apply (sr_procs _ _ Hr).
      * apply (sr_open _ _ Hr).
      * by rewrite Hnm.
      * by apply sr_objs_del.
      * done.
    + destruct (files (fs n) !! new) as [id'|] eqn:En.
      * unfold fs_delete in *. rewrite En in *. cbn in *.
        rewrite lookup_delete_ne in * by done. rewrite El in *. cbn in *.
        rewrite lookup_delete_ne, lookup_delete in * by done. cbn.
        split; [done|]. split; cbn.
        -- apply (sr_procs _ _ Hr).
        -- apply (sr_open _ _ Hr).
        -- by rewrite Hnm.
        -- by apply sr_objs_del.
        -- done.
      * rewrite El in *. cbn in *.
        rewrite lookup_delete_ne, En in * by done. cbn.
        split; [done|]. split; cbn.
        -- apply (sr_procs _ _ Hr).
        -- apply (sr_open _ _ Hr).
        -- by rewrite Hnm.
        -- apply (sr_objs _ _ Hr).
        -- done.
  - (* mkdir *)
    cbn in *. destruct (pmap n !! pid) as [t|] eqn:Et.
    2:{ rewrite decide_False; [done|]. rewrite (sr_procs _ _ Hr), Et. by intros []. }
    rewrite decide_True by (apply (sr_procs _ _ Hr); eauto).
    unfold lift_fs, fs_mkdir, fs_insert_node in *. rewrite Hnm.
    destruct (files (fs n) !! name) as [id|] eqn:El; cbn in *.
    { split; [done|]. by destruct n. }
    split; [done|]. split; cbn.
    + apply (sr_procs _ _ Hr).
    + apply (sr_open _ _ Hr).
    + by rewrite Hnm, Hnx.
    + rewrite Hnx. apply sr_objs_ins; [done|]. done.
    + by rewrite Hnx.
Qed.

Lemma to_reply_benign o :
  to_reply o <> RpPanic -> to_reply o <> RpErr OutOfMemory -> benign o.
Proof. intros H1 H2. split; intros ->; cbn in *; done. Qed.

Lemma run_refines n a l :
  node_inv n -> st_rel n a ->
  RpPanic ∉ (run n l).1 -> RpErr OutOfMemory ∉ (run n l).1 ->
  (run n l).1 = (s_run a l.*2).1 /\ st_rel (run n l).2 (s_run a l.*2).2.
Proof.
  revert n a. induction l as [|[av r] l IH]; intros n a Hn Hr H1 H2; [done|].
  cbn in *.
  pose proof (step_refines av n a r Hn Hr) as Hstep.
  pose proof (step_inv av n r Hn) as Hinv.
  destruct (step av n r) as [o n1] eqn:E1. cbn [fst snd] in *.
  destruct (run n1 l) as [os n2] eqn:E2. cbn [fst snd] in *.
  rewrite not_elem_of_cons in H1, H2. destruct H1 as [H1a H1b], H2 as [H2a H2b].
  destruct Hstep as [Hs1 Hs2]; [by apply to_reply_benign|].
  destruct (s_step a r) as [o' a1] eqn:E3. cbn [fst snd] in *.
  specialize (IH n1 a1 Hinv Hs2). rewrite E2 in IH. cbn in IH.
  destruct (IH H1b H2b) as [IH1 IH2].
  destruct (s_run a1 l.*2) as [os' a2] eqn:E4. cbn in *. subst. done.
Qed.
