(** Lemmas behind the property theorems of FsProps. *)
From Verif Require Import Base FileModel FileSpec FileProofs FsModel FsSpec FsProofs FsRefine FsView.

Lemma fd_of_get n pid fd t : pmap n !! pid = Some t -> fd_of n pid fd = get_fd t fd.
Proof. intros H. unfold fd_of. by rewrite H. Qed.

(** Case analysis of a node in a good state. *)
Lemma node_cases n id m :
  node_inv n -> mnodes (fs n) !! id = Some m ->
  (mn_type m = Directory /\ mn_file m = None) \/
  (exists f, mn_type m = RegFile /\ mn_file m = Some f /\ wf_buffers BASE_PAGE_SIZE (mcache f)).
Proof.
  intros Hn Hm. destruct (fo_nodes _ (ni_fs _ Hn) _ _ Hm) as [[_ Hok] _].
  destruct (mn_type m) eqn:E; [left; done|right]. destruct Hok as (f & ? & ?). eauto.
Qed.

(** *** Reads *)
Lemma read_ok n pid fd e c off k :
  node_inv n -> fd_of n pid fd = Some e -> is_read (fd_flags e) = true ->
  bytes_of n (fd_mnode e) = Some c ->
  (exists m, modes_of n (fd_mnode e) = Some m /\ is_readable m = true) ->
  let pos := match off with None => fd_offset e | Some o => o end in
  let data := take k (drop pos c) in
  forall avail,
  to_reply (step avail n (RRead pid fd k off)).1 = RpData data /\
  (step avail n (RRead pid fd k off)).2 =
    match off with
    | Some _ => n
    | None => mkNodeSt (alter (<[fd := Some (mkFd (fd_mnode e) (fd_flags e) (pos + length data))]>) pid (pmap n)) (fs n)
    end.
Proof.
  intros Hn Hfd Hrd Hc (mo & Hmo & Hread) pos data avail.
  unfold fd_of in Hfd. apply bind_Some in Hfd as (t & Ht & He).
  unfold bytes_of in Hc. apply bind_Some in Hc as (m & Hm & Hc).
  apply bind_Some in Hc as (f & Hf & [= <-]).
  unfold modes_of in Hmo. rewrite Hm in Hmo. cbn in Hmo. rewrite Hf in Hmo. injection Hmo as <-.
  destruct (node_cases n _ m Hn Hm) as [[? Hx]|(f' & Hty & Hf' & Hw)]; [congruence|].
  assert (f' = f) by congruence. subst f'.
  cbn [step]. rewrite with_mnode_spec, Ht. unfold get_fd. rewrite He.
  cbn. rewrite Ht. unfold get_fd. rewrite He, Hrd. cbn. unfold fs_read. rewrite Hm. fold pos.
  destruct (memnode_read_spec m f k pos Hty Hf Hw Hread) as (buf & -> & Hbuf).
  cbn. rewrite Hbuf. split; [done|].
  destruct off; [done|]. unfold set_fd. cbn. f_equal.
  unfold fd_update_offset. cbn.
  apply map_eq. intros p. destruct (decide (p = pid)) as [->|].
  - by rewrite lookup_insert, lookup_alter, Ht.
  - by rewrite lookup_insert_ne, lookup_alter_ne.
Qed.

(** A successful read had all permissions. *)
Lemma read_ok_inv avail n pid fd k off d :
  node_inv n -> to_reply (step avail n (RRead pid fd k off)).1 = RpData d ->
  exists e c m, fd_of n pid fd = Some e /\ is_read (fd_flags e) = true /\
    bytes_of n (fd_mnode e) = Some c /\ modes_of n (fd_mnode e) = Some m /\ is_readable m = true.
Proof.
  intros Hn. cbn [step]. rewrite with_mnode_spec.
  destruct (pmap n !! pid) as [t|] eqn:Ht; [|done].
  destruct (get_fd t fd) as [e|] eqn:He; [|done].
  cbn. rewrite Ht, He. destruct (is_read (fd_flags e)) eqn:Hrd; [|done]. cbn.
  unfold fs_read. destruct (mnodes (fs n) !! fd_mnode e) as [m|] eqn:Hm; [|done].
  intros H. exists e.
  unfold memnode_read in H.
  destruct (node_cases n _ m Hn Hm) as [[Hty Hx]|(f' & Hty & Hf' & Hw)]; rewrite Hty in H; [done|].
  rewrite Hf' in H. destruct (is_readable (fmodes f')) eqn:Er; [|done].
  eexists _, _. split; [by rewrite (fd_of_get _ _ _ t)|]. split; [done|].
  unfold bytes_of, modes_of. rewrite Hm. cbn. rewrite Hf'. done.
Qed.

(** *** Writes *)
Definition write_pos (n : node) (e : fdentry) (off : option nat) : nat :=
  match off with
  | Some o => o
  | None => if is_append (fd_flags e)
            then length (default [] (bytes_of n (fd_mnode e))) else fd_offset e
  end.

Lemma write_result avail n pid fd d off :
  node_inv n ->
  let r := step avail n (RWrite pid fd d off) in
  (exists e c m pos c',
    fd_of n pid fd = Some e /\ is_write (fd_flags e) = true /\
    bytes_of n (fd_mnode e) = Some c /\ modes_of n (fd_mnode e) = Some m /\
    is_writable m = true /\ pos = write_pos n e off /\
    bytes_of r.2 (fd_mnode e) = Some c' /\ modes_of r.2 (fd_mnode e) = Some m /\
    (forall id, id <> fd_mnode e -> mnodes (fs r.2) !! id = mnodes (fs n) !! id) /\
    files (fs r.2) = files (fs n) /\ nextmno (fs r.2) = nextmno (fs n) /\
    ((r.1 = Ok (FileAccessed (length d)) /\
      c' = splice pos d (pad (pos + length d) c) /\
      pmap r.2 = match off with
        | Some _ => pmap n
        | None => alter (<[fd := Some (mkFd (fd_mnode e) (fd_flags e) (pos + length d))]>) pid (pmap n)
        end)
     \/ (r.1 = Err OutOfMemory /\ pmap r.2 = pmap n /\
         exists k, k <= pos + length d /\ c' = pad k c)))
  \/ (r.2 = n /\ ((exists er, r.1 = Err er /\ er <> OutOfMemory) \/
        (r.1 = Panic /\ off = None /\ exists e, fd_of n pid fd = Some e /\
           is_write (fd_flags e) = true /\ is_append (fd_flags e) = true /\
           mnodes (fs n) !! fd_mnode e = None))).
Proof.
  intros Hn r. subst r. cbn [step]. rewrite with_mnode_spec.
  destruct (pmap n !! pid) as [t|] eqn:Ht.
  2:{ right. split; [done|]. left. eexists. split; done. }
  destruct (get_fd t fd) as [e|] eqn:He.
  2:{ right. split; [done|]. left. eexists. split; done. }
  assert (Hfd : fd_of n pid fd = Some e) by (by rewrite (fd_of_get _ _ _ t)).
  cbn. unfold dispatch_write. rewrite Ht, He.
  destruct (is_write (fd_flags e)) eqn:Hw; cbn.
  2:{ right. split; [done|]. left. eexists. split; done. }
  destruct (mnodes (fs n) !! fd_mnode e) as [m|] eqn:Hm.
  2:{ right.
      assert (forall c, fs_write avail (fs n) (fd_mnode e) d c = (Err InvalidFile, fs n)) as Hfw.
      { intros c. unfold fs_write. by rewrite Hm. }
      assert (fs_file_info (fs n) (fd_mnode e) = Panic) as Hfi.
      { unfold fs_file_info. by rewrite Hm. }
      rewrite Hfi.
      destruct off as [o|]; [|destruct (is_append (fd_flags e)) eqn:Hap]; cbn; rewrite ?Hfw; cbn.
      - split; [by destruct n|]. left. eexists; split; done.
      - split; [done|]. right. split; [done|]. split; [done|]. eauto 10.
      - split; [by destruct n|]. left. eexists; split; done. }
  destruct (node_cases n _ m Hn Hm) as [[Hty Hx]|(f & Hty & Hf & Hwf)].
  - right.
    assert (forall c, fs_write avail (fs n) (fd_mnode e) d c = (Err PermissionError, fs n)) as Hfw.
    { intros c. unfold fs_write. rewrite Hm. unfold memnode_write. rewrite Hty.
      rewrite insert_id by done. by destruct (fs n). }
    assert (fs_file_info (fs n) (fd_mnode e) = Ok (mkInfo 1 0)) as Hfi.
    { unfold fs_file_info. by rewrite Hm, Hty. }
    rewrite Hfi.
    destruct off as [o|]; [|destruct (is_append (fd_flags e)) eqn:Hap]; cbn; rewrite ?Hfw; cbn;
      (split; [by destruct n|]; left; eexists; split; done).
  - assert (fs_file_info (fs n) (fd_mnode e) = Ok (mkInfo 2 (length (concat (mcache f))))) as Hfi.
    { unfold fs_file_info. rewrite Hm, Hty, Hf. by rewrite get_size_content. }
    rewrite Hfi.
    assert (Hbo : bytes_of n (fd_mnode e) = Some (concat (mcache f))).
    { unfold bytes_of. rewrite Hm. cbn. by rewrite Hf. }
    assert (Hmo : modes_of n (fd_mnode e) = Some (fmodes f)).
    { unfold modes_of. rewrite Hm. cbn. by rewrite Hf. }
    set (curr := match off with Some o => Ok o | None => _ end).
    assert (curr = Ok (write_pos n e off)) as ->.
    { subst curr. unfold write_pos. rewrite Hbo. destruct off; [done|]. by destruct (is_append _). }
    set (pos := write_pos n e off).
    unfold fs_write. rewrite Hm. unfold memnode_write. rewrite Hty, Hf.
    destruct (is_writable (fmodes f)) eqn:Ewr; cbn [negb].
    2:{ right. rewrite insert_id by done. cbn. split; [|left; eexists; split; done].
        by destruct n as [? [? ? ?]]. }
    left. 
    destruct (write_file_spec BASE_PAGE_SIZE avail f d pos BPS_pos Hwf) as (Hw' & Hfm & Hres).
    destruct (write_file BASE_PAGE_SIZE avail f d pos) as [r f'] eqn:Ewf. cbn [fst snd] in *.
    exists e, (concat (mcache f)), (fmodes f), pos, (concat (mcache f')).
    do 6 (split; [done|]).
    case_decide as Hoom.
    + destruct Hres as [-> Hcc]. cbn.
      split; [unfold bytes_of; cbn; rewrite lookup_insert; done|].
      split; [unfold modes_of; cbn; rewrite lookup_insert; cbn; by rewrite Hfm|].
      split; [intros id Hid; by rewrite lookup_insert_ne|].
      split; [done|]. split; [done|].
      right. split; [done|]. split; [done|]. eexists. split; [|done]. lia.
    + destruct Hres as [-> Hcc]. cbn.
      assert (forall pm, bytes_of (mkNodeSt pm (mkFs (<[fd_mnode e := mkNode (mn_num m) (mn_name m) RegFile (Some f')]> (mnodes (fs n))) (files (fs n)) (nextmno (fs n)))) (fd_mnode e) = Some (concat (mcache f'))) as Hb'.
      { intros. unfold bytes_of. cbn. by rewrite lookup_insert. }
      assert (forall pm, modes_of (mkNodeSt pm (mkFs (<[fd_mnode e := mkNode (mn_num m) (mn_name m) RegFile (Some f')]> (mnodes (fs n))) (files (fs n)) (nextmno (fs n)))) (fd_mnode e) = Some (fmodes f)) as Hm'.
      { intros. unfold modes_of. cbn. rewrite lookup_insert. cbn. by rewrite Hfm. }
      split; [destruct off; apply Hb'|].
      split; [destruct off; apply Hm'|].
      split; [intros id Hid; destruct off; cbn; by rewrite lookup_insert_ne|].
      split; [by destruct off|]. split; [by destruct off|].
      left. split; [done|]. split; [done|].
      destruct off; [done|]. unfold set_fd, fd_update_offset. cbn.
      apply map_eq. intros p. destruct (decide (p = pid)) as [->|].
      * by rewrite lookup_insert, lookup_alter, Ht.
      * by rewrite lookup_insert_ne, lookup_alter_ne.
Qed.

(** *** Errors change nothing *)
Lemma open_error_no_change n pid name flags modes e :
  (dispatch_open n pid name flags modes).1 = Err e ->
  (dispatch_open n pid name flags modes).2 = n.
Proof.
  unfold dispatch_open.
  destruct (match fs_lookup (fs n) name with None => _ | Some _ => false end); [done|].
  destruct (pmap n !! pid) as [t|] eqn:Et; [|done].
  destruct (allocate_fd t) as [[fid t1]|] eqn:Ea; [|done].
  apply dealloc_alloc in Ea as (Ha1 & -> & Hd).
  destruct (fs_lookup (fs n) name) as [m|] eqn:El.
  - destruct (is_truncate flags); [|done].
    unfold fs_truncate. unfold fs_lookup in El. rewrite El.
    destruct (mnodes (fs n) !! m) as [mm|] eqn:Em.
    + unfold memnode_truncate.
      destruct (mn_type mm); [|destruct (mn_file mm) as [f|]; [destruct (is_writable (fmodes f))|]];
        cbn in *; try done; intros _; rewrite Hd, !insert_id by done; by destruct n as [? [? ? ?]].
    + intros _. cbn in *. rewrite Hd, insert_id by done. by destruct n.
  - unfold fs_create, fs_insert_node. unfold fs_lookup in El. rewrite El. done.
Qed.

Lemma error_no_change avail n r e :
  node_inv n -> (step avail n r).1 = Err e -> e <> OutOfMemory ->
  (forall pid p, r <> RRename pid p p) -> (step avail n r).2 = n.
Proof.
  intros Hn. 
  destruct r as [pid|pid name flags modes|pid fd d off|pid fd len off|pid fd|pid name|pid name|pid old new|pid name modes];
    intros He Hoom Hren.
  - cbn in *. by destruct (pmap n !! pid).
  - cbn in *. by eapply open_error_no_change.
  - destruct (write_result avail n pid fd d off Hn) as [H|[H _]]; [|done].
    destruct H as (? & ? & ? & ? & ? & H). destruct_and!. rewrite He in *. naive_solver.
  - cbn [step] in *. rewrite with_mnode_spec in *.
    destruct (pmap n !! pid) as [t|] eqn:Ht; [|done].
    destruct (get_fd t fd) as [x|] eqn:Hx; [|done]. cbn in *. rewrite Ht, Hx in *.
    destruct (is_read (fd_flags x)); cbn in *; [|done].
    by destruct (fs_read _ _ _ _) as [[]| |].
  - cbn in *. destruct (pmap n !! pid) as [t|] eqn:Ht; [|done].
    by destruct (deallocate_fd t fd) as [[]].
  - cbn in *. destruct (pmap n !! pid) as [t|] eqn:Ht; [|done].
    destruct (fs_lookup (fs n) name) eqn:El; [|done]. cbn in *. rewrite Ht, El in *.
    by destruct (fs_file_info (fs n) n0).
  - cbn in *. destruct (pmap n !! pid) as [t|] eqn:Ht; [|done].
    unfold lift_fs, fs_delete in *. destruct (files (fs n) !! name); cbn in *; [done|]. by destruct n.
  - cbn in *. destruct (pmap n !! pid) as [t|] eqn:Ht; [|done].
    unfold lift_fs, fs_rename in *.
    destruct (files (fs n) !! old) as [id|] eqn:Eo; cbn in *; [|by destruct n].
    assert (old <> new) as Hne by (intros ->; by eapply Hren).
    exfalso. destruct (files (fs n) !! new) eqn:En.
    + unfold fs_delete in *. rewrite En in *. cbn in *.
      rewrite lookup_delete_ne in He by done. rewrite Eo in He. cbn in He.
      rewrite lookup_delete_ne, lookup_delete in He by done. done.
    + rewrite Eo in He. cbn in He. by rewrite lookup_delete_ne, En in He by done.
  - cbn in *. destruct (pmap n !! pid) as [t|] eqn:Ht; [|done].
    unfold lift_fs, fs_mkdir, fs_insert_node in *. destruct (files (fs n) !! name); cbn in *; [by destruct n|done].
Qed.

(** *** Descriptors *)
Definition touches_fd (r : req) (out : res nresult) (pid : N) (fd : nat) : Prop :=
  match r with
  | ROpen p _ _ _ => p = pid /\ out = Ok (FileOpened fd)
  | RWrite p f _ None => p = pid /\ f = fd
  | RRead p f _ None => p = pid /\ f = fd
  | RClose p f => p = pid /\ f = fd
  | _ => False
  end.

Lemma fd_of_insert n pid t s p0 fd0 :
  fd_of (mkNodeSt (<[pid := t]> (pmap n)) s) p0 fd0 =
  if decide (p0 = pid) then mjoin (t !! fd0) else fd_of n p0 fd0.
Proof.
  unfold fd_of. cbn. case_decide as H.
  - subst. by rewrite lookup_insert.
  - by rewrite lookup_insert_ne.
Qed.

Lemma open_result avail n pid name flags modes :
  node_inv n ->
  let r := step avail n (ROpen pid name flags modes) in
  match r.1 with
  | Ok (FileOpened fd) =>
    exists t id s', pmap n !! pid = Some t /\ first_none t = Some fd /\
      pmap r.2 = <[pid := <[fd := Some (mkFd id flags 0)]> t]> (pmap n) /\
      fs r.2 = s' /\
      ((names n name = Some id /\
        s' = if is_truncate flags then (fs_truncate (fs n) name).2 else fs n) /\
        (is_truncate flags = true -> (fs_truncate (fs n) name).1 = Ok tt)
       \/ (names n name = None /\ is_create flags = true /\
           id = nextmno (fs n) /\ s' = (fs_create (fs n) name modes).2))
  | Ok _ => False
  | Err _ => r.2 = n
  | Panic => pmap n !! pid = None
  end.
Proof.
  intros Hn r.
  assert (forall e, r.1 = Err e -> r.2 = n) as Herr.
  { intros e He. by eapply open_error_no_change. }
  subst r. cbn [step] in *. unfold dispatch_mut in *. unfold dispatch_open in *. unfold names.
  unfold fs_lookup in *.
  destruct (files (fs n) !! name) as [m|] eqn:El.
  - destruct (pmap n !! pid) as [t|] eqn:Et; [|done].
    unfold allocate_fd in *. destruct (first_none t) as [fid|] eqn:Ef; cbn in *; [|done].
    destruct (is_truncate flags) eqn:Etr.
    + destruct (fs_truncate (fs n) name) as [[[]|e|] s'] eqn:Ett; cbn in *.
      * rewrite list_insert_insert. exists t, m, s'. do 4 (split; [done|]). left. done.
      * eauto.
      * exfalso. unfold fs_truncate in Ett. rewrite El in Ett.
        destruct (fo_names _ (ni_fs _ Hn) _ _ El) as [mm Hmm]. rewrite Hmm in Ett.
        unfold memnode_truncate in Ett.
        destruct (node_cases n _ mm Hn Hmm) as [[Hty Hx]|(f & Hty & Hf & Hwf)];
          rewrite Hty in Ett; [done|]. rewrite Hf in Ett. by destruct (is_writable (fmodes f)).
    + cbn. rewrite list_insert_insert. exists t, m, (fs n). do 4 (split; [done|]). left. done.
  - destruct (is_create flags) eqn:Ec; cbn in *; [|done].
    destruct (pmap n !! pid) as [t|] eqn:Et; [|done].
    unfold allocate_fd in *. destruct (first_none t) as [fid|] eqn:Ef; cbn in *; [|done].
    unfold fs_create, fs_insert_node in *. rewrite El in *. cbn in *.
    rewrite list_insert_insert. exists t, (nextmno (fs n)). eexists. do 4 (split; [done|]).
    right. done.
Qed.

Lemma fd_frame avail n r pid fd :
  node_inv n -> ~ touches_fd r (step avail n r).1 pid fd ->
  fd_of (step avail n r).2 pid fd = fd_of n pid fd.
Proof.
  intros Hn Hnt.
  destruct r as [p|p name flags modes|p f d off|p f len off|p f|p name|p name|p old new|p name modes].
  - cbn in *. destruct (pmap n !! p) eqn:E; [done|]. cbn. rewrite fd_of_insert.
    case_decide; [|done]. subst. unfold fd_of. rewrite E. cbn.
    unfold fdtable_default. destruct (replicate MAX_FILES_PER_PROCESS None !! fd) eqn:Ex; [|done].
    by apply lookup_replicate in Ex as [-> _].
  - pose proof (open_result avail n p name flags modes Hn) as H. cbn zeta in H.
    destruct (step avail n (ROpen p name flags modes)) as [o n'] eqn:E. cbn [fst snd] in *.
    destruct o as [[]| |]; try done.
    + destruct H as (t & id & s' & Ht & Hfn & Hp & _).
      unfold fd_of. rewrite Hp. destruct (decide (pid = p)) as [->|].
      * rewrite lookup_insert, Ht. cbn. rewrite list_lookup_insert_ne; [done|].
        intros ->. by apply Hnt.
      * by rewrite lookup_insert_ne.
    + by subst.
    + cbn in E. unfold dispatch_open in E. rewrite H in E.
      destruct (match fs_lookup (fs n) name with None => _ | Some _ => false end); by simplify_eq.
  - destruct (write_result avail n p f d off Hn) as [H|[H _]]; [|by rewrite H].
    destruct H as (e & c & m & pos & c' & Hfd & Hrest). destruct_and! Hrest.
    match goal with H : _ \/ _ |- _ => destruct H as [(Ho & _ & Hp)|(_ & Hp & _)] end.
    + destruct off; [unfold fd_of; by rewrite Hp|].
      unfold fd_of. rewrite Hp. destruct (decide (pid = p)) as [->|].
      * rewrite lookup_alter. destruct (pmap n !! p); [|done]. cbn.
        rewrite list_lookup_insert_ne; [done|]. intros ->. by apply Hnt.
      * by rewrite lookup_alter_ne.
    + unfold fd_of. by rewrite Hp.
  - cbn [step] in *. rewrite with_mnode_spec in *.
    destruct (pmap n !! p) as [t|] eqn:Ht; [|done].
    destruct (get_fd t f) as [x|] eqn:Hx; [|done]. cbn in *. rewrite Ht, Hx in *.
    destruct (is_read (fd_flags x)); cbn in *; [|done].
    destruct (fs_read _ _ _ _) as [[]| |]; cbn; [|done|done].
    destruct off; [done|]. unfold set_fd. rewrite fd_of_insert. case_decide; [|done].
    subst. unfold fd_of. rewrite Ht. cbn. rewrite list_lookup_insert_ne; [done|].
    intros ->. by apply Hnt.
  - cbn in *. destruct (pmap n !! p) as [t|] eqn:Ht; [|done].
    unfold deallocate_fd. destruct (t !! f) as [[e|]|] eqn:El; cbn; [|done|done].
    rewrite fd_of_insert. case_decide; [|done]. subst. unfold fd_of. rewrite Ht. cbn.
    rewrite list_lookup_insert_ne; [done|]. intros ->. by apply Hnt.
  - cbn in *. destruct (pmap n !! p) as [t|] eqn:Ht; [|done].
    destruct (fs_lookup (fs n) name) eqn:El; [|done]. cbn in *. rewrite Ht, El in *.
    by destruct (fs_file_info (fs n) n0).
  - cbn in *. by destruct (pmap n !! p) as [t|] eqn:Ht.
  - cbn in *. by destruct (pmap n !! p) as [t|] eqn:Ht.
  - cbn in *. by destruct (pmap n !! p) as [t|] eqn:Ht.
Qed.

Lemma open_least avail n pid name flags modes fd :
  node_inv n -> (step avail n (ROpen pid name flags modes)).1 = Ok (FileOpened fd) ->
  fd < MAX_FILES_PER_PROCESS /\ fd_of n pid fd = None /\
  (forall j, j < fd -> is_Some (fd_of n pid j)) /\
  exists id, fd_of (step avail n (ROpen pid name flags modes)).2 pid fd = Some (mkFd id flags 0).
Proof.
  intros Hn H. pose proof (open_result avail n pid name flags modes Hn) as Ho. cbn zeta in Ho.
  rewrite H in Ho. destruct Ho as (t & id & s' & Ht & Hfn & Hp & _).
  apply first_none_Some in Hfn as [H1 H2].
  assert (fd < length t) by (by eapply lookup_lt_Some).
  assert (forall j, fd_of n pid j = mjoin (t !! j)) as Hfd.
  { intros j. unfold fd_of. by rewrite Ht. }
  split_and!.
  - rewrite <- (ni_len _ Hn _ _ Ht). done.
  - by rewrite Hfd, H1.
  - intros j Hj. destruct (H2 j Hj) as [e He]. rewrite Hfd, He. eauto.
  - exists id. unfold fd_of. rewrite Hp, lookup_insert. cbn. by rewrite list_lookup_insert.
Qed.

Lemma open_full avail n pid name flags modes :
  node_inv n -> registered n pid -> (forall j, j < MAX_FILES_PER_PROCESS -> is_Some (fd_of n pid j)) ->
  exists e, step avail n (ROpen pid name flags modes) = (Err e, n).
Proof.
  intros Hn [t Ht] Hall.
  assert (first_none t = None) as Hf.
  { apply first_none_None. intros i Hi. rewrite (ni_len _ Hn _ _ Ht) in Hi.
    destruct (Hall i Hi) as [e He]. unfold fd_of in He. rewrite Ht in He. cbn in He.
    destruct (t !! i) as [[x|]|] eqn:E; try done. eauto. }
  cbn. unfold dispatch_open.
  destruct (match fs_lookup (fs n) name with None => _ | Some _ => false end); [eauto|].
  rewrite Ht. unfold allocate_fd. rewrite Hf. cbn. eauto.
Qed.

Lemma close_ok avail n pid fd :
  node_inv n -> registered n pid ->
  match fd_of n pid fd with
  | Some _ => (step avail n (RClose pid fd)).1 = Ok (FileClosed fd) /\
              fd_of (step avail n (RClose pid fd)).2 pid fd = None /\
              fs (step avail n (RClose pid fd)).2 = fs n
  | None => step avail n (RClose pid fd) = (Err InvalidFileDescriptor, n)
  end.
Proof.
  intros Hn [t Ht]. cbn. unfold fd_of at 1. rewrite Ht. cbn. unfold deallocate_fd.
  destruct (t !! fd) as [[e|]|] eqn:El; cbn; [|done|done].
  split; [done|]. split; [|done]. unfold fd_of. cbn. rewrite lookup_insert. cbn.
  rewrite list_lookup_insert by (by eapply lookup_lt_Some). done.
Qed.

Lemma closed_unusable avail n pid fd :
  fd_of n pid fd = None ->
  (forall d off, step avail n (RWrite pid fd d off) = (Err InvalidFileDescriptor, n)) /\
  (forall k off, step avail n (RRead pid fd k off) = (Err InvalidFileDescriptor, n)).
Proof.
  intros H. unfold fd_of in H.
  split; intros; cbn [step]; rewrite with_mnode_spec;
    (destruct (pmap n !! pid) as [t|]; [|done]); unfold get_fd; cbn in H; by rewrite H.
Qed.

(** *** Panics *)
Lemma panic_iff avail n r :
  node_inv n ->
  (step avail n r).1 = Panic <->
  match r with
  | ROpen pid name flags _ => ~ registered n pid /\ (is_create flags = true \/ is_Some (names n name))
  | RClose pid _ => ~ registered n pid
  | RWrite pid fd _ None =>
    exists e, fd_of n pid fd = Some e /\ is_write (fd_flags e) = true /\
      is_append (fd_flags e) = true /\ mnodes (fs n) !! fd_mnode e = None
  | _ => False
  end.
Proof.
  intros Hn.
  destruct r as [pid|pid name flags modes|pid fd d off|pid fd len off|pid fd|pid name|pid name|pid old new|pid name modes].
  - cbn. by destruct (pmap n !! pid).
  - split.
    + intros H. pose proof (open_result avail n pid name flags modes Hn) as Ho. cbn zeta in Ho.
      rewrite H in Ho. split; [unfold registered; rewrite Ho; by intros []|].
      cbn in H. unfold dispatch_open in H. unfold names, fs_lookup in *.
      destruct (files (fs n) !! name); [right; eauto|].
      destruct (is_create flags); [by left|done].
    + intros [H1 H2]. cbn. unfold dispatch_open. unfold names, fs_lookup in *.
      destruct (pmap n !! pid) eqn:E; [exfalso; apply H1; unfold registered; rewrite E; eauto|].
      destruct (files (fs n) !! name); [done|].
      destruct H2 as [->|[? ?]]; done.
  - destruct (write_result avail n pid fd d off Hn) as [H|[_ H]].
    + destruct H as (e & c & m & pos & c' & Hfd & ? & Hb & H).
      split.
      * intros HP. rewrite HP in H. naive_solver.
      * destruct off; [done|]. intros (e' & Hfd' & _ & _ & Hnone).
        assert (e' = e) by congruence. subst. unfold bytes_of in Hb. by rewrite Hnone in Hb.
    + destruct H as [(er & He & _)|(HP & -> & Hx)].
      * split; [by rewrite He|]. destruct off; [done|].
        intros (e & Hfd & Hw & Ha & Hm). exfalso.
        cbn [step] in He. rewrite with_mnode_spec in He. unfold fd_of in Hfd.
        destruct (pmap n !! pid) as [t|] eqn:Ht; [|done]. cbn in Hfd.
        unfold get_fd in He. rewrite Hfd in He. cbn in He. unfold dispatch_write, get_fd in He.
        rewrite Ht, Hfd, Hw, Ha in He. cbn in He. unfold fs_file_info in He.
        by rewrite Hm in He.
      * done.
  - split; [|done]. cbn [step]. rewrite with_mnode_spec.
    destruct (pmap n !! pid) as [t|] eqn:Ht; [|done].
    destruct (get_fd t fd) as [x|] eqn:Hx; [|done]. cbn in *. rewrite Ht, Hx in *.
    destruct (is_read (fd_flags x)); cbn in *; [|done].
    unfold fs_read. destruct (mnodes (fs n) !! fd_mnode x) as [m|] eqn:Hm; [|done].
    destruct (node_cases n _ m Hn Hm) as [[Hty Hxx]|(f & Hty & Hf & Hwf)].
    + unfold memnode_read. by rewrite Hty.
    + destruct (is_readable (fmodes f)) eqn:Er.
      * destruct (memnode_read_spec m f len (match off with None => fd_offset x | Some o => o end) Hty Hf Hwf Er)
          as (buf & -> & _). done.
      * unfold memnode_read. by rewrite Hty, Hf, Er.
  - cbn. unfold registered. destruct (pmap n !! pid) as [t|] eqn:Ht.
    + unfold deallocate_fd. split.
      * destruct (t !! fd) as [[]|]; done.
      * intros H. exfalso. eauto.
    + split; [intros _; by intros []|done].
  - split; [|done]. cbn. destruct (pmap n !! pid) as [t|] eqn:Ht; [|done].
    destruct (fs_lookup (fs n) name) as [id|] eqn:El; [|done]. cbn in *. rewrite Ht, El.
    destruct (fo_names _ (ni_fs _ Hn) _ _ El) as [m Hm]. unfold fs_file_info. rewrite Hm.
    destruct (node_cases n _ m Hn Hm) as [[Hty Hxx]|(f & Hty & Hf & Hwf)]; rewrite Hty; [done|].
    by rewrite Hf.
  - split; [|done]. cbn. destruct (pmap n !! pid) as [t|] eqn:Ht; [|done].
    unfold lift_fs, fs_delete. by destruct (files (fs n) !! name).
  - split; [|done]. cbn. destruct (pmap n !! pid) as [t|] eqn:Ht; [|done].
    unfold lift_fs, fs_rename. destruct (files (fs n) !! old); [|done].
    set (s1 := match files (fs n) !! new with Some _ => _ | None => _ end).
    destruct (files s1 !! old); [|done]. by destruct (delete old (files s1) !! new).
  - split; [|done]. cbn. destruct (pmap n !! pid) as [t|] eqn:Ht; [|done].
    unfold lift_fs, fs_mkdir, fs_insert_node. by destruct (files (fs n) !! name).
Qed.
