(** Property theorems C01-C08, C10 of the in-memory file system.
    Statements use FsSpec/FileSpec (abstract file system) and FsView
    (observations); [reachable n] = reached from boot by some request history. *)
From Verif Require Import Base FileModel FileSpec FileProofs FsModel FsSpec FsProofs FsRefine FsView FsLemmas FsLemmas2.

(** *** A concrete history used to show that hypotheses are satisfiable. *)
Definition demo : list (nat * req) :=
  [(9, RAddProcess 1); (9, RAddProcess 2);
   (9, ROpen 1 "/a" (N.lor O_RDWR O_CREAT) 6); (9, ROpen 2 "/a" O_RDWR 0);
   (9, RWrite 1 0 [1; 2; 3]%N None); (9, RWrite 2 0 [7]%N (Some 5));
   (9, RRead 1 0 10 (Some 0)); (9, RRead 2 0 2 None); (9, RInfo 1 "/a")]%string.
Definition demo_state : node := (run node_init demo).2.
Example demo_runs :
  (run node_init demo).1 =
  [RpOk; RpOk; RpFd 0; RpFd 0; RpCount 3; RpCount 1;
   RpData [1; 2; 3; 0; 0; 7]%N; RpData [1; 2]%N; RpInfo 2 6].
Proof. vm_compute. reflexivity. Qed.
Lemma demo_reachable : reachable demo_state.
Proof. exists demo. reflexivity. Qed.

(** ** C01 *)
(** Every history without kernel crash and without heap exhaustion is answered
    exactly as the abstract file system (sizes and byte functions) answers it. *)
Theorem C01_histories_match_byte_array_spec (h : list (nat * req)) :
  RpPanic ∉ (run node_init h).1 -> RpErr OutOfMemory ∉ (run node_init h).1 ->
  (run node_init h).1 = (s_run a_init h.*2).1.
Proof. intros H1 H2. by apply (run_refines _ _ h node_init_inv st_rel_init). Qed.
Print Assumptions C01_histories_match_byte_array_spec.
Example C01_hyps_met :
  RpPanic ∉ (run node_init demo).1 /\ RpErr OutOfMemory ∉ (run node_init demo).1.
Proof. rewrite demo_runs. split; set_solver. Qed.

(** A read returns exactly the file's bytes in the requested range. *)
Theorem C01_read_returns_bytes avail n pid fd e c m k off :
  reachable n -> fd_of n pid fd = Some e -> is_read (fd_flags e) = true ->
  bytes_of n (fd_mnode e) = Some c -> modes_of n (fd_mnode e) = Some m -> is_readable m = true ->
  to_reply (step avail n (RRead pid fd k (Some off))).1 = RpData (take k (drop off c)) /\
  (step avail n (RRead pid fd k (Some off))).2 = n.
Proof.
  intros Hr H1 H2 H3 H4 H5. destruct (read_ok n pid fd e c (Some off) k) with (avail := avail); eauto.
  by apply reachable_inv.
Qed.
Print Assumptions C01_read_returns_bytes.
Example C01_read_hyps_met :
  exists e c m, fd_of demo_state 1 0 = Some e /\ is_read (fd_flags e) = true /\
   bytes_of demo_state (fd_mnode e) = Some c /\ modes_of demo_state (fd_mnode e) = Some m /\
   is_readable m = true /\ c = [1; 2; 3; 0; 0; 7]%N.
Proof. eexists _, _, _. vm_compute. eauto 10. Qed.

(** ** C02 *)
Theorem C02_write_touches_only_its_range avail n pid fd d off k :
  reachable n ->
  let r := step avail n (RWrite pid fd d (Some off)) in
  r.1 = Ok (FileAccessed k) ->
  k = length d /\
  exists e old new, fd_of n pid fd = Some e /\
    bytes_of n (fd_mnode e) = Some old /\ bytes_of r.2 (fd_mnode e) = Some new /\
    length new = Nat.max (length old) (off + length d) /\
    (forall i, i < length old -> i < off \/ off + length d <= i -> new !! i = old !! i) /\
    (forall i, length old <= i < off -> new !! i = Some 0%N) /\
    (forall i, i < length d -> new !! (off + i) = d !! i) /\
    (forall id, id <> fd_mnode e -> bytes_of r.2 id = bytes_of n id) /\
    (forall p, names r.2 p = names n p) /\ (forall p f, fd_of r.2 p f = fd_of n p f).
Proof.
  intros Hr r Hok. subst r. cbv zeta in *. apply reachable_inv in Hr.
  destruct (write_result avail n pid fd d (Some off) Hr) as [H|[_ [(er & He & _)|[He _]]]]; [|congruence|congruence].
  destruct H as (e & c & m & pos & c' & Hfd & Hw & Hb & Hm & Hwm & Hpos & Hb' & Hm' & Hoth & Hfiles & Hnx & Hres).
  destruct Hres as [(Ho & Hc' & Hp)|(Ho & _)]; [|congruence].
  cbn in Hpos. subst pos. split; [congruence|].
  exists e, c, c'. split; [done|]. split; [done|]. split; [done|].
  split. { rewrite Hc', splice_length; rewrite pad_length; lia. }
  assert (Hlk : forall i, c' !! i = if decide (off <= i < off + length d) then d !! (i - off) else pad (off + length d) c !! i).
  { intros i. rewrite Hc'. apply splice_lookup. rewrite pad_length. lia. }
  split. { intros i Hi Hi2. rewrite Hlk, decide_False by lia. unfold pad. by rewrite lookup_app_l. }
  split. { intros i Hi. rewrite Hlk, decide_False by lia. unfold pad. rewrite lookup_app_r by lia.
           apply lookup_replicate. split; [done|lia]. }
  split. { intros i Hi. rewrite Hlk, decide_True by lia. f_equal. lia. }
  split. { intros id Hid. unfold bytes_of. by rewrite Hoth. }
  split. { intros p. unfold names. by rewrite Hfiles. }
  intros p f. unfold fd_of. by rewrite Hp.
Qed.
Print Assumptions C02_write_touches_only_its_range.
Example C02_hyps_met :
  (step 9 demo_state (RWrite 1 0 [4; 4]%N (Some 8))).1 = Ok (FileAccessed 2).
Proof. vm_compute. reflexivity. Qed.

(** ** C03 *)
Theorem C03_errors_change_nothing_partial avail n r e :
  reachable n -> (step avail n r).1 = Err e ->
  e <> OutOfMemory -> (forall pid p, r <> RRename pid p p) ->
  (step avail n r).2 = n.
Proof. intros Hr. by apply error_no_change, reachable_inv. Qed.
Print Assumptions C03_errors_change_nothing_partial.
Example C03_hyps_met :
  (step 9 demo_state (RMkDir 1 "/a" 0)).1 = Err AlreadyPresent.
Proof. vm_compute. reflexivity. Qed.

(** The two excluded cases really change the state: heap exhaustion in the middle
    of a growing write leaves the file longer than before ... *)
Definition short_heap_state : node :=
  (run node_init [(9, RAddProcess 1); (9, ROpen 1 "/a" (N.lor O_RDWR O_CREAT) 6);
                  (1, RWrite 1 0 [1]%N None)]%string).2.
Theorem C03_failed_write_keeps_size_refuted :
  exists n r, reachable n /\
    (step 0 n r).1 = Err OutOfMemory /\
    to_reply (step 0 n (RInfo 1 "/a")).1 = RpInfo 2 1 /\
    to_reply (step 0 (step 0 n r).2 (RInfo 1 "/a")).1 = RpInfo 2 (N.to_nat 4096).
Proof.
  exists short_heap_state, (RWrite 1 0 [1]%N (Some (N.to_nat 4096))).
  split; [by eexists|]. vm_compute. auto.
Qed.
Print Assumptions C03_failed_write_keeps_size_refuted.
(** ... and renaming a path to itself answers an error and destroys the file. *)
Theorem C03_C08_rename_to_self_is_noop_refuted :
  exists n p, reachable n /\ is_Some (names n p) /\
    (step 9 n (RRename 1 p p)).1 = Err InvalidFile /\
    names (step 9 n (RRename 1 p p)).2 p = None.
Proof. exists demo_state, "/a"%string. split; [apply demo_reachable|]. vm_compute. eauto. Qed.
Print Assumptions C03_C08_rename_to_self_is_noop_refuted.

(** Permissions: a successful read / write had descriptor flags and file modes. *)
Theorem C03_read_needs_permission avail n pid fd k off d :
  reachable n -> to_reply (step avail n (RRead pid fd k off)).1 = RpData d ->
  exists e c m, fd_of n pid fd = Some e /\ is_read (fd_flags e) = true /\
    bytes_of n (fd_mnode e) = Some c /\ modes_of n (fd_mnode e) = Some m /\ is_readable m = true.
Proof. intros Hr. by apply read_ok_inv, reachable_inv. Qed.
Print Assumptions C03_read_needs_permission.
Theorem C03_write_needs_permission avail n pid fd d off k :
  reachable n -> (step avail n (RWrite pid fd d off)).1 = Ok (FileAccessed k) ->
  exists e c m, fd_of n pid fd = Some e /\ is_write (fd_flags e) = true /\
    bytes_of n (fd_mnode e) = Some c /\ modes_of n (fd_mnode e) = Some m /\ is_writable m = true.
Proof.
  intros Hr Hok. apply reachable_inv in Hr.
  destruct (write_result avail n pid fd d off Hr) as [H|[_ [(er & He & _)|[He _]]]]; [|congruence|congruence].
  destruct H as (e & c & m & p & c' & ?). destruct_and!. eauto 10.
Qed.
Print Assumptions C03_write_needs_permission.
Theorem C03_directories_not_readable_or_writable avail n pid fd e :
  reachable n -> fd_of n pid fd = Some e -> is_dir n (fd_mnode e) ->
  (forall k off d, to_reply (step avail n (RRead pid fd k off)).1 <> RpData d) /\
  (forall d off k, (step avail n (RWrite pid fd d off)).1 <> Ok (FileAccessed k)).
Proof.
  intros Hr Hfd (m & Hm & Hd).
  assert (bytes_of n (fd_mnode e) = None) as Hnone.
  { apply reachable_inv in Hr. destruct (node_cases n _ m Hr Hm) as [[_ Hx]|(f & Hty & _)]; [|congruence].
    unfold bytes_of. rewrite Hm. cbn. by rewrite Hx. }
  split; intros ? ? ? H.
  - apply C03_read_needs_permission in H as (e' & c & ? & ? & ? & ? & _); [|done]. congruence.
  - apply C03_write_needs_permission in H as (e' & c & ? & ? & ? & ? & _); [|done]. congruence.
Qed.
Print Assumptions C03_directories_not_readable_or_writable.
Example C03_dir_hyps_met :
  exists n e, reachable n /\ fd_of n 1 0 = Some e /\ is_dir n (fd_mnode e) /\ is_write (fd_flags e) = true.
Proof.
  exists (run node_init [(0, RAddProcess 1); (0, RMkDir 1 "/d" 6); (0, ROpen 1 "/d" O_RDWR 0)]%string).2.
  eexists. split; [by eexists|]. vm_compute. eauto 10.
Qed.
(** Truncation on open needs a writable mode (part of C05 below). *)

(** ** C04 *)
Theorem C04_open_returns_least_free avail n pid name flags modes fd :
  reachable n -> (step avail n (ROpen pid name flags modes)).1 = Ok (FileOpened fd) ->
  fd < MAX_FILES_PER_PROCESS /\ fd_of n pid fd = None /\
  (forall j, j < fd -> is_Some (fd_of n pid j)) /\
  exists id, fd_of (step avail n (ROpen pid name flags modes)).2 pid fd = Some (mkFd id flags 0).
Proof. intros Hr. by apply open_least, reachable_inv. Qed.
Print Assumptions C04_open_returns_least_free.
Example C04_open_hyps_met :
  (step 9 demo_state (ROpen 1 "/a" O_RDONLY 0)).1 = Ok (FileOpened 1).
Proof. vm_compute. reflexivity. Qed.

Theorem C04_open_fails_when_full avail n pid name flags modes :
  reachable n -> registered n pid ->
  (forall j, j < MAX_FILES_PER_PROCESS -> is_Some (fd_of n pid j)) ->
  exists e, step avail n (ROpen pid name flags modes) = (Err e, n).
Proof. intros Hr. by apply open_full, reachable_inv. Qed.
Print Assumptions C04_open_fails_when_full.
(** All 4096 descriptors can be in use. *)
Definition full_state : node :=
  (run node_init ((0, RAddProcess 1) :: replicate MAX_FILES_PER_PROCESS (0, ROpen 1 "/"%string O_RDONLY 0))).2.
Definition full_table (n : node) : bool :=
  match pmap n !! 1%N with
  | Some t => Nat.eqb (length t) MAX_FILES_PER_PROCESS && forallb (fun o => match o with Some _ => true | None => false end) t
  | None => false
  end.
Lemma full_state_full : full_table full_state = true.
Proof. vm_compute. reflexivity. Qed.
Example C04_full_hyps_met :
  exists n, reachable n /\ registered n 1 /\
   forall j, j < MAX_FILES_PER_PROCESS -> is_Some (fd_of n 1 j).
Proof.
  exists full_state. split; [eexists; unfold full_state; reflexivity|].
  pose proof full_state_full as H. unfold full_table in H.
  destruct (pmap full_state !! 1%N) as [t|] eqn:Et; [|done].
  split; [by eexists|]. intros j Hj. unfold fd_of. rewrite Et. cbn.
  apply andb_true_iff in H as [H1 H2]. rewrite Nat.eqb_eq in H1. rewrite forallb_forall in H2.
  destruct (t !! j) as [o|] eqn:Ej.
  - cbn. apply elem_of_list_lookup_2, elem_of_list_In, H2 in Ej. destruct o; [by eexists|done].
  - apply lookup_ge_None in Ej. lia.
Qed.

Theorem C04_close_invalidates avail n pid fd :
  reachable n -> registered n pid ->
  match fd_of n pid fd with
  | Some _ => (step avail n (RClose pid fd)).1 = Ok (FileClosed fd) /\
              fd_of (step avail n (RClose pid fd)).2 pid fd = None /\
              fs (step avail n (RClose pid fd)).2 = fs n
  | None => step avail n (RClose pid fd) = (Err InvalidFileDescriptor, n)
  end.
Proof. intros Hr. by apply close_ok, reachable_inv. Qed.
Print Assumptions C04_close_invalidates.
Theorem C04_closed_descriptor_unusable avail n pid fd :
  fd_of n pid fd = None ->
  (forall d off, step avail n (RWrite pid fd d off) = (Err InvalidFileDescriptor, n)) /\
  (forall k off, step avail n (RRead pid fd k off) = (Err InvalidFileDescriptor, n)).
Proof. apply closed_unusable. Qed.
Print Assumptions C04_closed_descriptor_unusable.
Example C04_close_hyps_met : registered demo_state 1 /\ is_Some (fd_of demo_state 1 0) /\ fd_of demo_state 1 3 = None.
Proof. vm_compute. eauto. Qed.

(** Which descriptor a request can touch: the one it opens, closes, or reads or
    writes at the cursor; no other descriptor of any process changes. *)
Theorem C04_other_descriptors_unchanged avail n r pid fd :
  reachable n ->
  ~ match r with
    | ROpen p _ _ _ => p = pid /\ (step avail n r).1 = Ok (FileOpened fd)
    | RWrite p f _ None => p = pid /\ f = fd
    | RRead p f _ None => p = pid /\ f = fd
    | RClose p f => p = pid /\ f = fd
    | _ => False
    end ->
  fd_of (step avail n r).2 pid fd = fd_of n pid fd.
Proof. intros Hr H. apply fd_frame; [by apply reachable_inv|]. by destruct r. Qed.
Print Assumptions C04_other_descriptors_unchanged.
Theorem C04_C01_fresh_cursor_at_zero avail n pid name flags modes fd :
  reachable n -> (step avail n (ROpen pid name flags modes)).1 = Ok (FileOpened fd) ->
  exists e, fd_of (step avail n (ROpen pid name flags modes)).2 pid fd = Some e /\
    fd_offset e = 0 /\ fd_flags e = flags.
Proof.
  intros Hr H. destruct (C04_open_returns_least_free _ _ _ _ _ _ _ Hr H) as (_ & _ & _ & id & Hx).
  eauto.
Qed.
Print Assumptions C04_C01_fresh_cursor_at_zero.

(** ** C05 *)
Theorem C05_open_existing avail n pid name flags modes fd id :
  reachable n -> names n name = Some id ->
  (step avail n (ROpen pid name flags modes)).1 = Ok (FileOpened fd) ->
  let n' := (step avail n (ROpen pid name flags modes)).2 in
  fd_of n' pid fd = Some (mkFd id flags 0) /\
  files (fs n') = files (fs n) /\
  (forall i, i <> id -> mnodes (fs n') !! i = mnodes (fs n) !! i) /\
  (if is_truncate flags
   then bytes_of n' id = Some [] /\ modes_of n' id = modes_of n id
        /\ (exists m, modes_of n id = Some m /\ is_writable m = true)
   else fs n' = fs n).
Proof. intros Hr. by apply open_existing, reachable_inv. Qed.
Print Assumptions C05_open_existing.
Theorem C05_open_creates avail n pid name flags modes fd :
  reachable n -> names n name = None ->
  (step avail n (ROpen pid name flags modes)).1 = Ok (FileOpened fd) ->
  let n' := (step avail n (ROpen pid name flags modes)).2 in
  is_create flags = true /\
  exists id, fd_of n' pid fd = Some (mkFd id flags 0) /\
  names n' name = Some id /\ bytes_of n' id = Some [] /\ modes_of n' id = Some modes /\
  mnodes (fs n) !! id = None /\
  (forall p, p <> name -> names n' p = names n p) /\
  (forall i, i <> id -> mnodes (fs n') !! i = mnodes (fs n) !! i).
Proof. intros Hr. by apply open_create, reachable_inv. Qed.
Print Assumptions C05_open_creates.
Theorem C05_open_missing_without_creat avail n pid name flags modes :
  names n name = None -> is_create flags = false ->
  step avail n (ROpen pid name flags modes) = (Err PermissionError, n).
Proof. apply open_missing. Qed.
Print Assumptions C05_open_missing_without_creat.
Theorem C05_open_error_leaks_nothing avail n pid name flags modes e :
  (step avail n (ROpen pid name flags modes)).1 = Err e ->
  (step avail n (ROpen pid name flags modes)).2 = n.
Proof. apply open_error_no_change. Qed.
Print Assumptions C05_open_error_leaks_nothing.
(** open succeeds whenever it should. *)
Theorem C05_open_succeeds avail n pid name flags modes :
  reachable n -> registered n pid ->
  (exists j, j < MAX_FILES_PER_PROCESS /\ fd_of n pid j = None) ->
  (is_Some (names n name) \/ is_create flags = true) ->
  (is_truncate flags = true -> forall id, names n name = Some id ->
     exists m, modes_of n id = Some m /\ is_writable m = true) ->
  exists fd, (step avail n (ROpen pid name flags modes)).1 = Ok (FileOpened fd).
Proof.
  intros Hr [t Ht] (j & Hj & Hfree) Hex Htr. apply reachable_inv in Hr.
  cbn. unfold dispatch_open, fs_lookup. unfold names in *.
  assert (exists fid, first_none t = Some fid) as [fid Hf].
  { destruct (first_none t) eqn:E; [eauto|]. rewrite first_none_None in E.
    destruct (E j) as [e He]; [rewrite (ni_len _ Hr _ _ Ht); done|].
    unfold fd_of in Hfree. rewrite Ht in Hfree. cbn in Hfree. by rewrite He in Hfree. }
  unfold allocate_fd.
  destruct (files (fs n) !! name) as [id|] eqn:En.
  - rewrite Ht, Hf. cbn. destruct (is_truncate flags); [|eauto].
    destruct (Htr eq_refl id eq_refl) as (m & Hm & Hw).
    unfold fs_truncate. rewrite En. unfold modes_of in Hm.
    destruct (mnodes (fs n) !! id) as [mm|] eqn:Em; [|done]. cbn in Hm.
    unfold memnode_truncate.
    destruct (node_cases n _ mm Hr Em) as [[Hty Hx]|(f & Hty & Hff & _)].
    + rewrite Hx in Hm. done.
    + rewrite Hff in Hm. injection Hm as <-. rewrite Hty, Hff, Hw. cbn. eauto.
  - destruct Hex as [[? ?]|Hc]; [done|]. rewrite Hc, Ht, Hf. cbn.
    unfold fs_create, fs_insert_node. rewrite En. cbn. eauto.
Qed.
Print Assumptions C05_open_succeeds.
Example C05_hyps_met :
  registered demo_state 1 /\ is_Some (names demo_state "/a") /\ names demo_state "/b" = None /\
  (step 9 demo_state (ROpen 1 "/a" (N.lor O_RDWR O_TRUNC) 0)).1 = Ok (FileOpened 1) /\
  (step 9 demo_state (ROpen 1 "/b" (N.lor O_RDWR O_CREAT) 6)).1 = Ok (FileOpened 1) /\
  (step 9 demo_state (ROpen 1 "/" O_TRUNC 6)).1 = Err PermissionError.
Proof. vm_compute. eauto 10. Qed.

(** ** C06 *)
Theorem C06_cursor_read avail n pid fd e c m k :
  reachable n -> fd_of n pid fd = Some e -> is_read (fd_flags e) = true ->
  bytes_of n (fd_mnode e) = Some c -> modes_of n (fd_mnode e) = Some m -> is_readable m = true ->
  let d := take k (drop (fd_offset e) c) in
  let r := step avail n (RRead pid fd k None) in
  to_reply r.1 = RpData d /\
  fd_of r.2 pid fd = Some (mkFd (fd_mnode e) (fd_flags e) (fd_offset e + length d)) /\
  fs r.2 = fs n.
Proof.
  intros Hr H1 H2 H3 H4 H5 d r.
  destruct (read_ok n pid fd e c None k) with (avail := avail) as [Ha Hb]; eauto; [by apply reachable_inv|].
  split; [done|]. subst r. rewrite Hb. cbn. split; [|done].
  unfold fd_of in *. cbn. rewrite lookup_alter. destruct (pmap n !! pid) as [t|]; [|done]. cbn in *.
  rewrite list_lookup_insert; [done|]. destruct (t !! fd) eqn:E; [|done]. by eapply lookup_lt_Some.
Qed.
Print Assumptions C06_cursor_read.
(** A write at the cursor: position, effect and new cursor. *)
Theorem C06_cursor_write avail n pid fd d k :
  reachable n ->
  let r := step avail n (RWrite pid fd d None) in
  r.1 = Ok (FileAccessed k) ->
  k = length d /\
  exists e old, fd_of n pid fd = Some e /\ bytes_of n (fd_mnode e) = Some old /\
    let pos := if is_append (fd_flags e) then length old else fd_offset e in
    fd_of r.2 pid fd = Some (mkFd (fd_mnode e) (fd_flags e) (pos + length d)) /\
    exists new, bytes_of r.2 (fd_mnode e) = Some new /\
      length new = Nat.max (length old) (pos + length d) /\
      (forall i, i < length d -> new !! (pos + i) = d !! i) /\
      (forall i, i < length old -> i < pos \/ pos + length d <= i -> new !! i = old !! i) /\
      (forall i, length old <= i < pos -> new !! i = Some 0%N).
Proof.
  intros Hr r Hok. subst r. cbv zeta in *. apply reachable_inv in Hr.
  destruct (write_result avail n pid fd d None Hr) as [H|[_ [(er & He & _)|[He _]]]]; [|congruence|congruence].
  destruct H as (e & c & m & pos & c' & Hfd & Hw & Hb & Hm & Hwm & Hpos & Hb' & Hm' & Hoth & Hfiles & Hnx & Hres).
  destruct Hres as [(Ho & Hc' & Hp)|(Ho & _)]; [|congruence].
  split; [congruence|]. exists e, c. split; [done|]. split; [done|].
  assert (Hpos2 : pos = if is_append (fd_flags e) then length c else fd_offset e).
  { rewrite Hpos. unfold write_pos. by rewrite Hb. }
  rewrite <- Hpos2. cbn zeta. split.
  { unfold fd_of in Hfd |- *. rewrite Hp, lookup_alter. destruct (pmap n !! pid) as [t|]; [|done]. cbn in *.
    rewrite list_lookup_insert; [done|]. destruct (t !! fd) eqn:E; [|done]. by eapply lookup_lt_Some. }
  exists c'. split; [done|].
  split. { rewrite Hc', splice_length; rewrite pad_length; lia. }
  assert (Hlk : forall i, c' !! i = if decide (pos <= i < pos + length d) then d !! (i - pos) else pad (pos + length d) c !! i).
  { intros i. rewrite Hc'. apply splice_lookup. rewrite pad_length. lia. }
  split. { intros i Hi. rewrite Hlk, decide_True by lia. f_equal. lia. }
  split. { intros i Hi Hi2. rewrite Hlk, decide_False by lia. unfold pad. by rewrite lookup_app_l. }
  intros i Hi. rewrite Hlk, decide_False by lia. unfold pad. rewrite lookup_app_r by lia.
  apply lookup_replicate. split; [done|lia].
Qed.
Print Assumptions C06_cursor_write.
Theorem C06_positional_ops_keep_cursors avail n r p f :
  reachable n ->
  (exists pid fd d o, r = RWrite pid fd d (Some o)) \/ (exists pid fd k o, r = RRead pid fd k (Some o)) ->
  fd_of (step avail n r).2 p f = fd_of n p f.
Proof.
  intros Hr [(pid & fd & d & o & ->)|(pid & fd & k & o & ->)];
    (apply C04_other_descriptors_unchanged; [done|tauto]).
Qed.
Print Assumptions C06_positional_ops_keep_cursors.
(** Consecutive cursor writes on a fresh file, then one read from the start. *)
Theorem C06_writes_then_read avail n pid fd e m ds :
  reachable n -> fd_of n pid fd = Some e -> is_append (fd_flags e) = false ->
  is_read (fd_flags e) = true ->
  bytes_of n (fd_mnode e) = Some [] -> fd_offset e = 0 ->
  modes_of n (fd_mnode e) = Some m -> is_readable m = true ->
  Forall (fun r => exists k, r = RpCount k) (run n (writes pid fd ds)).1 ->
  to_reply (step avail (run n (writes pid fd ds)).2 (RRead pid fd (length (concat ds.*2)) (Some 0))).1
    = RpData (concat ds.*2).
Proof.
  intros Hr H1 H2 H3 H4 H5 H6 H7 H8. apply reachable_inv in Hr.
  destruct (cursor_writes n pid fd e [] ds) as (Hi & Hfd & Hb & Hm & _); auto.
  destruct (read_ok (run n (writes pid fd ds)).2 pid fd _ (concat ds.*2) (Some 0) (length (concat ds.*2)) Hi Hfd H3 Hb)
    with (avail := avail) as [Ha _].
  - exists m. cbn. rewrite Hm. done.
  - rewrite Ha. by rewrite drop_0, firstn_all.
Qed.
Print Assumptions C06_writes_then_read.
Example C06_hyps_met :
  exists n e m, reachable n /\ fd_of n 1 0 = Some e /\ is_append (fd_flags e) = false /\
  is_read (fd_flags e) = true /\
  bytes_of n (fd_mnode e) = Some [] /\ fd_offset e = 0 /\
  modes_of n (fd_mnode e) = Some m /\ is_readable m = true /\
  Forall (fun r => exists k, r = RpCount k) (run n (writes 1 0 [(1, [1;2]%N); (1, [3]%N)])).1.
Proof.
  exists (run node_init [(9, RAddProcess 1); (9, ROpen 1 "/a" (N.lor O_RDWR O_CREAT) 6)]%string).2.
  eexists _, _. split; [by eexists|]. vm_compute. eauto 20.
Qed.

(** ** C07 *)
Theorem C07_distinct_paths_distinct_nodes n p1 p2 id :
  reachable n -> names n p1 = Some id -> names n p2 = Some id -> p1 = p2.
Proof. intros Hr. apply (fo_inj _ (ni_fs _ (reachable_inv _ Hr))). Qed.
Print Assumptions C07_distinct_paths_distinct_nodes.
Theorem C07_names_refer_to_live_nodes n p id :
  reachable n -> names n p = Some id -> is_Some (mnodes (fs n) !! id).
Proof. intros Hr. apply (fo_names _ (ni_fs _ (reachable_inv _ Hr))). Qed.
Print Assumptions C07_names_refer_to_live_nodes.
(** An identity seen at any earlier point (as a live node, bound to a path or held
    by a descriptor, even if deleted since) is never given to a new binding. *)
Theorem C07_identities_never_reused avail n h r p id :
  reachable n -> known n id ->
  let n1 := (run n h).2 in
  names n1 p = None ->
  (forall pid old, r <> RRename pid old p) ->
  names (step avail n1 r).2 p <> Some id.
Proof.
  intros Hr Hk n1 Hp Hren Heq. apply reachable_inv in Hr.
  pose proof (run_inv n h Hr) as Hi. fold n1 in Hi.
  pose proof (run_next n h Hr) as Hx. fold n1 in Hx.
  apply known_lt in Hk; [|done].
  destruct (new_binding_fresh avail n1 r p id Hi Hp Heq) as [->|(pid & old & -> & _)]; [lia|].
  by eapply Hren.
Qed.
Print Assumptions C07_identities_never_reused.
Theorem C07_create_existing_fails avail n pid p modes id :
  registered n pid -> names n p = Some id ->
  step avail n (RMkDir pid p modes) = (Err AlreadyPresent, n).
Proof.
  intros [t Ht] Hp. cbn. rewrite Ht. unfold lift_fs, fs_mkdir, fs_insert_node, names in *.
  rewrite Hp. cbn. by destruct n.
Qed.
Print Assumptions C07_create_existing_fails.
Example C07_hyps_met :
  known demo_state 2 /\ registered demo_state 1 /\ names demo_state "/a" = Some 2%N /\
  names (run demo_state [(9, RDelete 1 "/a")]%string).2 "/a" = None /\
  names (run demo_state [(9, RDelete 1 "/a"); (9, ROpen 1 "/a" O_CREAT 6)]%string).2 "/a" = Some 3%N.
Proof.
  split; [right; left; exists "/a"%string; vm_compute; reflexivity|].
  vm_compute. eauto 10.
Qed.

(** ** C08 *)
Theorem C08_rename_moves avail n pid old new id :
  reachable n -> registered n pid -> old <> new -> names n old = Some id ->
  let n' := (step avail n (RRename pid old new)).2 in
  (step avail n (RRename pid old new)).1 = Ok FileRenamed /\
  names n' new = Some id /\ names n' old = None /\
  (forall p, p <> old -> p <> new -> names n' p = names n p) /\
  (forall i, names n new <> Some i -> mnodes (fs n') !! i = mnodes (fs n) !! i) /\
  (forall i, names n new = Some i -> mnodes (fs n') !! i = None) /\
  names n new <> Some id /\
  pmap n' = pmap n.
Proof. intros Hr. by apply rename_ok, reachable_inv. Qed.
Print Assumptions C08_rename_moves.
Theorem C08_rename_missing avail n pid old new :
  registered n pid -> names n old = None ->
  step avail n (RRename pid old new) = (Err InvalidFile, n).
Proof. apply rename_missing. Qed.
Print Assumptions C08_rename_missing.
Example C08_hyps_met :
  registered demo_state 1 /\ names demo_state "/a" = Some 2%N /\ names demo_state "/zz" = None /\
  names (step 0 demo_state (RRename 1 "/a" "/b")).2 "/b" = Some 2%N.
Proof. vm_compute. eauto 10. Qed.

(** ** C10 *)
(** Exactly when a request crashes the kernel. *)
Theorem C10_panics_exactly_when avail n r :
  reachable n ->
  (step avail n r).1 = Panic <->
  match r with
  | ROpen pid name flags _ => ~ registered n pid /\ (is_create flags = true \/ is_Some (names n name))
  | RClose pid _ => ~ registered n pid
  | RWrite pid fd _ None =>
    exists e, fd_of n pid fd = Some e /\ is_write (fd_flags e) = true /\
      is_append (fd_flags e) = true /\ mnodes (fs n) !! fd_mnode e = None
  | _ => False
  end.
Proof. intros Hr. by apply panic_iff, reachable_inv. Qed.
Print Assumptions C10_panics_exactly_when.
(** Hence registered processes are safe as long as they do not append to a file
    that was deleted while open. *)
Theorem C10_registered_never_panics_partial avail n r :
  reachable n ->
  (forall pid, match r with
     | ROpen p _ _ _ | RWrite p _ _ _ | RRead p _ _ _ | RClose p _ | RInfo p _
     | RDelete p _ | RRename p _ _ | RMkDir p _ _ => p = pid
     | RAddProcess _ => False end -> registered n pid) ->
  (forall pid fd e, fd_of n pid fd = Some e -> is_append (fd_flags e) = true ->
     is_Some (mnodes (fs n) !! fd_mnode e)) ->
  (step avail n r).1 <> Panic.
Proof.
  intros Hr Hreg Happ HP. apply C10_panics_exactly_when in HP; [|done].
  destruct r as [pid|pid name flags modes|pid fd d [o|]|pid fd len off|pid fd|pid name|pid name|pid old new|pid name modes];
    try done.
  - destruct HP as [HP _]. apply HP. by apply Hreg.
  - destruct HP as (e & Hfd & _ & Ha & Hm). destruct (Happ _ _ _ Hfd Ha) as [? ?]. congruence.
  - apply HP. by apply Hreg.
Qed.
Print Assumptions C10_registered_never_panics_partial.
Example C10_hyps_met :
  registered demo_state 1 /\ exists e, fd_of demo_state 1 0 = Some e /\ is_append (fd_flags e) = false.
Proof. vm_compute. eauto. Qed.
(** The full statement is false: a registered process can crash the kernel. *)
Theorem C10_never_panics_refuted :
  exists n r, reachable n /\ registered n 1 /\
    (exists fd d, r = RWrite 1 fd d None) /\ (step 9 n r).1 = Panic.
Proof.
  exists (run node_init [(9, RAddProcess 1); (9, ROpen 1 "/a" (N.lor (N.lor O_RDWR O_CREAT) O_APPEND) 6);
                         (9, RDelete 1 "/a")]%string).2, (RWrite 1 0 [1]%N None).
  split; [by eexists|]. split; [vm_compute; eauto|]. split; [eauto|]. vm_compute. reflexivity.
Qed.
Print Assumptions C10_never_panics_refuted.
