(** More lemmas behind FsProps: open, cursors, names, rename. *)
From Verif Require Import Base FileModel FileSpec FileProofs FsModel FsSpec FsProofs FsRefine FsView FsLemmas.

Lemma fs_truncate_bytes n name id :
  node_inv n -> names n name = Some id -> (fs_truncate (fs n) name).1 = Ok tt ->
  exists m f, mnodes (fs n) !! id = Some m /\ mn_file m = Some f /\ is_writable (fmodes f) = true /\
   (fs_truncate (fs n) name).2 =
     mkFs (<[id := mkNode (mn_num m) (mn_name m) (mn_type m) (Some (file_truncate f))]> (mnodes (fs n)))
          (files (fs n)) (nextmno (fs n)).
Proof.
  intros Hn Hnm. unfold fs_truncate. unfold names in Hnm. rewrite Hnm.
  destruct (mnodes (fs n) !! id) as [m|] eqn:Hm; [|done].
  unfold memnode_truncate.
  destruct (node_cases n _ m Hn Hm) as [[Hty Hxx]|(f & Hty & Hf & Hwf)]; rewrite Hty; [done|].
  rewrite Hf. destruct (is_writable (fmodes f)) eqn:E; [|done]. cbn. intros _.
  exists m, f. by rewrite Hty.
Qed.

Lemma open_existing avail n pid name flags modes fd id :
  node_inv n -> names n name = Some id ->
  (step avail n (ROpen pid name flags modes)).1 = Ok (FileOpened fd) ->
  let n' := (step avail n (ROpen pid name flags modes)).2 in
  fd_of n' pid fd = Some (mkFd id flags 0) /\
  files (fs n') = files (fs n) /\
  (forall i, i <> id -> mnodes (fs n') !! i = mnodes (fs n) !! i) /\
  (if is_truncate flags
   then bytes_of n' id = Some [] /\ modes_of n' id = modes_of n id
        /\ (exists m, modes_of n id = Some m /\ is_writable m = true)
   else fs n' = fs n).
Proof.
  intros Hn Hnm H n'. subst n'.
  pose proof (open_least avail n pid name flags modes fd Hn H) as (_ & _ & _ & id' & Hfd).
  pose proof (open_result avail n pid name flags modes Hn) as Ho. cbn zeta in Ho.
  rewrite H in Ho. destruct Ho as (t & id2 & s' & Ht & Hfn & Hp & Hs & Hcase).
  destruct Hcase as [[[Hnm2 Hs'] Htr]|(? & _)]; [|congruence].
  assert (id2 = id) by congruence. subst id2.
  set (n' := (step avail n (ROpen pid name flags modes)).2) in *.
  assert (fd < length t) as Hlt.
  { apply first_none_Some in Hfn as [H1 _]. by eapply lookup_lt_Some. }
  split. { unfold fd_of. rewrite Hp, lookup_insert. cbn. by rewrite list_lookup_insert. }
  destruct (is_truncate flags) eqn:Etr.
  - destruct (fs_truncate_bytes n name id Hn Hnm (Htr eq_refl)) as (m & f & Hm & Hf & Hwr & Heq).
    rewrite Hs', Heq in Hs. rewrite Hs. cbn. split; [done|].
    split; [intros i Hi; by rewrite lookup_insert_ne|].
    unfold bytes_of, modes_of. rewrite Hs, Hm. cbn. rewrite lookup_insert. cbn.
    rewrite Hf. cbn. split; [done|]. split; [done|]. eauto.
  - rewrite Hs, Hs'. done.
Qed.

Lemma open_create avail n pid name flags modes fd :
  node_inv n -> names n name = None ->
  (step avail n (ROpen pid name flags modes)).1 = Ok (FileOpened fd) ->
  let n' := (step avail n (ROpen pid name flags modes)).2 in
  is_create flags = true /\
  exists id, fd_of n' pid fd = Some (mkFd id flags 0) /\
  names n' name = Some id /\ bytes_of n' id = Some [] /\ modes_of n' id = Some modes /\
  mnodes (fs n) !! id = None /\
  (forall p, p <> name -> names n' p = names n p) /\
  (forall i, i <> id -> mnodes (fs n') !! i = mnodes (fs n) !! i).
Proof.
  intros Hn Hnm H n'. subst n'.
  pose proof (open_result avail n pid name flags modes Hn) as Ho. cbn zeta in Ho.
  rewrite H in Ho. destruct Ho as (t & id2 & s' & Ht & Hfn & Hp & Hs & Hcase).
  destruct Hcase as [[[? _] _]|(_ & Hc & Hid & Hs')]; [congruence|].
  split; [done|]. exists id2.
  set (n' := (step avail n (ROpen pid name flags modes)).2) in *.
  assert (fd < length t) as Hlt.
  { apply first_none_Some in Hfn as [H1 _]. by eapply lookup_lt_Some. }
  assert (s' = mkFs (<[id2 := memnode_new id2 name modes RegFile]> (mnodes (fs n)))
                    (<[name := id2]> (files (fs n))) (id2 + 1)) as Heq.
  { rewrite Hs'. unfold fs_create, fs_insert_node. unfold names in Hnm. rewrite Hnm. cbn. by rewrite Hid. }
  split. { unfold fd_of. rewrite Hp, lookup_insert. cbn. by rewrite list_lookup_insert. }
  unfold names, bytes_of, modes_of. rewrite Hs, Heq. cbn.
  rewrite !lookup_insert. split; [done|]. split; [done|]. split; [done|].
  split.
  { destruct (mnodes (fs n) !! id2) eqn:E; [|done].
    destruct (fo_nodes _ (ni_fs _ Hn) _ _ E). lia. }
  split; intros; by rewrite lookup_insert_ne.
Qed.

Lemma open_missing avail n pid name flags modes :
  names n name = None -> is_create flags = false ->
  step avail n (ROpen pid name flags modes) = (Err PermissionError, n).
Proof.
  intros H1 H2. cbn. unfold dispatch_open, fs_lookup. unfold names in H1. by rewrite H1, H2.
Qed.

(** *** Consecutive writes at the cursor *)
Definition writes (pid : N) (fd : nat) (ds : list (nat * list N)) : list (nat * req) :=
  (fun p => (p.1, RWrite pid fd p.2 None)) <$> ds.

Lemma cursor_writes n pid fd e c ds :
  node_inv n -> fd_of n pid fd = Some e -> is_append (fd_flags e) = false ->
  bytes_of n (fd_mnode e) = Some c -> fd_offset e = length c ->
  Forall (fun r => exists k, r = RpCount k) (run n (writes pid fd ds)).1 ->
  let n' := (run n (writes pid fd ds)).2 in
  node_inv n' /\ fd_of n' pid fd = Some (mkFd (fd_mnode e) (fd_flags e) (length (c ++ concat ds.*2))) /\
  bytes_of n' (fd_mnode e) = Some (c ++ concat ds.*2) /\
  modes_of n' (fd_mnode e) = modes_of n (fd_mnode e) /\
  (run n (writes pid fd ds)).1 = (fun p => RpCount (length p.2)) <$> ds.
Proof.
  revert n e c. induction ds as [|[av d] ds IH]; intros n e c Hn Hfd Hap Hb Hoff.
  - cbn. intros _. rewrite app_nil_r. split; [done|]. split; [|done].
    rewrite <- Hoff. by destruct e.
  - assert (writes pid fd ((av, d) :: ds) = (av, RWrite pid fd d None) :: writes pid fd ds) as -> by done.
    cbn [run].
    pose proof (write_result av n pid fd d None Hn) as Hw.
    pose proof (step_inv av n (RWrite pid fd d None) Hn) as Hinv.
    cbn zeta in Hw. cbn [fst snd].
    destruct (step av n (RWrite pid fd d None)) as [o n1] eqn:E1. cbn [fst snd] in Hw, Hinv.
    destruct (run n1 (writes pid fd ds)) as [os n2] eqn:E2.
    cbn [fst snd]. rewrite Forall_cons. intros [[k Hk] Hrest].
    destruct Hw as [Hw|[_ [(er & -> & _)|[-> _]]]]; [|done|done].
    destruct Hw as (e' & c0 & m & pos & c' & Hfd' & Hwf & Hb' & Hm & Hwm & Hpos & Hb1 & Hm1 & _ & _ & _ & Hres).
    assert (e' = e) by congruence. subst e'. assert (c0 = c) by congruence. subst c0.
    destruct Hres as [(-> & Hc' & Hp)|(-> & _)]; [|done].
    unfold write_pos in Hpos. rewrite Hap in Hpos. subst pos.
    assert (Hc2 : c' = c ++ d).
    { rewrite Hc', Hoff. unfold splice, pad. 
      replace (length c + length d - length c) with (length d) by lia.
      rewrite take_app. rewrite drop_ge by (rewrite app_length, replicate_length; lia).
      by rewrite app_nil_r. }
    assert (Hfd1 : fd_of n1 pid fd = Some (mkFd (fd_mnode e) (fd_flags e) (length (c ++ d)))).
    { unfold fd_of in Hfd |- *. rewrite Hp, lookup_alter.
      destruct (pmap n !! pid) as [t|] eqn:Ht; [|done]. cbn in *.
      rewrite list_lookup_insert; [cbn; rewrite Hoff, app_length; done|].
      destruct (t !! fd) eqn:El; [|done]. by eapply lookup_lt_Some. }
    specialize (IH n1 _ (c ++ d) Hinv Hfd1 Hap). cbn [fd_mnode fd_flags fd_offset] in IH.
    rewrite <- Hc2 in IH at 1. specialize (IH Hb1 eq_refl).
    rewrite E2 in IH. cbn [fst snd] in IH.
    destruct (IH Hrest) as (I1 & I2 & I3 & I4 & I5).
    split; [done|]. rewrite !fmap_cons. cbn [concat snd]. rewrite <- app_assoc in I2, I3.
    split; [done|]. split; [done|]. split; [by rewrite I4, Hm1|].
    cbn. by rewrite I5.
Qed.

(** *** Identities *)
Definition known (n : node) (id : N) : Prop :=
  is_Some (mnodes (fs n) !! id) \/ (exists p, names n p = Some id) \/
  (exists pid fd e, fd_of n pid fd = Some e /\ fd_mnode e = id).

Lemma known_lt n id : node_inv n -> known n id -> (id < nextmno (fs n))%N.
Proof.
  intros Hn [[m Hm]|[[p Hp]|(pid & fd & e & Hfd & <-)]].
  - by destruct (fo_nodes _ (ni_fs _ Hn) _ _ Hm).
  - destruct (fo_names _ (ni_fs _ Hn) _ _ Hp) as [m Hm]. by destruct (fo_nodes _ (ni_fs _ Hn) _ _ Hm).
  - unfold fd_of in Hfd. destruct (pmap n !! pid) as [t|] eqn:Ht; [|done]. cbn in Hfd.
    destruct (t !! fd) as [[x|]|] eqn:Hx; [|done|done]. cbn in Hfd. injection Hfd as ->.
    eapply ni_fd; eauto.
Qed.

Lemma step_next avail n r : node_inv n -> (nextmno (fs n) <= nextmno (fs (step avail n r).2))%N.
Proof.
  intros Hn.
  destruct r as [pid|pid name flags modes|pid fd d off|pid fd len off|pid fd|pid name|pid name|pid old new|pid name modes].
  - cbn. destruct (pmap n !! pid); cbn; lia.
  - pose proof (open_result avail n pid name flags modes Hn) as Ho. cbn zeta in Ho.
    destruct (step avail n (ROpen pid name flags modes)) as [o n'] eqn:E. cbn [fst snd] in *.
    destruct o as [[]| |]; try done.
    + destruct Ho as (t & id2 & s' & Ht & Hfn & Hp & -> & Hcase).
      destruct Hcase as [[[? ->] _]|(_ & Hc & Hid & ->)].
      * destruct (is_truncate flags); [rewrite fs_truncate_next|]; lia.
      * apply fs_insert_node_next.
    + subst. lia.
    + cbn in E. unfold dispatch_open in E. rewrite Ho in E.
      destruct (match fs_lookup (fs n) name with None => _ | Some _ => false end); simplify_eq; lia.
  - destruct (write_result avail n pid fd d off Hn) as [H|[-> _]]; [|lia].
    destruct H as (? & ? & ? & ? & ? & H). destruct_and! H. 
    match goal with H : nextmno _ = nextmno _ |- _ => rewrite H end. lia.
  - cbn [step] in *. rewrite with_mnode_spec in *.
    destruct (pmap n !! pid) as [t|] eqn:Ht; [|cbn; lia].
    destruct (get_fd t fd) as [x|] eqn:Hx; [|cbn; lia]. cbn in *. rewrite Ht, Hx in *.
    destruct (is_read (fd_flags x)); cbn in *; [|lia].
    destruct (fs_read _ _ _ _) as [[]| |]; destruct off; cbn; lia.
  - cbn. destruct (pmap n !! pid) as [t|]; [|cbn; lia].
    destruct (deallocate_fd t fd) as [[]]; cbn; lia.
  - cbn in *. destruct (pmap n !! pid) as [t|] eqn:Ht; [|cbn; lia].
    destruct (fs_lookup (fs n) name) eqn:El; [|cbn; lia]. cbn in *. rewrite Ht, El in *.
    destruct (fs_file_info (fs n) n0); cbn; lia.
  - cbn. destruct (pmap n !! pid); cbn; rewrite ?fs_delete_next; lia.
  - cbn. destruct (pmap n !! pid); cbn; rewrite ?fs_rename_next; lia.
  - cbn. destruct (pmap n !! pid); cbn; [|lia]. apply fs_insert_node_next.
Qed.

Lemma run_next n l : node_inv n -> (nextmno (fs n) <= nextmno (fs (run n l).2))%N.
Proof.
  revert n. induction l as [|[av r] l IH]; intros n Hn; cbn; [lia|].
  pose proof (step_inv av n r Hn) as H. pose proof (step_next av n r Hn) as H2.
  destruct (step av n r) as [o n1]. cbn in H, H2. specialize (IH n1 H).
  destruct (run n1 l). cbn in *. lia.
Qed.

(** A request that binds a name that was unbound, to a node. *)
Lemma new_binding_fresh avail n r p id :
  node_inv n -> names n p = None -> names (step avail n r).2 p = Some id ->
  id = nextmno (fs n) \/ (exists pid old, r = RRename pid old p /\ names n old = Some id).
Proof.
  intros Hn Hp.
  destruct r as [pid|pid name flags modes|pid fd d off|pid fd len off|pid fd|pid name|pid name|pid old new|pid name modes].
  - cbn. unfold names in *. destruct (pmap n !! pid); cbn; congruence.
  - intros H. pose proof (open_result avail n pid name flags modes Hn) as Ho. cbn zeta in Ho.
    destruct (step avail n (ROpen pid name flags modes)) as [o n'] eqn:E. cbn [fst snd] in *.
    destruct o as [[]| |]; try done.
    + destruct Ho as (t & id2 & s' & Ht & Hfn & Hpm & Hs & Hcase).
      unfold names in *. rewrite Hs in H.
      destruct Hcase as [[[? ->] _]|(_ & Hc & Hid & ->)].
      * destruct (is_truncate flags).
        -- assert (files (fs_truncate (fs n) name).2 = files (fs n)) as Hx.
           { unfold fs_truncate. destruct (files (fs n) !! name) as [i|]; [|done].
             destruct (mnodes (fs n) !! i) as [m|]; [|done]. by destruct (memnode_truncate m). }
           rewrite Hx in H. congruence.
        -- congruence.
      * unfold fs_create, fs_insert_node in H. destruct (files (fs n) !! name); cbn in H; [congruence|].
        apply lookup_insert_Some in H as [[<- <-]|[_ ?]]; [by left|congruence].
    + subst. congruence.
    + cbn in E. unfold dispatch_open in E. rewrite Ho in E.
      destruct (match fs_lookup (fs n) name with None => _ | Some _ => false end); simplify_eq; congruence.
  - destruct (write_result avail n pid fd d off Hn) as [H|[-> _]]; [|congruence].
    destruct H as (? & ? & ? & ? & ? & H). destruct_and! H. unfold names in *.
    match goal with H : files _ = files _ |- _ => rewrite H end. congruence.
  - cbn [step] in *. rewrite with_mnode_spec in *. unfold names in *.
    destruct (pmap n !! pid) as [t|] eqn:Ht; [|cbn; congruence].
    destruct (get_fd t fd) as [x|] eqn:Hx; [|cbn; congruence]. cbn in *. rewrite Ht, Hx in *.
    destruct (is_read (fd_flags x)); cbn in *; [|congruence].
    destruct (fs_read _ _ _ _) as [[]| |]; destruct off; cbn; congruence.
  - cbn. unfold names in *. destruct (pmap n !! pid) as [t|]; [|cbn; congruence].
    destruct (deallocate_fd t fd) as [[]]; cbn; congruence.
  - cbn in *. unfold names in *. destruct (pmap n !! pid) as [t|] eqn:Ht; [|cbn; congruence].
    destruct (fs_lookup (fs n) name) eqn:El; [|cbn; congruence]. cbn in *. rewrite Ht, El in *.
    destruct (fs_file_info (fs n) n0); cbn; congruence.
  - cbn. unfold names in *. destruct (pmap n !! pid); cbn; [|congruence].
    unfold fs_delete. destruct (files (fs n) !! name); cbn; [|congruence].
    rewrite lookup_delete_Some. intros [_ ?]; congruence.
  - cbn. unfold names in *. destruct (pmap n !! pid); cbn; [|congruence].
    unfold fs_rename. destruct (files (fs n) !! old) as [i|] eqn:Eo; cbn; [|congruence].
    set (s1 := match files (fs n) !! new with Some _ => _ | None => _ end).
    assert (forall q j, files s1 !! q = Some j -> files (fs n) !! q = Some j) as Hsub.
    { intros q j. subst s1. destruct (files (fs n) !! new) eqn:En; [|done].
      unfold fs_delete. rewrite En. cbn. rewrite lookup_delete_Some. tauto. }
    destruct (files s1 !! old) as [j|] eqn:E1; cbn.
    + assert (<[new := j]> (delete old (files s1)) !! p = Some id -> new = p /\ j = id) as Hy.
      { rewrite lookup_insert_Some. intros [?|[_ H2]]; [done|].
        apply lookup_delete_Some in H2 as [_ H2]. apply Hsub in H2. congruence. }
      destruct (delete old (files s1) !! new); cbn; intros H; destruct (Hy H) as [-> ->];
        right; exists pid, old; split; eauto.
      all: rewrite <- Eo; apply Hsub in E1; congruence.
    + intros H. apply Hsub in H. congruence.
  - cbn. unfold names in *. destruct (pmap n !! pid); cbn; [|congruence].
    unfold fs_mkdir, fs_insert_node. destruct (files (fs n) !! name); cbn; [congruence|].
    rewrite lookup_insert_Some. intros [[<- <-]|[_ ?]]; [by left|congruence].
Qed.

(** *** rename *)
Lemma rename_ok avail n pid old new id :
  node_inv n -> registered n pid -> old <> new -> names n old = Some id ->
  let n' := (step avail n (RRename pid old new)).2 in
  (step avail n (RRename pid old new)).1 = Ok FileRenamed /\
  names n' new = Some id /\ names n' old = None /\
  (forall p, p <> old -> p <> new -> names n' p = names n p) /\
  (forall i, names n new <> Some i -> mnodes (fs n') !! i = mnodes (fs n) !! i) /\
  (forall i, names n new = Some i -> mnodes (fs n') !! i = None) /\
  names n new <> Some id /\
  pmap n' = pmap n.
Proof.
  intros Hn [t Ht] Hne Ho. cbn. rewrite Ht. unfold lift_fs, names in *. cbn.
  unfold fs_rename. rewrite Ho.
  destruct (files (fs n) !! new) as [id'|] eqn:En.
  - unfold fs_delete. rewrite En. cbn. rewrite lookup_delete_ne by done. rewrite Ho. cbn.
    rewrite (lookup_delete_ne _ old new), lookup_delete by done. cbn.
    split; [done|]. rewrite lookup_insert. split; [done|].
    rewrite lookup_insert_ne, lookup_delete by done. split; [done|].
    split. { intros p ? ?. rewrite lookup_insert_ne, !lookup_delete_ne by done. done. }
    split. { intros i Hi. rewrite lookup_delete_ne; [done|]. congruence. }
    split. { intros i [= ->]. by rewrite lookup_delete. }
    split; [|done]. intros [= ->]. apply Hne. eapply fo_inj; eauto. apply Hn.
  - rewrite Ho. cbn. rewrite (lookup_delete_ne _ old new), En by done. cbn.
    split; [done|]. rewrite lookup_insert. split; [done|].
    rewrite lookup_insert_ne, lookup_delete by done. split; [done|].
    split. { intros p ? ?. rewrite lookup_insert_ne, !lookup_delete_ne by done. done. }
    done.
Qed.

Lemma rename_missing avail n pid old new :
  registered n pid -> names n old = None ->
  step avail n (RRename pid old new) = (Err InvalidFile, n).
Proof.
  intros [t Ht] Ho. cbn. rewrite Ht. unfold lift_fs, fs_rename, names in *. rewrite Ho. cbn.
  by destruct n.
Qed.
