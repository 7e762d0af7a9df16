(** Proofs for C09: a replica's state "as seen through log i" is a function of
    the sequence of operations consumed from log i alone. *)
From Verif Require Import Base FileModel FileProofs FsModel FsProofs FsView CnrModel CnrSpec.

Section cnr.
Context (nlogs : nat) (Hn : 0 < nlogs).

Notation in_log := (CnrSpec.in_log nlogs).
Notation proj := (CnrSpec.proj nlogs).
Notation outs := (CnrSpec.outs nlogs).

(** ** The view through log i *)
Definition fdeq i (e1 e2 : fdentry) : Prop :=
  fd_mnode e1 = fd_mnode e2 /\ fd_flags e1 = fd_flags e2 /\
  (log_of nlogs (fd_mnode e1) = i -> fd_offset e1 = fd_offset e2).
Definition feq (f1 f2 : file) : Prop := fmodes f1 = fmodes f2.
Definition mneq i id (m1 m2 : memnode) : Prop :=
  mn_num m1 = mn_num m2 /\ mn_name m1 = mn_name m2 /\ mn_type m1 = mn_type m2 /\
  option_Forall2 feq (mn_file m1) (mn_file m2) /\
  (log_of nlogs id = i -> m1 = m2).
Record veq (i : nat) (n1 n2 : node) : Prop := {
  v_p : forall pid, option_Forall2 (Forall2 (option_Forall2 (fdeq i))) (pmap n1 !! pid) (pmap n2 !! pid);
  v_f : files (fs n1) = files (fs n2);
  v_x : nextmno (fs n1) = nextmno (fs n2);
  v_m : forall id, option_Forall2 (mneq i id) (mnodes (fs n1) !! id) (mnodes (fs n2) !! id) }.

Lemma fdeq_refl i e : fdeq i e e. Proof. done. Qed.
Lemma ofd_refl i o : option_Forall2 (fdeq i) o o.
Proof. destruct o; constructor. apply fdeq_refl. Qed.
Lemma tfd_refl i t : Forall2 (option_Forall2 (fdeq i)) t t.
Proof. induction t; constructor; auto using ofd_refl. Qed.
Lemma ofeq_refl o : option_Forall2 feq o o.
Proof. destruct o; constructor. reflexivity. Qed.
Lemma mneq_refl i id m : mneq i id m m.
Proof. split_and!; auto using ofeq_refl. Qed.
Lemma veq_refl i n : veq i n n.
Proof.
  split; intros; try done.
  - destruct (pmap n !! pid); constructor. apply tfd_refl.
  - destruct (mnodes (fs n) !! id); constructor. apply mneq_refl.
Qed.
Lemma fdeq_sym i e1 e2 : fdeq i e1 e2 -> fdeq i e2 e1.
Proof. intros (H1 & H2 & H3). split_and!; auto. intros. symmetry. apply H3. congruence. Qed.
Lemma fdeq_trans i e1 e2 e3 : fdeq i e1 e2 -> fdeq i e2 e3 -> fdeq i e1 e3.
Proof.
  intros (H1 & H2 & H3) (K1 & K2 & K3). split_and!; try congruence.
  intros. rewrite H3, K3; congruence.
Qed.
Lemma feq_trans o1 o2 o3 : option_Forall2 feq o1 o2 -> option_Forall2 feq o2 o3 -> option_Forall2 feq o1 o3.
Proof. intros [] K; inversion K; subst; constructor. unfold feq in *; congruence. Qed.
Lemma feq_sym o1 o2 : option_Forall2 feq o1 o2 -> option_Forall2 feq o2 o1.
Proof. intros []; constructor. unfold feq in *; congruence. Qed.
Lemma veq_sym i n1 n2 : veq i n1 n2 -> veq i n2 n1.
Proof.
  intros [H1 H2 H3 H4]. split; intros; try done.
  - specialize (H1 pid). destruct H1 as [t1 t2 H|]; constructor.
    induction H as [|o1 o2 ? ? Ho]; constructor; auto.
    destruct Ho; constructor. by apply fdeq_sym.
  - specialize (H4 id). destruct H4 as [m1 m2 (?&?&?&?&?)|]; constructor.
    split_and!; auto using feq_sym. intros. symmetry; auto.
Qed.
Lemma veq_trans i n1 n2 n3 : veq i n1 n2 -> veq i n2 n3 -> veq i n1 n3.
Proof.
  intros [H1 H2 H3 H4] [K1 K2 K3 K4]. split; intros; try congruence.
  - specialize (H1 pid). specialize (K1 pid).
    destruct H1 as [t1 t2 H|]; inversion K1 as [t2' t3 K|]; subst; constructor.
    clear -H K. revert t3 K. induction H as [|o1 o2 ? ? Ho]; intros t3 K; inversion K as [|? o3 ? ? Ko]; subst; constructor; auto.
    destruct Ho; inversion Ko; subst; constructor. by eapply fdeq_trans.
  - specialize (H4 id). specialize (K4 id).
    destruct H4 as [m1 m2 (?&?&?&?&He)|]; inversion K4 as [? m3 (?&?&?&?&Ke)|]; subst; constructor.
    split_and!; try congruence. + by eapply feq_trans. + intros. rewrite He, Ke; auto.
Qed.

(** All views equal means equal states. *)
Lemma log_of_lt m : log_of nlogs m < nlogs.
Proof.
  unfold log_of. assert (N.of_nat nlogs <> 0%N) by lia.
  pose proof (N.mod_lt ((m + (2 ^ 64 - MNODE_OFFSET)) mod 2 ^ 64) (N.of_nat nlogs) H). lia.
Qed.

Lemma veq_all n1 n2 : (forall i, i < nlogs -> veq i n1 n2) -> n1 = n2.
Proof.
  intros H. destruct n1 as [p1 [m1 f1 x1]], n2 as [p2 [m2 f2 x2]].
  destruct (H 0 Hn) as [_ Hf Hx _]. cbn in *. subst. f_equal; [|f_equal].
  - apply map_eq. intros pid.
    assert (Hp : forall i, i < nlogs -> option_Forall2 (Forall2 (option_Forall2 (fdeq i))) (p1 !! pid) (p2 !! pid))
      by (intros i Hi; apply (v_p _ _ _ (H i Hi))).
    destruct (p1 !! pid) as [t1|] eqn:E1, (p2 !! pid) as [t2|] eqn:E2;
      try (specialize (Hp 0 Hn); inversion Hp; fail); [|done].
    f_equal. apply list_eq. intros k.
    assert (Hk : forall i, i < nlogs -> option_Forall2 (option_Forall2 (fdeq i)) (t1 !! k) (t2 !! k)).
    { intros i Hi. specialize (Hp i Hi). inversion Hp; subst. by apply Forall2_lookup. }
    destruct (t1 !! k) as [o1|], (t2 !! k) as [o2|]; try (specialize (Hk 0 Hn); inversion Hk; fail); [|done].
    f_equal. destruct o1 as [e1|], o2 as [e2|]; try (specialize (Hk 0 Hn); inversion Hk as [? ? Hx|]; inversion Hx; fail); [|done].
    f_equal. specialize (Hk (log_of nlogs (fd_mnode e1)) (log_of_lt _)).
    inversion Hk as [? ? Hx|]; subst. inversion Hx as [? ? (Ha & Hb & Hc)|]; subst.
    destruct e1, e2; cbn in *; subst. f_equal. by apply Hc.
  - apply map_eq. intros id. pose proof (v_m _ _ _ (H _ (log_of_lt id)) id) as Hm. cbn in Hm.
    inversion Hm as [? ? (_&_&_&_&He)|]; subst; [|done]. f_equal. by apply He.
Qed.

(** ** Updating related states *)
Lemma veq_fd i n1 n2 pid fd : veq i n1 n2 -> option_Forall2 (fdeq i) (fd_of n1 pid fd) (fd_of n2 pid fd).
Proof.
  intros H. unfold fd_of. pose proof (v_p _ _ _ H pid) as Hp.
  destruct Hp as [t1 t2 Ht|]; [cbn|constructor].
  destruct (t1 !! fd) as [o1|] eqn:E1, (t2 !! fd) as [o2|] eqn:E2; cbn.
  - by eapply Forall2_lookup_lr.
  - apply lookup_lt_Some in E1. apply lookup_ge_None in E2. apply Forall2_length in Ht. lia.
  - apply lookup_lt_Some in E2. apply lookup_ge_None in E1. apply Forall2_length in Ht. lia.
  - constructor.
Qed.

Lemma veq_pmap i n1 n2 pid t1 t2 :
  veq i n1 n2 -> Forall2 (option_Forall2 (fdeq i)) t1 t2 ->
  veq i (mkNodeSt (<[pid := t1]> (pmap n1)) (fs n1)) (mkNodeSt (<[pid := t2]> (pmap n2)) (fs n2)).
Proof.
  intros [H1 H2 H3 H4] Ht. split; try done. intros p. cbn.
  destruct (decide (p = pid)) as [->|]; [rewrite !lookup_insert; by constructor|].
  rewrite !lookup_insert_ne by done. apply H1.
Qed.

Lemma veq_fs i n1 n2 s1 s2 :
  veq i n1 n2 -> files s1 = files s2 -> nextmno s1 = nextmno s2 ->
  (forall id, option_Forall2 (mneq i id) (mnodes s1 !! id) (mnodes s2 !! id)) ->
  veq i (mkNodeSt (pmap n1) s1) (mkNodeSt (pmap n2) s2).
Proof. intros [H1 H2 H3 H4] ???. by split. Qed.

Lemma mn_insert i (M1 M2 : gmap N memnode) num m1 m2 :
  (forall id, option_Forall2 (mneq i id) (M1 !! id) (M2 !! id)) -> mneq i num m1 m2 ->
  forall id, option_Forall2 (mneq i id) (<[num:=m1]> M1 !! id) (<[num:=m2]> M2 !! id).
Proof.
  intros H Hm id. destruct (decide (id = num)) as [->|]; [rewrite !lookup_insert; by constructor|].
  rewrite !lookup_insert_ne by done. apply H.
Qed.
Lemma mn_delete i (M1 M2 : gmap N memnode) num :
  (forall id, option_Forall2 (mneq i id) (M1 !! id) (M2 !! id)) ->
  forall id, option_Forall2 (mneq i id) (delete num M1 !! id) (delete num M2 !! id).
Proof.
  intros H id. destruct (decide (id = num)) as [->|]; [rewrite !lookup_delete; constructor|].
  rewrite !lookup_delete_ne by done. apply H.
Qed.

(** Results of the memory-independent kind. *)
Lemma write_file_avail ps a1 a2 f d off :
  (write_file ps a1 f d off).1 <> Err OutOfMemory ->
  (write_file ps a2 f d off).1 <> Err OutOfMemory ->
  write_file ps a1 f d off = write_file ps a2 f d off.
Proof.
  unfold write_file, increase_file_size. intros H1 H2.
  repeat (case_decide; cbn in *; try done).
Qed.
Lemma memnode_write_avail a1 a2 m d off :
  (memnode_write a1 m d off).1 <> Err OutOfMemory ->
  (memnode_write a2 m d off).1 <> Err OutOfMemory ->
  memnode_write a1 m d off = memnode_write a2 m d off.
Proof.
  unfold memnode_write. destruct (mn_type m); [done|]. destruct (mn_file m) as [f|]; [|done].
  destruct (is_writable (fmodes f)); [cbn|done].
  pose proof (write_file_avail BASE_PAGE_SIZE a1 a2 f d off) as H.
  destruct (write_file _ a1 f d off) as [r1 f1], (write_file _ a2 f d off) as [r2 f2].
  cbn in *. intros. assert ((r1, f1) = (r2, f2)) by auto. by simplify_eq.
Qed.
Lemma memnode_write_meta a m d off :
  let m' := (memnode_write a m d off).2 in
  mn_num m' = mn_num m /\ mn_name m' = mn_name m /\ mn_type m' = mn_type m /\
  option_Forall2 feq (mn_file m') (mn_file m).
Proof.
  unfold memnode_write. destruct (mn_type m) eqn:Et; [cbn; split_and!; auto using ofeq_refl|].
  destruct (mn_file m) as [f|] eqn:Ef; [|cbn; rewrite Ef; split_and!; auto; constructor].
  destruct (is_writable (fmodes f)); [|cbn; rewrite Ef; split_and!; auto using ofeq_refl].
  cbn. destruct (write_file _ a f d off) as [r f'] eqn:E. cbn. split_and!; auto. constructor.
  unfold write_file in E. unfold feq.
  repeat (case_decide || (destruct (increase_file_size _ _ _ _ _) as [[] ?]) || destruct (write_loop _ _ _ _ _ _ _)); cbn in E; simplify_eq; done.
Qed.
Lemma memnode_truncate_eq i id m1 m2 : mneq i id m1 m2 ->
  (memnode_truncate m1).1 = (memnode_truncate m2).1 /\ mneq i id (memnode_truncate m1).2 (memnode_truncate m2).2.
Proof.
  intros Hm. pose proof Hm as (H1 & H2 & H3 & H4 & H5). unfold memnode_truncate. rewrite <- H3.
  destruct (mn_type m1) eqn:Et; [done|].
  destruct H4 as [f1 f2 Hf|]; [|done]. unfold feq in Hf. rewrite <- Hf.
  destruct (is_writable (fmodes f1)); [cbn|done]. split; [done|].
  split_and!; cbn; try congruence.
  - constructor. done.
  - intros. unfold file_truncate. congruence.
Qed.

(** ** An operation of another log does not change the view *)
Lemma not_in_log_write i op : i < nlogs -> ~ in_log i op ->
  exists pid fd m d off, op = FileWrite pid fd m d off /\ log_of nlogs m <> i.
Proof.
  unfold CnrSpec.in_log. intros Hi. destruct op; cbn; rewrite ?elem_of_seq; try (intros; exfalso; lia).
  rewrite elem_of_list_singleton. intros. eauto 10.
Qed.

Lemma set_fd_veq i n1 n2 s1 s2 pid t1 t2 fd e1 e2 :
  veq i (mkNodeSt (pmap n1) s1) (mkNodeSt (pmap n2) s2) ->
  Forall2 (option_Forall2 (fdeq i)) t1 t2 -> fdeq i e1 e2 ->
  veq i (set_fd (mkNodeSt (pmap n1) s1) pid t1 fd e1) (set_fd (mkNodeSt (pmap n2) s2) pid t2 fd e2).
Proof.
  intros H Ht He. unfold set_fd. apply (veq_pmap _ _ _ _ _ _ H).
  apply Forall2_insert; [done|]. by constructor.
Qed.

Lemma other_log i a n op :
  i < nlogs -> ~ in_log i op -> hint_ok n op -> veq i n (dispatch_mut a n op).2.
Proof.
  intros Hi Hnot Hh. destruct (not_in_log_write _ _ Hi Hnot) as (pid & fd & m & d & off & -> & Hm).
  cbn [dispatch_mut hint_ok] in *. unfold dispatch_write.
  destruct (pmap n !! pid) as [t|] eqn:Et; [|apply veq_refl].
  destruct (get_fd t fd) as [e|] eqn:Ee; [|apply veq_refl].
  assert (fd_mnode e = m) as He.
  { apply Hh. unfold fd_of. rewrite Et. cbn. done. }
  destruct (is_write (fd_flags e)); [cbn|apply veq_refl].
  set (curr := match off with Some o => Ok o | None => _ end). destruct curr as [c| |]; [|apply veq_refl..].
  assert (Hv : veq i n (mkNodeSt (pmap n) (fs_write a (fs n) (fd_mnode e) d c).2)).
  { unfold fs_write. rewrite He. destruct (mnodes (fs n) !! m) as [mm|] eqn:Em; [|cbn; destruct n; apply veq_refl].
    pose proof (memnode_write_meta a mm d c) as Hmeta.
    destruct (memnode_write a mm d c) as [r m'] eqn:Ew. cbn in *.
    destruct n as [p s]. cbn in *.
    apply (veq_fs i (mkNodeSt p s) (mkNodeSt p s) s); [apply veq_refl|done|done|].
    intros id. cbn. destruct (decide (id = m)) as [->|].
    - rewrite lookup_insert, Em. constructor. destruct Hmeta as (?&?&?&?).
      split_and!; auto using feq_sym. intros; congruence.
    - rewrite lookup_insert_ne by done. destruct (mnodes s !! id); constructor. apply mneq_refl. }
  destruct (fs_write a (fs n) (fd_mnode e) d c) as [r s'] eqn:Ef. cbn in Hv.
  destruct r as [len| |]; cbn; [|done..]. destruct off; [done|].
  eapply veq_trans; [exact Hv|]. unfold set_fd. cbn.
  destruct n as [p s]. cbn in *.
  assert (Hset : veq i (mkNodeSt p s') (mkNodeSt (<[pid := t]> p) s')).
  { rewrite insert_id by done. apply veq_refl. }
  eapply veq_trans; [exact Hset|].
  apply (veq_pmap i (mkNodeSt p s') (mkNodeSt p s')); [apply veq_refl|].
  pose proof (tfd_refl i t) as Ht. apply get_fd_Some in Ee.
  rewrite <- (list_insert_id t fd (Some e)) at 1 by done.
  apply Forall2_insert; [done|]. constructor. split_and!; cbn; auto. intros; congruence.
Qed.

(** ** An operation of log i acts alike on states with equal views *)
Lemma first_none_veq i t1 t2 : Forall2 (option_Forall2 (fdeq i)) t1 t2 -> first_none t1 = first_none t2.
Proof. induction 1 as [|o1 o2 ? ? Ho _ IH]; [done|]. destruct Ho; cbn; [by rewrite IH|done]. Qed.

Lemma get_fd_veq i t1 t2 fd : Forall2 (option_Forall2 (fdeq i)) t1 t2 ->
  option_Forall2 (fdeq i) (get_fd t1 fd) (get_fd t2 fd).
Proof.
  intros Ht. unfold get_fd.
  destruct (t1 !! fd) as [o1|] eqn:E1, (t2 !! fd) as [o2|] eqn:E2; cbn.
  - by eapply Forall2_lookup_lr.
  - apply lookup_lt_Some in E1. apply lookup_ge_None in E2. apply Forall2_length in Ht. lia.
  - apply lookup_lt_Some in E2. apply lookup_ge_None in E1. apply Forall2_length in Ht. lia.
  - constructor.
Qed.

Lemma dealloc_veq i t1 t2 fd : Forall2 (option_Forall2 (fdeq i)) t1 t2 ->
  (deallocate_fd t1 fd).1 = (deallocate_fd t2 fd).1 /\
  Forall2 (option_Forall2 (fdeq i)) (deallocate_fd t1 fd).2 (deallocate_fd t2 fd).2.
Proof.
  intros Ht. unfold deallocate_fd.
  destruct (t1 !! fd) as [o1|] eqn:E1, (t2 !! fd) as [o2|] eqn:E2; cbn; [| | |done].
  - assert (Ho : option_Forall2 (fdeq i) o1 o2) by (by eapply Forall2_lookup_lr).
    destruct Ho; [|done]. cbn. split; [done|]. apply Forall2_insert; [done|constructor].
  - apply lookup_lt_Some in E1. apply lookup_ge_None in E2. apply Forall2_length in Ht. lia.
  - apply lookup_lt_Some in E2. apply lookup_ge_None in E1. apply Forall2_length in Ht. lia.
Qed.

Lemma fs_truncate_veq i n1 n2 name : veq i n1 n2 ->
  (fs_truncate (fs n1) name).1 = (fs_truncate (fs n2) name).1 /\
  veq i (mkNodeSt (pmap n1) (fs_truncate (fs n1) name).2) (mkNodeSt (pmap n2) (fs_truncate (fs n2) name).2).
Proof.
  intros H. unfold fs_truncate. rewrite (v_f _ _ _ H).
  destruct (files (fs n2) !! name) as [num|]; [|destruct n1, n2; done].
  pose proof (v_m _ _ _ H num) as Hm.
  destruct Hm as [m1 m2 Hm|]; [|destruct n1, n2; done].
  destruct (memnode_truncate_eq _ _ _ _ Hm) as [E1 E2].
  destruct (memnode_truncate m1) as [r1 m1'], (memnode_truncate m2) as [r2 m2']. cbn in *.
  split; [done|]. apply veq_fs; cbn; try done; [apply H|].
  apply mn_insert; [apply H|done].
Qed.

Lemma fs_insert_node_veq i n1 n2 name modes ty : veq i n1 n2 ->
  (fs_insert_node (fs n1) name modes ty).1 = (fs_insert_node (fs n2) name modes ty).1 /\
  veq i (mkNodeSt (pmap n1) (fs_insert_node (fs n1) name modes ty).2)
        (mkNodeSt (pmap n2) (fs_insert_node (fs n2) name modes ty).2).
Proof.
  intros H. unfold fs_insert_node. rewrite (v_f _ _ _ H), (v_x _ _ _ H).
  destruct (files (fs n2) !! name) as [num|]; [destruct n1, n2; done|].
  cbn. split; [done|]. apply veq_fs; cbn; try done.
  apply mn_insert; [apply H|apply mneq_refl].
Qed.

Lemma fs_delete_veq i n1 n2 name : veq i n1 n2 ->
  (fs_delete (fs n1) name).1 = (fs_delete (fs n2) name).1 /\
  veq i (mkNodeSt (pmap n1) (fs_delete (fs n1) name).2) (mkNodeSt (pmap n2) (fs_delete (fs n2) name).2).
Proof.
  intros H. unfold fs_delete. rewrite (v_f _ _ _ H).
  destruct (files (fs n2) !! name) as [num|]; [|destruct n1, n2; done].
  cbn. split; [done|]. apply veq_fs; cbn; try done; [apply H|].
  apply mn_delete, H.
Qed.

Lemma fs_rename_veq i n1 n2 old new : veq i n1 n2 ->
  (fs_rename (fs n1) old new).1 = (fs_rename (fs n2) old new).1 /\
  veq i (mkNodeSt (pmap n1) (fs_rename (fs n1) old new).2) (mkNodeSt (pmap n2) (fs_rename (fs n2) old new).2).
Proof.
  intros H. unfold fs_rename. rewrite (v_f _ _ _ H).
  destruct (files (fs n2) !! old) as [num|]; [|destruct n1, n2; done].
  set (s1 := match files (fs n2) !! new with Some _ => (fs_delete (fs n1) new).2 | None => fs n1 end).
  set (s2 := match files (fs n2) !! new with Some _ => (fs_delete (fs n2) new).2 | None => fs n2 end).
  assert (Hs : veq i (mkNodeSt (pmap n1) s1) (mkNodeSt (pmap n2) s2)).
  { subst s1 s2. destruct (files (fs n2) !! new); [by apply fs_delete_veq|destruct n1, n2; done]. }
  clearbody s1 s2. pose proof (v_f _ _ _ Hs) as Hf. cbn in Hf. rewrite Hf.
  destruct (files s2 !! old) as [num2|]; [|done].
  destruct (delete old (files s2) !! new); cbn; (split; [done|]);
    (apply (veq_fs i _ _ _ _ Hs); cbn; [done|apply Hs|apply Hs]).
Qed.

Lemma veq_table i n1 n2 pid : veq i n1 n2 ->
  option_Forall2 (Forall2 (option_Forall2 (fdeq i))) (pmap n1 !! pid) (pmap n2 !! pid).
Proof. intros H. apply H. Qed.

Lemma open_veq i n1 n2 pid name flags modes : veq i n1 n2 ->
  (dispatch_open n1 pid name flags modes).1 = (dispatch_open n2 pid name flags modes).1 /\
  veq i (dispatch_open n1 pid name flags modes).2 (dispatch_open n2 pid name flags modes).2.
Proof.
  intros H. unfold dispatch_open, fs_lookup. rewrite (v_f _ _ _ H).
  set (mn := files (fs n2) !! name).
  destruct (match mn with Some _ => false | None => negb (is_create flags) end); [done|].
  destruct (veq_table i n1 n2 pid H) as [t1 t2 Ht|]; [|done].
  unfold allocate_fd. rewrite (first_none_veq _ _ _ Ht).
  destruct (first_none t2) as [fid|]; [|done]. cbn [mbind option_bind].
  assert (Ht1 : Forall2 (option_Forall2 (fdeq i)) (<[fid:=Some fd_default]> t1) (<[fid:=Some fd_default]> t2)).
  { apply Forall2_insert; [done|]. constructor. apply fdeq_refl. }
  assert (Hfin : forall s1 s2 m, veq i (mkNodeSt (pmap n1) s1) (mkNodeSt (pmap n2) s2) ->
    veq i (mkNodeSt (<[pid := <[fid := Some (fd_update fd_default m flags)]> (<[fid:=Some fd_default]> t1)]> (pmap n1)) s1)
          (mkNodeSt (<[pid := <[fid := Some (fd_update fd_default m flags)]> (<[fid:=Some fd_default]> t2)]> (pmap n2)) s2)).
  { intros s1 s2 m Hs. apply (veq_pmap i _ _ pid _ _ Hs). apply Forall2_insert; [done|].
    constructor. apply fdeq_refl. }
  assert (Hroll : forall s1 s2, veq i (mkNodeSt (pmap n1) s1) (mkNodeSt (pmap n2) s2) ->
    veq i (mkNodeSt (<[pid := (deallocate_fd (<[fid:=Some fd_default]> t1) fid).2]> (pmap n1)) s1)
          (mkNodeSt (<[pid := (deallocate_fd (<[fid:=Some fd_default]> t2) fid).2]> (pmap n2)) s2)).
  { intros s1 s2 Hs. apply (veq_pmap i _ _ pid _ _ Hs). by apply dealloc_veq. }
  destruct mn as [m|].
  - destruct (is_truncate flags).
    + pose proof (fs_truncate_veq i n1 n2 name H) as [E1 E2].
      destruct (fs_truncate (fs n1) name) as [r1 s1], (fs_truncate (fs n2) name) as [r2 s2].
      cbn in E1, E2. subst r2. destruct r1; cbn; auto.
    + cbn. split; [done|]. apply Hfin. by destruct n1, n2.
  - unfold fs_create. pose proof (fs_insert_node_veq i n1 n2 name modes RegFile H) as [E1 E2].
    destruct (fs_insert_node (fs n1) _ _ _) as [r1 s1], (fs_insert_node (fs n2) _ _ _) as [r2 s2].
    cbn in E1, E2. subst r2. destruct r1; cbn; auto.
Qed.

Lemma write_veq i a1 a2 n1 n2 pid fd m d off :
  veq i n1 n2 -> log_of nlogs m = i ->
  hint_ok n1 (FileWrite pid fd m d off) ->
  (dispatch_write a1 n1 pid fd d off).1 <> Err OutOfMemory ->
  (dispatch_write a2 n2 pid fd d off).1 <> Err OutOfMemory ->
  (dispatch_write a1 n1 pid fd d off).1 = (dispatch_write a2 n2 pid fd d off).1 /\
  veq i (dispatch_write a1 n1 pid fd d off).2 (dispatch_write a2 n2 pid fd d off).2.
Proof.
  intros H Hlog Hh. unfold dispatch_write. cbn in Hh. unfold fd_of in Hh.
  destruct (veq_table i n1 n2 pid H) as [t1 t2 Ht|]; [|done]. cbn in Hh.
  pose proof (get_fd_veq i t1 t2 fd Ht) as Hfd. fold (get_fd t1 fd) in Hh.
  destruct (get_fd t1 fd) as [e1|] eqn:E1; inversion Hfd as [? e2 He|]; subst; [|done].
  destruct He as (Hm & Hfl & Ho). specialize (Hh _ eq_refl). rewrite <- Hm, <- Hfl.
  rewrite Hh in *. specialize (Ho eq_refl).
  destruct (is_write (fd_flags e1)); [cbn [negb]|done].
  pose proof (v_m _ _ _ H m) as Hmm.
  assert (Hfi : fs_file_info (fs n1) m = fs_file_info (fs n2) m).
  { unfold fs_file_info. destruct Hmm as [x1 x2 (_&_&_&_&Hx)|]; [|done]. by rewrite (Hx eq_refl). }
  rewrite Hfi, Ho.
  set (curr := match off with Some o => Ok o | None => _ end).
  destruct curr as [c| |]; [|done..].
  unfold fs_write. destruct Hmm as [x1 x2 (_&_&_&_&Hx)|].
  2:{ cbn. intros. split; [done|]. by destruct n1, n2. }
  rewrite (Hx eq_refl) in *. clear Hx.
  pose proof (memnode_write_avail a1 a2 x2 d c) as Hav.
  destruct (memnode_write a1 x2 d c) as [r1 y1], (memnode_write a2 x2 d c) as [r2 y2]. cbn in Hav.
  intros N1 N2.
  assert (r1 = r2 /\ y1 = y2) as [-> ->].
  { assert ((r1, y1) = (r2, y2)) as X; [|by simplify_eq].
    apply Hav; intros ->; [by apply N1|by apply N2]. }
  assert (Hv : veq (log_of nlogs m)
     (mkNodeSt (pmap n1) (mkFs (<[m:=y2]> (mnodes (fs n1))) (files (fs n1)) (nextmno (fs n1))))
     (mkNodeSt (pmap n2) (mkFs (<[m:=y2]> (mnodes (fs n2))) (files (fs n2)) (nextmno (fs n2))))).
  { apply veq_fs; cbn; [done|apply H|apply H|]. apply mn_insert; [apply H|apply mneq_refl]. }
  destruct r2 as [len| |]; cbn; [|done..]. split; [done|]. destruct off; [done|].
  apply set_fd_veq; [done|done|]. unfold fd_update_offset, fdeq. cbn. split_and!; congruence.
Qed.

Lemma same_log i a1 a2 n1 n2 op :
  i < nlogs -> in_log i op -> hint_ok n1 op -> veq i n1 n2 ->
  (dispatch_mut a1 n1 op).1 <> Err OutOfMemory ->
  (dispatch_mut a2 n2 op).1 <> Err OutOfMemory ->
  (dispatch_mut a1 n1 op).1 = (dispatch_mut a2 n2 op).1 /\
  veq i (dispatch_mut a1 n1 op).2 (dispatch_mut a2 n2 op).2.
Proof.
  intros Hi Hin Hh H N1 N2.
  destruct op as [pid|pid name flags modes|pid fd m d off|pid fd|pid name|pid old new|pid name modes];
    cbn [dispatch_mut] in *.
  - destruct (veq_table i n1 n2 pid H) as [t1 t2 Ht|]; [done|]. cbn. split; [done|].
    apply veq_pmap; [done|apply tfd_refl].
  - by apply open_veq.
  - unfold CnrSpec.in_log in Hin. cbn in Hin. apply elem_of_list_singleton in Hin.
    by eapply write_veq.
  - destruct (veq_table i n1 n2 pid H) as [t1 t2 Ht|]; [|done].
    destruct (dealloc_veq i t1 t2 fd Ht) as [E1 E2].
    destruct (deallocate_fd t1 fd) as [r1 u1], (deallocate_fd t2 fd) as [r2 u2]. cbn in *. subst r2.
    destruct r1; cbn; [|done..]. split; [done|]. by apply veq_pmap.
  - destruct (veq_table i n1 n2 pid H); [|done]. unfold lift_fs.
    destruct (fs_delete_veq i n1 n2 name H) as [E1 E2]. cbn. by rewrite E1.
  - destruct (veq_table i n1 n2 pid H); [|done]. unfold lift_fs.
    destruct (fs_rename_veq i n1 n2 old new H) as [E1 E2]. cbn. by rewrite E1.
  - destruct (veq_table i n1 n2 pid H); [|done]. unfold lift_fs, fs_mkdir.
    destruct (fs_insert_node_veq i n1 n2 name modes Directory H) as [E1 E2]. cbn. by rewrite E1.
Qed.

(** ** Runs *)
Lemma rep_run_cons n a op l :
  rep_run n ((a, op) :: l) =
  ((dispatch_mut a n op).1 :: (rep_run (dispatch_mut a n op).2 l).1, (rep_run (dispatch_mut a n op).2 l).2).
Proof. cbn. destruct (dispatch_mut a n op) as [o n1]. cbn. by destruct (rep_run n1 l). Qed.

Lemma runs_agree i l1 : forall n1 n2 l2,
  i < nlogs -> veq i n1 n2 -> proj i l1 = proj i l2 ->
  hints_ok n1 l1 -> hints_ok n2 l2 ->
  Err OutOfMemory ∉ (rep_run n1 l1).1 -> Err OutOfMemory ∉ (rep_run n2 l2).1 ->
  veq i (rep_run n1 l1).2 (rep_run n2 l2).2 /\ outs i n1 l1 = outs i n2 l2.
Proof.
  unfold CnrSpec.proj. induction l1 as [|[a1 op1] l1 IH]; intros n1 n2 l2 Hi Hv Hp H1 H2 O1 O2.
  - cbn [fmap list_fmap] in Hp. rewrite filter_nil in Hp. cbn [rep_run snd outs].
    clear H1 O1. revert n2 Hv H2 O2. induction l2 as [|[a2 op2] l2 IH2]; intros n2 Hv H2 O2; [done|].
    rewrite fmap_cons, filter_cons in Hp. rewrite rep_run_cons in O2 |- *. cbn [snd fst] in *.
    case_decide as Hd; [done|]. destruct H2 as [Ha Hb]. cbn [outs]. rewrite decide_False by done.
    apply IH2; auto; [|set_solver]. eapply veq_trans; [exact Hv|]. by apply other_log.
  - rewrite fmap_cons, filter_cons in Hp. rewrite rep_run_cons in O1 |- *. cbn [snd fst] in *.
    destruct H1 as [Ha Hb]. cbn [outs]. case_decide as Hd.
    2:{ apply IH; auto; [|set_solver]. eapply veq_trans; [|exact Hv]. apply veq_sym. by apply other_log. }
    revert n2 Hv H2 O2. induction l2 as [|[a2 op2] l2 IH2]; intros n2 Hv H2 O2; [done|].
    rewrite fmap_cons, filter_cons in Hp. rewrite rep_run_cons in O2 |- *. cbn [snd fst] in *.
    destruct H2 as [Hc He]. cbn [outs]. case_decide as Hd2.
    + injection Hp as <- Hp. rewrite not_elem_of_cons in O1, O2. destruct O1 as [O1 O1'], O2 as [O2 O2'].
      destruct (same_log i a1 a2 n1 n2 op1) as [Eo Ev]; auto.
      destruct (IH _ _ l2 Hi Ev Hp Hb He O1' O2') as [K1 K2]. split; [done|]. by f_equal.
    + apply IH2; auto; [|set_solver]. eapply veq_trans; [exact Hv|]. by apply other_log.
Qed.

Lemma rep_run_app n l1 l2 :
  rep_run n (l1 ++ l2) =
  ((rep_run n l1).1 ++ (rep_run (rep_run n l1).2 l2).1, (rep_run (rep_run n l1).2 l2).2).
Proof.
  revert n. induction l1 as [|[a op] l1 IH]; intros n; [cbn [app rep_run fst snd]; by destruct (rep_run n l2)|].
  cbn [app]. rewrite !rep_run_cons, IH. done.
Qed.
Lemma hints_ok_app n l1 l2 : hints_ok n (l1 ++ l2) <-> hints_ok n l1 /\ hints_ok (rep_run n l1).2 l2.
Proof.
  revert n. induction l1 as [|[a op] l1 IH]; intros n; [cbn; tauto|].
  cbn [app hints_ok]. rewrite rep_run_cons, IH. cbn. tauto.
Qed.
Lemma proj_app i l1 l2 : proj i (l1 ++ l2) = proj i l1 ++ proj i l2.
Proof. unfold CnrSpec.proj. by rewrite fmap_app, filter_app. Qed.

Lemma logs_nonempty op : exists i, i < nlogs /\ in_log i op.
Proof.
  unfold CnrSpec.in_log. destruct op; cbn; try (exists 0; rewrite elem_of_seq; lia).
  exists (log_of nlogs mnode). split; [apply log_of_lt|set_solver].
Qed.

Lemma proj_cons i a op l : proj i ((a, op) :: l) = if decide (in_log i op) then op :: proj i l else proj i l.
Proof. unfold CnrSpec.proj. rewrite fmap_cons, filter_cons. done. Qed.

(** Splitting the reference order at the k-th operation of a log. *)
Lemma proj_split i l op p s : proj i l = p ++ op :: s ->
  exists l1 a l2, l = l1 ++ (a, op) :: l2 /\ proj i l1 = p.
Proof.
  revert p. induction l as [|[a o] l IH]; intros p Hp.
  { unfold CnrSpec.proj in Hp. cbn in Hp. destruct p; done. }
  rewrite proj_cons in Hp. case_decide as Hd.
  - destruct p as [|x p]; cbn in Hp; injection Hp as -> Hp.
    + exists [], a, l. done.
    + destruct (IH p Hp) as (l1 & a' & l2 & -> & E). exists ((a, x) :: l1), a', l2. split; [done|].
      rewrite proj_cons, decide_True by done. by rewrite E.
  - destruct (IH p Hp) as (l1 & a' & l2 & -> & E). exists ((a, o) :: l1), a', l2. split; [done|].
    rewrite proj_cons, decide_False by done. done.
Qed.

Lemma hints_transfer n0 l1 l2 :
  (forall i, i < nlogs -> proj i l2 `prefix_of` proj i l1) ->
  hints_ok n0 l1 ->
  Err OutOfMemory ∉ (rep_run n0 l1).1 -> Err OutOfMemory ∉ (rep_run n0 l2).1 ->
  hints_ok n0 l2.
Proof.
  intros Hpre H1 O1. induction l2 as [|[a op] l2 IH] using rev_ind; intros O2; [done|].
  rewrite rep_run_app in O2. cbn [fst] in O2. rewrite elem_of_app in O2.
  assert (hints_ok n0 l2) as H2.
  { apply IH; [|tauto]. intros i Hi. destruct (Hpre i Hi) as [x Hx]. rewrite proj_app, <- app_assoc in Hx.
    by eexists. }
  apply hints_ok_app. split; [done|]. cbn. split; [|done].
  destruct (logs_nonempty op) as (i & Hi & Hin).
  destruct (Hpre i Hi) as [x Hx]. rewrite proj_app, <- app_assoc in Hx.
  assert (Hop : proj i [(a, op)] = [op]).
  { by rewrite proj_cons, decide_True. }
  rewrite Hop in Hx. cbn in Hx.
  destruct (proj_split i l1 op (proj i l2) x Hx) as (p1 & a1 & s1 & -> & Hp1).
  apply hints_ok_app in H1 as [H1a [H1b _]].
  rewrite rep_run_app in O1. cbn [fst] in O1. rewrite elem_of_app in O1.
  destruct (runs_agree i p1 n0 n0 l2) as [Hv _]; auto using veq_refl.
  destruct op; cbn in *; try done. intros e He.
  pose proof (veq_fd i _ _ pid fd Hv) as Hf. rewrite He in Hf.
  inversion Hf as [e1 ? (Hm & _)|]; subst. rewrite <- Hm. apply H1b. congruence.
Qed.

(** ** Reads *)
Lemma read_same_log i n1 n2 op :
  veq i n1 n2 ->
  match op with
  | FileRead pid fd m dst off =>
      (forall e, fd_of n1 pid fd = Some e -> fd_mnode e = m) /\ log_of nlogs m = i
  | FileInfo pid name m =>
      (forall id, names n1 name = Some id -> id = m) /\ log_of nlogs m = i
  | _ => True
  end ->
  (dispatch n1 op).1 = (dispatch n2 op).1.
Proof.
  intros H Hop. destruct op as [pid fd m dst off|pid name m|pid fd|pid name|k]; cbn.
  - destruct Hop as [Hh Hlog]. unfold fd_of in Hh.
    destruct (veq_table i n1 n2 pid H) as [t1 t2 Ht|]; [|done]. cbn in Hh.
    pose proof (get_fd_veq i t1 t2 fd Ht) as Hfd. fold (get_fd t1 fd) in Hh.
    destruct (get_fd t1 fd) as [e1|] eqn:E1; inversion Hfd as [? e2 He|]; subst; [|done].
    destruct He as (Hm & Hfl & Ho). specialize (Hh _ eq_refl). rewrite <- Hm, <- Hfl.
    rewrite Hh in *. specialize (Ho eq_refl). rewrite Ho.
    destruct (is_read (fd_flags e1)); [cbn [negb]|done].
    unfold fs_read. destruct (v_m _ _ _ H m) as [x1 x2 (_&_&_&_&Hx)|]; [|done].
    rewrite (Hx eq_refl). by destruct (memnode_read x2 dst _) as [[]| |].
  - destruct Hop as [Hh Hlog]. destruct (veq_table i n1 n2 pid H); [|done].
    unfold fs_lookup. unfold names in Hh. rewrite (v_f _ _ _ H) in *.
    destruct (files (fs n2) !! name) as [id|]; [|done]. rewrite (Hh _ eq_refl).
    unfold fs_file_info. destruct (v_m _ _ _ H m) as [x1 x2 (_&_&_&_&Hx)|]; [|done].
    rewrite (Hx Hlog). destruct (mn_type x2); [done|]. by destruct (mn_file x2).
  - destruct (veq_table i n1 n2 pid H) as [t1 t2 Ht|]; [|done].
    destruct (get_fd_veq i t1 t2 fd Ht) as [e1 e2 (Hm & _)|]; [|done]. cbn. by rewrite Hm.
  - destruct (veq_table i n1 n2 pid H); [|done]. unfold fs_lookup. rewrite (v_f _ _ _ H).
    by destruct (files (fs n2) !! name).
  - done.
Qed.

End cnr.

Lemma ev_run_muts l : forall n,
  (forall op, ERead op ∈ l -> forall pid fd m dst, op <> FileRead pid fd m dst None) ->
  ev_run n l = (rep_run n (muts l)).2.
Proof.
  induction l as [|[a op|op] l IH]; intros n H; [done| |].
  - cbn [ev_run]. unfold muts. cbn [omap list_omap]. rewrite rep_run_cons. cbn. apply IH. set_solver.
  - cbn [ev_run]. unfold muts. cbn [omap list_omap]. fold (muts l). rewrite <- IH by set_solver.
    f_equal. assert (Hx := H op ltac:(set_solver)). clear -Hx.
    destruct op as [pid fd m dst [o|]|pid name m|pid fd|pid name|k]; cbn.
    + destruct (pmap n !! pid) as [t|]; [|done]. destruct (get_fd t fd) as [e|]; [|done].
      destruct (negb _); [done|]. by destruct (fs_read _ _ _ _) as [[]| |].
    + by edestruct Hx.
    + destruct (pmap n !! pid); [|done]. destruct (fs_lookup _ _); [|done]. by destruct (fs_file_info _ _).
    + destruct (pmap n !! pid); [|done]. by destruct (get_fd _ _).
    + destruct (pmap n !! pid); [|done]. by destruct (fs_lookup _ _).
    + done.
Qed.
