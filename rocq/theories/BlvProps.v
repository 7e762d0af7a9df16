(** C58: the address space the bootloader builds. *)
From Verif Require Import Base VsModel VsProofs BlvModel BlvSpec BlvProofs.

Lemma bl_flags_lets b a w x : a <> BNone ->
  lets bl_table_flags false w x && lets (bl_flags b a) false w x = asks_kernel a w x.
Proof. by destruct a, w, x, b. Qed.

Lemma bl_flags_page b a u w x : a <> BNone -> lets (bl_flags b a) u w x = if u then asks_user a w x else asks_kernel a w x.
Proof. by destruct a, u, w, x, b. Qed.

(** Full property: a map that returns makes exactly the region asked for lead to the physical region
    asked for, with exactly the rights asked for in kernel mode and in user mode, and changes no
    other address.  Missing: user mode, refuted below; the entry of the page itself has the rights asked for. *)
Theorem C58_maps_partial : forall t vb pb ps a t',
  (vb + ps <= 2 ^ 48)%N -> bl_map t vb pb ps a = Ok t' ->
  forall va, (va < 2 ^ 48)%N ->
    (in_range vb ps va ->
       bl_resolve t' va = Some (pb + (va - vb))%N /\
       (forall write exec, access t' va false write exec = if asks_kernel a write exec then Some (pb + (va - vb))%N else None) /\
       forall user write exec, page_lets t' va user write exec = if user then asks_user a write exec else asks_kernel a write exec) /\
    (~ in_range vb ps va ->
       bl_resolve t' va = bl_resolve t va /\
       forall user write exec, access t' va user write exec = access t va user write exec /\
         page_lets t' va user write exec = page_lets t va user write exec).
Proof.
  intros t vb pb ps a t' Hb H va Hva. unfold bl_map in H.
  destruct (bl_aligned _ _ _ _ _ _ _ H) as (_ & _ & _ & Ha).
  destruct (N.eq_dec ps 0) as [->|Hps].
  - pose proof (bl_view0 _ _ _ _ _ _ H va) as E. split; [intros [R1 R2]; lia|]. intros _.
    unfold bl_resolve, access, page_lets. by rewrite E.
  - destruct (bl_view _ _ _ _ _ _ _ H ltac:(lia) Hb va Hva) as [I1 I2]. split; intros R.
    + destruct (I1 R) as (l & sz & b & E & Ep & Ef). unfold bl_resolve, access, page_lets. rewrite E, Ep, Ef. split; [done|].
      split; [intros w x; by rewrite (bl_flags_lets b a w x Ha)|]. intros u w x. by apply bl_flags_page.
    + unfold bl_resolve, access, page_lets. by rewrite (I2 R).
Qed.
Print Assumptions C58_maps_partial.

Lemma bl_maps t vb pb ps a t' : (vb + ps <= 2 ^ 48)%N -> bl_map t vb pb ps a = Ok t' ->
  forall va, (va < 2 ^ 48)%N ->
    (in_range vb ps va ->
       bl_resolve t' va = Some (pb + (va - vb))%N /\
       forall write exec, access t' va false write exec = if asks_kernel a write exec then Some (pb + (va - vb))%N else None) /\
    (~ in_range vb ps va ->
       bl_resolve t' va = bl_resolve t va /\
       forall user write exec, access t' va user write exec = access t va user write exec).
Proof.
  intros Hb H va Hva. destruct (C58_maps_partial _ _ _ _ _ _ Hb H va Hva) as [A B]. split.
  - intros R. destruct (A R) as (A1 & A2 & _). done.
  - intros R. destruct (B R) as (B1 & B2). split; [done|]. intros u w x. apply B2.
Qed.

(** A region that is page aligned and free is mapped: no panic. *)
Theorem C58_free : forall t vb pb ps a,
  (vb mod 4096 = 0)%N -> (pb mod 4096 = 0)%N -> (ps mod 4096 = 0)%N -> a <> BNone ->
  (0 < ps)%N -> (vb + ps <= 2 ^ 48)%N -> free_range t vb ps ->
  exists t', bl_map t vb pb ps a = Ok t'.
Proof.
  intros t vb pb ps a A1 A2 A3 A4 Hps Hb Hf. apply bl_total; try done.
  - rewrite Nat2N.inj_succ, N2Nat.id. lia.
  - intros va R. specialize (Hf va R). unfold bl_resolve in Hf. by destruct (walk t va) as [[]|].
Qed.
Print Assumptions C58_free.

(** Anything not page aligned, or no rights, panics before a table is changed. *)
Theorem C58_rejects : forall t vb pb ps a,
  (vb mod 4096 <> 0 \/ pb mod 4096 <> 0 \/ ps mod 4096 <> 0)%N \/ a = BNone -> bl_map t vb pb ps a = Panic.
Proof.
  intros t vb pb ps a H. unfold bl_map.
  unfold bl_generic; fold bl_generic. change 4096%N with BASE in H.
  destruct (N.eqb_spec (pb mod BASE) 0); [|done].
  destruct (N.eqb_spec (ps mod BASE) 0); [|done].
  destruct (N.eqb_spec (vb mod BASE) 0); [|done].
  destruct H as [H|H]; [exfalso; tauto|]. by rewrite (bool_decide_eq_true_2 _ H).
Qed.
Print Assumptions C58_rejects.

(** Full property: a map that touches a mapped address panics, so a mapping once made stays.
    Proved for regions no 2 MiB page fits; refuted below for the others. *)
Theorem C58_overlap_partial : forall t vb pb ps a va,
  (vb + ps <= 2 ^ 48)%N -> (ps < 2097152 \/ vb mod 2097152 <> pb mod 2097152)%N ->
  in_range vb ps va -> bl_resolve t va <> None ->
  forall t', bl_map t vb pb ps a <> Ok t'.
Proof.
  intros t vb pb ps a va Hb Hl R Hm t' H. apply Hm. unfold bl_resolve.
  rewrite (bl_no_large _ _ _ _ _ _ _ H); [done| |done|done|done]. destruct R. lia.
Qed.
Print Assumptions C58_overlap_partial.

Definition is_ok {A} (r : res A) : bool := match r with Ok _ => true | _ => false end.
Lemma ok_of (r : res (gmap N (gmap N pdpte))) : is_ok r = true -> r = Ok (match r with Ok t => t | _ => ∅ end).
Proof. by destruct r. Qed.

(** A region of two large pages replaces what was mapped in its second half. *)
Definition bx0 : gmap N (gmap N pdpte) :=
  match bl_map ∅ 2097152 20971520 2097152 BReadKernel with Ok t => t | _ => ∅ end.
Definition bx1 : gmap N (gmap N pdpte) :=
  match bl_map bx0 0 0 4194304 BReadWriteKernel with Ok t => t | _ => ∅ end.
Theorem C58_overlap_refuted : exists t vb pb ps a t' va pa,
  bl_built t /\ (vb + ps <= 2 ^ 48)%N /\ in_range vb ps va /\ bl_resolve t va = Some pa /\
  bl_map t vb pb ps a = Ok t' /\ bl_resolve t' va <> Some pa /\
  access t va false true false = None /\ access t' va false true false <> None.
Proof.
  exists bx0, 0%N, 0%N, 4194304%N, BReadWriteKernel, bx1, 2097152%N, 20971520%N.
  split. { apply (built_map ∅ 2097152 20971520 2097152 BReadKernel); [constructor|lia|apply ok_of; vm_compute; reflexivity]. }
  split; [lia|]. split; [split; lia|]. split; [vm_compute; reflexivity|].
  split; [apply ok_of; vm_compute; reflexivity|].
  split; [vm_compute; discriminate|]. split; [vm_compute; reflexivity|vm_compute; discriminate].
Qed.
Print Assumptions C58_overlap_refuted.

(** No action, however often used, lets user mode in: the upper tables are kernel only. *)
Theorem C58_user_refuted :
  (exists t', bl_map ∅ 4096 8192 4096 BReadUser = Ok t' /\ asks_user BReadUser false false = true /\
     access t' 4096 false false false = Some 8192%N /\ access t' 4096 true false false = None) /\
  (forall t va write exec, access t va true write exec = None).
Proof.
  split.
  - eexists. split; [by vm_compute|]. split; [done|]. split; by vm_compute.
  - intros t va w x. unfold access. by destruct (walk t va) as [[]|].
Qed.
Print Assumptions C58_user_refuted.

(** 2 MiB and 4 KiB pages in one call, next to an existing mapping. *)
Definition bx2 : gmap N (gmap N pdpte) :=
  match bl_map ∅ 4096 12288 8192 BReadExecuteKernel with Ok t => t | _ => ∅ end.
Definition bx3 : gmap N (gmap N pdpte) :=
  match bl_map bx2 4194304 4194304 2101248 BReadWriteKernel with Ok t => t | _ => ∅ end.
Example C58_hyps_met :
  bl_map ∅ 4096 12288 8192 BReadExecuteKernel = Ok bx2 /\
  free_range bx2 4194304 2101248 /\
  bl_map bx2 4194304 4194304 2101248 BReadWriteKernel = Ok bx3 /\
  walk bx3 4194304 = Some (mkLeaf 4194304 (bl_flags true BReadWriteKernel), LARGE) /\
  walk bx3 6291456 = Some (mkLeaf 6291456 (bl_flags false BReadWriteKernel), BASE) /\
  bl_resolve bx3 8192 = Some 16384%N /\ bl_map bx3 8192 0 4096 BReadKernel = Panic.
Proof.
  assert (E : bl_map ∅ 4096 12288 8192 BReadExecuteKernel = Ok bx2) by (apply ok_of; vm_compute; reflexivity).
  split; [exact E|]. split.
  { intros va R. destruct (N.lt_ge_cases va (2 ^ 48)) as [L|L]; [|destruct R; lia].
    destruct (C58_maps_partial ∅ 4096 12288 8192 _ bx2 ltac:(lia) E va L) as [_ X].
    destruct X as [X _]; [intros [? ?]; destruct R; lia|]. rewrite X. unfold bl_resolve, walk. by rewrite lookup_empty. }
  split; [apply ok_of; vm_compute; reflexivity|]. split; [vm_compute; reflexivity|]. split; [vm_compute; reflexivity|].
  split; vm_compute; reflexivity.
Qed.
