(** C60: the memory the bootloader maps for the kernel. *)
From Verif Require Import Base VsModel VsProofs ElfModel BlvModel BlvSpec BlvProofs BlvProps BliModel BliProofs BlpModel BlpSpec BlpProofs.
Local Arguments N.pow : simpl never.

(** Full property (bootloader/src/main.rs:31-34): all memory the firmware reports is mapped 1:1 and in
    kernel space, with the rights of its type; the stack can be used and the page below it not.
    Missing, and refuted below: descriptors at 0 or next to the interrupt controller, kernel space
    for the other types; the page below the stack can be read. *)
Theorem C60_boot_partial : forall t s ds,
  map_ok ds -> (s mod 4096 = 0)%N -> (s + STACK <= 2 ^ 46)%N ->
  (forall d x, d ∈ ds -> kernel_needs (ud_ty d) -> in_desc d x -> ~ in_range s STACK x) ->
  free_range t 0 (2 ^ 46) -> free_range t (2 ^ 46 + s) STACK ->
  (forall d, d ∈ ds -> kernel_needs (ud_ty d) -> free_range t (2 ^ 46 + ud_start d) (ud_len d)) ->
  exists t', p_boot t s ds = Ok t' /\
    (forall d x, d ∈ ds -> usable (ud_ty d) = true -> ud_start d <> 0%N -> in_desc d x ->
       ~ (ud_start d <= APIC /\ APIC <= ud_start d + ud_len d)%N -> forall write exec,
       access t' x false write exec = (if desc_asks (ud_ty d) write exec then Some x else None) /\
       (kernel_needs (ud_ty d) -> access t' (2 ^ 46 + x) false write exec = if desc_asks (ud_ty d) write exec then Some x else None)) /\
    (forall x write exec, in_range (s + 4096) (STACK - 4096) x ->
       access t' (2 ^ 46 + x) false write exec = if exec then None else Some x) /\
    (forall x exec, in_range s 4096 x -> access t' (2 ^ 46 + x) false true exec = None) /\
    (forall va user write exec, (va < 2 ^ 48)%N ->
       (forall d, d ∈ ds -> ~ in_desc d va) -> (forall d x, d ∈ ds -> kernel_needs (ud_ty d) -> in_desc d x -> va <> (2 ^ 46 + x)%N) ->
       ~ in_range (2 ^ 46 + s) STACK va -> access t' va user write exec = access t va user write exec).
Proof.
  intros t s ds [Me Ma] Hs Hb Hst F0 Fs Fk.
  destruct (descs_jobs_ok ds Me Ma) as [J1 J2].
  assert (O : ((KOFF + s) mod 4096 = 0)%N) by (apply mod_add_zero; [lia|done|done]).
  assert (O1 : ((s + 4096) mod 4096 = 0)%N) by (apply mod_add_zero; [lia|done|done]).
  assert (O2 : ((KOFF + (s + 4096)) mod 4096 = 0)%N) by (apply mod_add_zero; [lia|done|done]).
  rewrite p_boot_jobs.
  assert (S1 : Forall job_ok (stack_jobs s)).
  { constructor; [|constructor; [|constructor]]; unfold job_ok; cbn [j_va j_pa j_len j_act].
    - split; [done|]. split; [done|]. split; [done|]. split; [done|]. split; [unfold KOFF; lia|done].
    - split; [done|]. split; [done|]. split; [done|]. split; [done|]. split; [unfold KOFF, STACK in *; lia|done]. }
  assert (S2 : djs (stack_jobs s)).
  { split; [|split; [|done]].
    - intros j va J [R1 R2]. apply elem_of_list_singleton in J as ->. intros [R3 R4]. cbn in *. lia.
    - intros j va J. by apply elem_of_nil in J. }
  assert (S3 : forall j va, j ∈ stack_jobs s -> job_in j va -> in_range (2 ^ 46 + s) STACK va).
  { intros j va J [R1 R2]. unfold stack_jobs in J. rewrite !elem_of_cons in J. unfold STACK, KOFF in *.
    destruct J as [->|[->|J]]; [| |by apply elem_of_nil in J]; cbn [j_va j_len] in *; split; lia. }
  destruct (jobs_ok (stack_jobs s ++ flat_map desc_jobs ds) t) as (t' & Et & T1 & T2).
  - by apply stdpp.list.Forall_app.
  - apply djs_app; [done|done|]. intros j j' va J J' R R'. apply S3 in R; [|done].
    apply in_flat in J' as (d & D & J'). eapply stdpp.list.Forall_forall in Me as Fd; [|exact D].
    destruct (desc_job_in d j' va J' R' Fd) as [[X1 X2]|(X1 & X2 & X3)]; [destruct R; lia|].
    apply (Hst d (va - 2 ^ 46)%N D); [by apply p_kernel_needs|done|]. destruct R. split; lia.
  - intros j J va R. apply elem_of_app in J as [J|J]; [apply Fs; by eapply S3|].
    apply in_flat in J as (d & D & J). eapply stdpp.list.Forall_forall in Me as Fd; [|exact D].
    destruct (desc_job_in d j va J R Fd) as [[X1 X2]|(X1 & X2 & X3)]; [apply F0; split; lia|].
    apply (Fk d D); [by apply p_kernel_needs|]. destruct X3. split; lia.
  - exists t'. split; [done|]. split; [|split; [|split]].
    + intros d x D U Z R A w e.
      assert (Sk : p_skip d = false).
      { unfold p_skip. unfold APIC in A. destruct (N.eqb_spec (ud_start d) 0); [done|]. cbn [orb].
        apply not_true_is_false. intros X. apply andb_true_iff in X as [X1 X2]. apply N.leb_le in X1, X2. lia. }
      pose proof (usable_rights _ U) as Nr.
      assert (Dj : desc_jobs d = Jb (ud_start d) (ud_start d) (ud_len d) (p_rights (ud_ty d)) ::
        if p_kernel (ud_ty d) then [Jb (KOFF + ud_start d) (ud_start d) (ud_len d) (p_rights (ud_ty d))] else []).
      { unfold desc_jobs. by rewrite Sk, (bool_decide_eq_false_2 _ Nr). }
      split.
      * rewrite (T1 (Jb (ud_start d) (ud_start d) (ud_len d) (p_rights (ud_ty d))) x).
        -- cbn [j_va j_pa j_act]. rewrite rights_asks. destruct R. by replace (ud_start d + (x - ud_start d))%N with x by lia.
        -- apply elem_of_app. right. apply in_flat. exists d. split; [done|]. rewrite Dj. by left.
        -- done.
      * intros Kn. apply p_kernel_needs in Kn. rewrite Kn in Dj.
        rewrite (T1 (Jb (KOFF + ud_start d) (ud_start d) (ud_len d) (p_rights (ud_ty d))) (2 ^ 46 + x)%N).
        -- cbn [j_va j_pa j_act]. rewrite rights_asks. destruct R. unfold KOFF.
           by replace (ud_start d + (2 ^ 46 + x - (2 ^ 46 + ud_start d)))%N with x by lia.
        -- apply elem_of_app. right. apply in_flat. exists d. split; [done|]. rewrite Dj. right. by left.
        -- destruct R. unfold job_in, in_range, KOFF. cbn [j_va j_len]. lia.
    + intros x w e [R1 R2]. rewrite (T1 (Jb (KOFF + (s + 4096)) (s + 4096) (STACK - 4096) BReadWriteKernel) (2 ^ 46 + x)%N).
      * cbn [j_va j_pa j_act asks_kernel]. unfold KOFF.
        replace (s + 4096 + (2 ^ 46 + x - (2 ^ 46 + (s + 4096))))%N with x by lia. by destruct e.
      * apply elem_of_app. left. right. by left.
      * unfold job_in, in_range, KOFF. cbn [j_va j_len]. lia.
    + intros x e [R1 R2]. rewrite (T1 (Jb (KOFF + s) s 4096 BReadUser) (2 ^ 46 + x)%N).
      * done.
      * apply elem_of_app. left. by left.
      * unfold job_in, in_range, KOFF. cbn [j_va j_len]. lia.
    + intros va u w e Hva N1 N2 N3. destruct (T2 va Hva) as [_ X]; [|apply X].
      intros j J R. apply elem_of_app in J as [J|J]; [apply N3; by eapply S3|].
      apply in_flat in J as (d & D & J). eapply stdpp.list.Forall_forall in Me as Fd; [|exact D].
      destruct (desc_job_in d j va J R Fd) as [[X1 X2]|(X1 & X2 & X3)]; [by apply (N1 d D)|].
      apply (N2 d (va - 2 ^ 46)%N D); [by apply p_kernel_needs|done|lia].
Qed.
Print Assumptions C60_boot_partial.

(** A machine with free memory, firmware memory, the stack's own descriptor, the controller's range. *)
Definition px : list udesc :=
  [Ud UCONVENTIONAL 1048576 512; Ud URUNTIME_SERVICES_DATA 3145728 3; Ud UKERNEL_STACK 4194304 1024; Ud UMMIO 4276092928 1; Ud UKERNEL_ELF 12582912 2]%N.
Lemma px_apart : map_ok px.
Proof.
  split; [repeat constructor; cbn; lia|].
  intros i j d d' x Hi Hj X Y.
  do 5 (destruct i as [|i]; [do 5 (destruct j as [|j]; [first [reflexivity | injection Hi as <-; injection Hj as <-; unfold in_desc, in_range in X, Y; cbn in X, Y; lia]|]); by destruct j|]).
  by destruct i.
Qed.
Example C60_hyps_met : map_ok px /\ (forall d x, d ∈ px -> kernel_needs (ud_ty d) -> in_desc d x -> ~ in_range 4194304 STACK x) /\
  exists t', p_boot ∅ 4194304 px = Ok t' /\ access t' 1052672 false true true = Some 1052672%N /\
    access t' (2 ^ 46 + 1052672)%N false true true = Some 1052672%N /\ access t' 3145729 false true true = None /\
    access t' 3145729 false true false = Some 3145729%N.
Proof.
  split; [apply px_apart|].
  assert (S : forall d x, d ∈ px -> kernel_needs (ud_ty d) -> in_desc d x -> ~ in_range 4194304 STACK x).
  { intros d x D K X Y. unfold px in D. rewrite !elem_of_cons in D. unfold in_desc, in_range, STACK, kernel_needs in *.
    destruct D as [->|[->|[->|[->|[->|D]]]]]; [| | | | |by apply elem_of_nil in D]; cbn in *; try lia;
      destruct K as [K|[K|[K|[K|[K|K]]]]]; discriminate K. }
  split; [done|].
  assert (Fe : forall a b, free_range ∅ a b). { intros a b va _. unfold bl_resolve, walk. by rewrite lookup_empty. }
  destruct (C60_boot_partial ∅ 4194304 px px_apart eq_refl ltac:(unfold STACK; lia) S (Fe _ _) (Fe _ _) ltac:(intros; apply Fe))
    as (t' & E & T1 & _).
  exists t'. split; [done|].
  destruct (T1 (Ud UCONVENTIONAL 1048576 512) 1052672%N ltac:(by left) eq_refl ltac:(done) ltac:(split; cbn; lia) ltac:(unfold APIC, ud_len; cbn; lia) true true) as [A B].
  destruct (T1 (Ud URUNTIME_SERVICES_DATA 3145728 3) 3145729%N ltac:(right; by left) eq_refl ltac:(done) ltac:(split; cbn; lia) ltac:(unfold APIC, ud_len; cbn; lia) true true) as [C _].
  destruct (T1 (Ud URUNTIME_SERVICES_DATA 3145728 3) 3145729%N ltac:(right; by left) eq_refl ltac:(done) ltac:(split; cbn; lia) ltac:(unfold APIC, ud_len; cbn; lia) true false) as [D _].
  split; [exact A|]. split; [apply B; by left|]. split; [exact C|exact D].
Qed.

Definition tab_of (r : res (gmap N (gmap N pdpte))) : gmap N (gmap N pdpte) := match r with Ok t => t | _ => ∅ end.
Lemma tab_ok r : is_ok r = true -> r = Ok (tab_of r). Proof. by destruct r. Qed.
Lemma one_ok ty st n : (st mod 4096 = 0)%N -> (0 < n)%N -> (st + n * 4096 <= 2 ^ 46)%N -> map_ok [Ud ty st n].
Proof.
  intros A B C. split; [by repeat constructor|]. intros i j d d' x Hi Hj.
  destruct i as [|i]; [|by destruct i]. destruct j as [|j]; [done|by destruct j].
Qed.

(** Free memory at physical address 0, free memory that ends where the interrupt controller begins, and
    firmware data in kernel space: reported, usable, not mapped. *)
Theorem C60_unmapped_refuted :
  (exists t' d x, map_ok [d] /\ ud_ty d = UCONVENTIONAL /\ in_desc d x /\ p_boot ∅ 4194304 [d] = Ok t' /\ ud_start d = 0%N /\
     access t' x false false false = None /\ access t' (2 ^ 46 + x) false false false = None) /\
  (exists t' d x, map_ok [d] /\ ud_ty d = UCONVENTIONAL /\ in_desc d x /\ p_boot ∅ 4194304 [d] = Ok t' /\ ~ in_desc d APIC /\ ud_start d <> 0%N /\
     access t' x false false false = None /\ access t' (2 ^ 46 + x) false false false = None) /\
  (exists t' d x, map_ok [d] /\ ud_ty d = URUNTIME_SERVICES_DATA /\ in_desc d x /\ p_boot ∅ 4194304 [d] = Ok t' /\ ~ in_desc d APIC /\ ud_start d <> 0%N /\
     access t' x false false false = Some x /\ access t' (2 ^ 46 + x) false false false = None).
Proof.
  split; [|split].
  - exists (tab_of (p_boot ∅ 4194304 [Ud UCONVENTIONAL 0 2])), (Ud UCONVENTIONAL 0 2), 4096%N.
    split; [by apply one_ok|]. split; [done|]. split; [split; cbn; lia|].
    split; [apply tab_ok; vm_compute; reflexivity|]. split; [done|]. split; vm_compute; reflexivity.
  - exists (tab_of (p_boot ∅ 4194304 [Ud UCONVENTIONAL 4276088832 1])), (Ud UCONVENTIONAL 4276088832 1), 4276088832%N.
    split; [by apply one_ok|]. split; [done|]. split; [split; cbn; lia|].
    split; [apply tab_ok; vm_compute; reflexivity|]. split; [intros [_ X]; unfold APIC, ud_len in X; cbn [ud_start ud_pages] in X; lia|]. split; [done|].
    split; vm_compute; reflexivity.
  - exists (tab_of (p_boot ∅ 4194304 [Ud URUNTIME_SERVICES_DATA 8388608 1])), (Ud URUNTIME_SERVICES_DATA 8388608 1), 8388608%N.
    split; [by apply one_ok|]. split; [done|]. split; [split; cbn; lia|].
    split; [apply tab_ok; vm_compute; reflexivity|]. split; [intros [_ X]; unfold APIC, ud_len in X; cbn [ud_start ud_pages] in X; lia|]. split; [done|].
    split; vm_compute; reflexivity.
Qed.
Print Assumptions C60_unmapped_refuted.

(** The page below the stack can be read by the kernel; the whole stack region, that page included,
    can be written 1:1. *)
Theorem C60_guard_refuted : exists t',
  p_boot ∅ 4194304 px = Ok t' /\ access t' (2 ^ 46 + 4194304) false false false = Some 4194304%N /\
  access t' 4194304 false true false = Some 4194304%N.
Proof.
  exists (tab_of (p_boot ∅ 4194304 px)). split; [apply tab_ok; vm_compute; reflexivity|].
  split; vm_compute; reflexivity.
Qed.
Print Assumptions C60_guard_refuted.
