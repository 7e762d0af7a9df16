(** C68: every thread has its own thread-local variables, with their initial values. *)
From Verif Require Import Base InfModel TlsModel TlsSpec TlsProofs.
Local Open Scope N_scope.

Lemma pow2_pos k : 0 < 2 ^ k.
Proof. apply N.neq_0_lt_0. by apply N.pow_nonzero. Qed.

(** A program sees in its variables the template and then what the same thread has stored, whatever other threads do, and
    finds its own control block. *)
Theorem C68_own_variables_partial : forall i m l,
  ti_ok (default no_tls i) -> ti_total (default no_tls i) mod ti_align (default no_tls i) = 0 ->
  user_legal i m l ->
  (user_run i (ts_init m) l).2 =
    map (shown (ts_tcb (user_run i (ts_init m) l).1)) (sp_run (ti_data (default no_tls i)) sp_init l).2.
Proof.
  intros i m l [Hd [k Hk]] Hz HL. assert (Ha : 0 < ti_align (default no_tls i)) by (rewrite Hk; apply pow2_pos).
  assert (H8 : 8 <= UTCB) by (unfold UTCB; lia). destruct i as [i|].
  - by apply (run_inv UTCB (ti_total i) (ti_align i) (ti_align i) (ti_data i) Ha Hd Hz H8 l _ _ (init_tinv _ _ _ m) HL).
  - by apply (run_inv UTCB 0 1 8 [] Ha Hd Hz H8 l _ _ (init_tinv _ _ _ m) HL).
Qed.
Print Assumptions C68_own_variables_partial.

(** The same on the cores of the kernel, which does not start with a template whose size is no multiple of 8. *)
Theorem C68_kernel_variables_partial : forall i m l,
  ti_ok i -> ti_total i mod ti_align i = 0 -> ti_total i mod 8 = 0 -> 0 < ti_total i ->
  kernel_legal i m l ->
  exists s xs, kernel_run i (ts_init m) l = Ok (s, xs) /\ xs = map (shown (ts_tcb s)) (sp_run (ti_data i) sp_init l).2.
Proof.
  intros i m l [Hd [k Hk]] Hz H8 H0 HL. assert (Ha : 0 < ti_align i) by (rewrite Hk; apply pow2_pos).
  unfold kernel_run, kernel_layout.
  assert (E : (0 <? ti_align i) && (ti_align i =? 2 ^ N.log2 (ti_align i)) = true).
  { apply andb_true_intro. split; [by apply N.ltb_lt|]. apply N.eqb_eq. rewrite Hk. by rewrite N.log2_pow2 by lia. }
  rewrite E. cbn [negb]. rewrite (proj2 (N.eqb_eq _ _) H8). cbn [negb].
  rewrite (proj2 (N.eqb_neq _ _)) by lia.
  pose proof (run_inv KTCB (ti_total i) (ti_align i) (N.max (ti_align i) 8) (ti_data i) Ha Hd Hz ltac:(unfold KTCB; lia) l _ _
    (init_tinv _ _ _ m) HL) as (_ & _ & R).
  eexists _, _. split; [|exact R]. by destruct (t_run _ _ _ _ _ _ _).
Qed.
Print Assumptions C68_kernel_variables_partial.

Lemma mod_add_r b a n : 0 < n -> b mod n = 0 -> (b + a) mod n = a mod n.
Proof. intros Hn Hb. rewrite N.add_mod by lia. rewrite Hb, N.add_0_l. by apply N.mod_mod; lia. Qed.

(** Variables are as aligned as in the template. *)
Theorem C68_alignment_partial : forall i m l t o,
  ti_ok i -> ti_total i mod ti_align i = 0 -> user_legal (Some i) m l ->
  t ∈ ts_tcb (user_run (Some i) (ts_init m) l).1 ->
  tv_addr (ti_total i) (ti_align i) t (VVar o) mod ti_align i = o mod ti_align i /\
  (8 <= ti_align i -> t mod 8 = 0).
Proof.
  intros i m l t o [Hd [k Hk]] Hz HL Ht. assert (Ha : 0 < ti_align i) by (rewrite Hk; apply pow2_pos).
  destruct (aligned_areas UTCB (ti_total i) (ti_align i) (ti_align i) (ti_data i) Ha Hd Hz ltac:(unfold UTCB; lia) l (ts_init m) sp_init HL
    ltac:(intros u Hu; by apply elem_of_nil in Hu) t Ht) as (b & -> & Hb).
  split.
  - cbn [tv_addr]. rewrite round_up_id by done. replace (b + ti_total i + o - ti_total i) with (b + o) by lia. by apply mod_add_r.
  - intros H8. assert (Hk3 : 3 <= k).
    { destruct (decide (3 <= k)) as [|Hn]; [done|]. assert (k < 3) by lia. exfalso.
      assert (2 ^ k < 2 ^ 3) by (apply N.pow_lt_mono_r; lia). lia. }
    assert (E : ti_align i = 8 * 2 ^ (k - 3)). { rewrite Hk. change 8 with (2 ^ 3). rewrite <- N.pow_add_r. f_equal. lia. }
    assert (Hm : (b + ti_total i) mod ti_align i = 0) by (rewrite mod_add_r by done; done).
    rewrite E, N.mod_mul_r in Hm; [|done|by apply N.pow_nonzero]. by apply N.eq_add_0 in Hm as [Hm _].
Qed.
Print Assumptions C68_alignment_partial.

(** The same for the kernel, and for the blocks it really asks for: with the size and the alignment of its layout. *)
Theorem C68_kernel_alignment_partial : forall i m l t o size al,
  ti_ok i -> ti_total i mod ti_align i = 0 -> kernel_layout i = Ok (size, al) ->
  t_legals size KTCB (ti_total i) (ti_align i) al (ti_data i) (ts_init m) sp_init l ->
  t ∈ ts_tcb (t_run size KTCB (ti_total i) (ti_align i) (ti_data i) (ts_init m) l).1 ->
  tv_addr (ti_total i) (ti_align i) t (VVar o) mod ti_align i = o mod ti_align i /\ t mod 8 = 0.
Proof.
  intros i m l t o size al [Hd [k Hk]] Hz HY HL Ht. assert (Ha : 0 < ti_align i) by (rewrite Hk; apply pow2_pos).
  unfold kernel_layout in HY. destruct (negb (_ && _)); [discriminate HY|]. destruct (negb (ti_total i mod 8 =? 0)) eqn:E8; [discriminate HY|].
  destruct (ti_total i =? 0); [discriminate HY|]. injection HY as <- <-. apply negb_false_iff, N.eqb_eq in E8.
  destruct (aligned_areas KTCB (ti_total i) (ti_align i) (N.max (ti_align i) 8) (ti_data i) Ha Hd Hz ltac:(unfold KTCB; lia) l (ts_init m) sp_init HL
    ltac:(intros u Hu; by apply elem_of_nil in Hu) t Ht) as (b & -> & Hb).
  assert (D : forall d, (exists j, d = 2 ^ j) -> d <= N.max (ti_align i) 8 -> b mod d = 0).
  { intros d [j ->] Hle. apply N.mod_divide; [by apply N.pow_nonzero|]. apply N.mod_divide in Hb; [|lia].
    apply N.divide_trans with (N.max (ti_align i) 8); [|exact Hb].
    assert (P : exists n, N.max (ti_align i) 8 = 2 ^ n) by (destruct (N.max_spec (ti_align i) 8) as [[_ ->]|[_ ->]]; [by exists 3|by exists k]).
    destruct P as [n En]. rewrite En in *. assert (j <= n) by (apply N.pow_le_mono_r_iff in Hle; lia).
    exists (2 ^ (n - j)). rewrite <- N.pow_add_r. f_equal. lia. }
  split.
  - cbn [tv_addr]. rewrite round_up_id by done. replace (b + ti_total i + o - ti_total i) with (b + o) by lia. apply mod_add_r; [done|].
    apply D; [by exists k|lia].
  - rewrite mod_add_r; [done|lia|]. apply D; [by exists 3|lia].
Qed.
Print Assumptions C68_kernel_alignment_partial.

(** ** Refuted *)
Definition i9 : tinfo := mkTi [5; 0; 0; 0; 0; 0; 0; 0; 6] 9 8.
Definition l9 : list top := [OSpawn 1000; ODispatch 0 0; OLoad 0 (VVar 0)].
(** A template whose size is no multiple of its alignment: variables are found before the block, they do not have their
    initial value and storing to them changes memory of somebody else. *)
Theorem C68_size_refuted :
  ti_ok i9 /\ user_legal (Some i9) (fun _ => 99) l9 /\
  (user_run (Some i9) (ts_init (fun _ => 99)) l9).2 = [None; None; Some 99] /\
  (sp_run (ti_data i9) sp_init l9).2 = [None; None; Some (SByte 5)] /\
  let s := (user_run (Some i9) (ts_init (fun _ => 99)) (l9 ++ [OStore 0 (VVar 0) 7])).1 in
  ts_mem s 993 = 7 /\ forall t, t ∈ ts_tcb s -> 993 < t - ti_total i9.
Proof.
  split; [split; [vm_compute; done|by exists 3]|]. split; [|split; [vm_compute; done|split; [vm_compute; done|split; [vm_compute; done|]]]].
  - unfold user_legal. cbn [t_legals l9]. split; [|split; [|split; [|done]]].
    + cbn. split; [done|]. split; [done|]. split; [vm_compute; done|]. intros t Ht. by apply elem_of_nil in Ht.
    + vm_compute. lia.
    + split; [done|vm_compute; done].
  - intros t Ht. assert (E : ts_tcb (user_run (Some i9) (ts_init (fun _ => 99)) (l9 ++ [OStore 0 (VVar 0) 7])).1 = [1009]) by (vm_compute; done).
    rewrite E in Ht. apply elem_of_list_singleton in Ht as ->. vm_compute. done.
Qed.
Print Assumptions C68_size_refuted.

(** The kernel with a template of 24 bytes aligned to 16: it starts, and finds its variables before the block. *)
Definition i24 : tinfo := mkTi [5] 24 16.
Theorem C68_kernel_size_refuted :
  ti_ok i24 /\ kernel_legal i24 (fun _ => 99) [OSpawn 1600; ODispatch 0 0; OLoad 0 (VVar 0)] /\
  exists s, kernel_run i24 (ts_init (fun _ => 99)) [OSpawn 1600; ODispatch 0 0; OLoad 0 (VVar 0)] = Ok (s, [None; None; Some 99]).
Proof.
  split; [split; [vm_compute; done|by exists 4]|]. split.
  - unfold kernel_legal. cbn [t_legals]. split; [|split; [|split; [|done]]].
    + cbn. split; [done|]. split; [done|]. split; [vm_compute; done|]. intros t Ht. by apply elem_of_nil in Ht.
    + vm_compute. lia.
    + split; [done|vm_compute; done].
  - eexists. reflexivity.
Qed.
Print Assumptions C68_kernel_size_refuted.

(** The kernel does not start with a template of 12 bytes aligned to 4, or an empty one. *)
Theorem C68_kernel_start_refuted : forall i,
  ti_total i mod 8 <> 0 \/ ti_total i = 0 -> kernel_layout i = Panic.
Proof.
  intros i H. unfold kernel_layout. destruct (negb (_ && _)); [done|]. destruct (negb (ti_total i mod 8 =? 0)) eqn:E; [done|].
  apply negb_false_iff, N.eqb_eq in E. destruct H as [H|H]; [done|]. by rewrite H.
Qed.
Print Assumptions C68_kernel_start_refuted.

(** The control block of a user thread need not be aligned. *)
Theorem C68_control_block_refuted :
  ti_ok (mkTi [1; 2; 3; 4] 4 4) /\ user_legal (Some (mkTi [1; 2; 3; 4] 4 4)) (fun _ => 0) [OSpawn 1000] /\
  ts_tcb (user_run (Some (mkTi [1; 2; 3; 4] 4 4)) (ts_init (fun _ => 0)) [OSpawn 1000]).1 = [1004] /\ 1004 mod 8 <> 0.
Proof.
  split; [split; [vm_compute; done|by exists 2]|]. split; [|split; [vm_compute; done|vm_compute; done]].
  unfold user_legal. cbn [t_legals]. split; [|done]. cbn. split; [done|]. split; [done|]. split; [vm_compute; done|].
  intros t Ht. by apply elem_of_nil in Ht.
Qed.
Print Assumptions C68_control_block_refuted.

(** ** The hypotheses are met *)
Definition i16 : tinfo := mkTi [1; 2; 3] 16 8.
Definition l16 : list top :=
  [OSpawn 4096; OSpawn 8192; ODispatch 0 0; ODispatch 1 1; OStore 0 (VVar 1) 7; OLoad 1 (VVar 1); OLoad 0 (VVar 1);
   OLoad 1 (VVar 15); OYield 0; ODispatch 2 0; OLoad 2 (VVar 1); OSelf 2; OStore 1 (VField 8) 9; OHeap 8191 3; OLoad 1 (VField 8)].
Example C68_hyps_met :
  ti_ok i16 /\ ti_total i16 mod ti_align i16 = 0 /\ user_legal (Some i16) (fun _ => 99) l16 /\
  (user_run (Some i16) (ts_init (fun _ => 99)) l16).2 =
    [None; None; None; None; None; Some 2; Some 7; Some 0; None; None; Some 7; Some 4112; None; None; Some 9] /\
  kernel_legal i16 (fun _ => 99) l16.
Proof.
  split; [split; [vm_compute; done|by exists 3]|]. split; [done|].
  split; [|split; [vm_compute; done|]].
  - unfold user_legal, l16. cbn [t_legals].
    repeat match goal with |- _ /\ _ => split | |- True => done end;
      try (vm_compute; done); try (vm_compute; lia); try (cbn; intros t Ht; by apply elem_of_nil in Ht).
    + split; [done|]. split; [done|]. split; [done|]. intros t Ht. by apply elem_of_nil in Ht.
    + split; [done|]. split; [done|]. split; [done|]. intros t Ht. change (t ∈ [4112]) in Ht. apply elem_of_list_singleton in Ht as ->. vm_compute. right. discriminate.
    + intros t Ht. change (t ∈ [4112; 8208]) in Ht. apply elem_of_cons in Ht as [->|Ht]; [vm_compute; right; discriminate|].
      apply elem_of_list_singleton in Ht as ->. vm_compute. left. done.
  - unfold kernel_legal, l16. cbn [t_legals].
    repeat match goal with |- _ /\ _ => split | |- True => done end;
      try (vm_compute; done); try (vm_compute; lia); try (cbn; intros t Ht; by apply elem_of_nil in Ht).
    + split; [done|]. split; [done|]. split; [done|]. intros t Ht. by apply elem_of_nil in Ht.
    + split; [done|]. split; [done|]. split; [done|]. intros t Ht. change (t ∈ [4112]) in Ht. apply elem_of_list_singleton in Ht as ->. vm_compute. right. discriminate.
    + intros t Ht. change (t ∈ [4112; 8208]) in Ht. apply elem_of_cons in Ht as [->|Ht]; [vm_compute; right; discriminate|].
      apply elem_of_list_singleton in Ht as ->. vm_compute. left. done.
Qed.
