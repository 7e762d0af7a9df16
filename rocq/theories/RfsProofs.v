(** Proofs for C76. *)
From Verif Require Import Base FileModel FileSpec FileProofs FsModel FsSpec FsProofs FsRefine RfsModel RfsSpec.
Local Open Scope Z_scope.
Local Transparent MAX_FILES_PER_PROCESS.
Lemma max_files : MAX_FILES_PER_PROCESS = N.to_nat 4096.
Proof. reflexivity. Qed.
Local Opaque MAX_FILES_PER_PROCESS.


Lemma flags_ok mode : 0 <= mode -> (mode mod 4 = 0 \/ mode mod 4 = 2) ->
  exists w, may_read mode = Some true /\ may_write mode = w /\
  rump_flags mode = N.lor O_RDONLY (N.lor (if w then O_WRONLY else 0) (if creates mode then O_CREAT else 0)).
Proof.
  intros H0 H. eexists. split; [unfold may_read; destruct H as [-> | ->]; done|]. split; [reflexivity|].
  unfold rump_flags, rump_mode, creates, may_write.
  replace (Z.testbit mode 2) with (Z.testbit (mode mod 2 ^ 4) 2) by (apply Z.mod_pow2_bits_low; lia).
  replace (Z.land mode 15) with (mode mod 2 ^ 4) by (rewrite <- Z.land_ones by lia; done).
  assert (E : mode mod 4 = (mode mod 2 ^ 4) mod 4) by (apply Znumtheory.Zmod_div_mod; [lia|lia|exists 4; lia]).
  rewrite E in H |- *. pose proof (Z.mod_pos_bound mode (2 ^ 4) ltac:(lia)) as B. remember (mode mod 2 ^ 4) as x eqn:Ex. clear - H B.
  change (2 ^ 4) with 16 in B.
  assert (x = 0 \/ x = 1 \/ x = 2 \/ x = 3 \/ x = 4 \/ x = 5 \/ x = 6 \/ x = 7 \/ x = 8 \/ x = 9 \/ x = 10 \/ x = 11 \/ x = 12 \/ x = 13 \/ x = 14 \/ x = 15) as X by lia.
  repeat (destruct X as [-> | X]; [first [vm_compute; reflexivity | exfalso; vm_compute in H; destruct H; discriminate]|]).
  subst x. exfalso; vm_compute in H; destruct H; discriminate.
Qed.

Lemma flags_no_trunc mode : is_truncate (rump_flags mode) = false /\ is_create (rump_flags mode) = has_bits (rump_mode mode) RUMPUSER_OPEN_CREATE.
Proof.
  unfold rump_flags. destruct (has_bits _ RUMPUSER_OPEN_RDONLY), (has_bits _ RUMPUSER_OPEN_WRONLY), (has_bits _ RUMPUSER_OPEN_RDWR), (has_bits _ RUMPUSER_OPEN_CREATE); split; vm_compute; reflexivity.
Qed.
Lemma flags_create w mode : is_create (N.lor O_RDONLY (N.lor (if w : bool then O_WRONLY else 0) (if creates mode then O_CREAT else 0))) = creates mode.
Proof. destruct w, (creates mode); vm_compute; reflexivity. Qed.

(** Descriptors. *)
Lemma fd_case n a pid fd : node_inv n -> st_rel n a -> - 2 ^ 31 <= fd < 2 ^ 31 ->
  (exists f, fd_try_from (fd_u64 fd) = Ok f /\ handle_of a pid fd = (h ← a_open a !! (pid, f); Some (f, h))) \/
  ((forall f, fd_try_from (fd_u64 fd) <> Ok f) /\ handle_of a pid fd = None).
Proof.
  intros I R B. unfold handle_of, fd_u64, fd_try_from. destruct (Z.ltb_spec fd 0).
  - right. split; [|done]. intros f. replace (fd mod 2 ^ 64) with (fd + 2 ^ 64).
    2:{ rewrite <- (Z.mod_small (fd + 2 ^ 64) (2 ^ 64)) by lia. rewrite <- (Z.mul_1_l (2 ^ 64)) at 1. apply Z_mod_plus_full. }
    rewrite decide_False; [done|]. lia.
  - rewrite Z.mod_small by lia. destruct (decide (Z.to_N fd < 4096)%N) as [L|L].
    + left. exists (Z.to_nat fd). split; [f_equal; lia|done].
    + right. split; [done|]. rewrite (sr_open _ _ R). destruct (pmap n !! pid) as [t|] eqn:Et; cbn; [|done].
      unfold get_fd. rewrite lookup_ge_None_2; [done|]. rewrite (ni_len _ I _ _ Et). rewrite max_files. lia.
Qed.

Definition good (k : option reply) : Prop := match k with Some r => r <> RpPanic /\ r <> RpErr OutOfMemory | None => True end.

Lemma ksys_refines avail n a r : node_inv n -> st_rel n a -> good (ksys avail n r).1 ->
  (ksys avail n r).1 = Some (s_step a r).1 /\ st_rel (ksys avail n r).2 (s_step a r).2 /\ node_inv (ksys avail n r).2.
Proof.
  intros I R G. unfold ksys in *. pose proof (step_refines avail n a r I R) as S. pose proof (step_inv avail n r I) as SI.
  destruct (step avail n r) as [o n']. cbn in *. destruct G as [G1 G2]. destruct (S (to_reply_benign _ G1 G2)) as [E1 E2]. rewrite E1. done.
Qed.

Lemma s_procs a r pid : pid ∈ a_procs a -> pid ∈ a_procs (s_step a r).2.
Proof.
  intros H. destruct r; cbn.
  - destruct (decide _); cbn; [done|set_solver].
  - unfold s_open. destruct (a_names a !! name).
    + destruct (least_free a pid0); [|done]. destruct (is_truncate flags); [|done]. destruct (a_objs a !! n) as [[|m c]|]; try done. destruct (is_writable m); done.
    + destruct (is_create flags); [|done]. destruct (least_free a pid0); done.
  - unfold s_write. destruct (a_open a !! _); [|done]. destruct (negb _); [done|]. destruct (a_objs a !! _) as [[|m c]|]; try done. destruct (negb _); [done|]. destruct off; done.
  - unfold s_read. destruct (a_open a !! _); [|done]. destruct (negb _); [done|]. destruct (a_objs a !! _) as [[|m c]|]; try done. destruct (negb _); [done|]. destruct off; done.
  - destruct (a_open a !! _); done.
  - destruct (decide _); [|done]. destruct (a_names a !! _); [|done]. destruct (a_objs a !! _) as [[|m c]|]; done.
  - destruct (decide _); [|done]. destruct (a_names a !! _); done.
  - destruct (decide _); [|done]. unfold s_rename. destruct (a_names a !! old); [|done]. destruct (decide _); [done|]. destruct (a_names a !! new); done.
  - destruct (decide _); [|done]. destruct (a_names a !! _); done.
Qed.

Lemma r_procs a c pid q : q ∈ a_procs a -> q ∈ a_procs (r_step pid a c).2.
Proof.
  intros H. destruct c as [[name|] mode|fd|[name|]|fd iov off|fd iov off| |]; cbn; try done.
  - unfold r_open. destruct (may_read mode), (least_free a pid); try done. destruct (a_names a !! name); [destruct (_ && _); done|]. destruct (creates mode); done.
  - destruct (handle_of a pid fd) as [[]|]; done.
  - destruct (_ ≫= _) as [[|]|]; done.
  - unfold r_read. destruct (handle_of a pid fd) as [[f h]|]; [|done]. destruct (where_ _ _); [|done]. destruct (a_objs a !! _) as [[|m c]|]; try done. destruct (_ && _); [|done].
    cbn. unfold moved. destruct (_ =? _); done.
  - unfold r_write. destruct (handle_of a pid fd) as [[f h]|]; [|done]. destruct (a_objs a !! _) as [[|m c]|]; try done. destruct (where_ _ _); [|done]. destruct (_ && _); [|done].
    cbn. unfold moved. destruct (_ =? _); done.
Qed.

Lemma where_pos p off : 0 <= off -> where_ p off = Some (Z.to_nat off).
Proof. intros H. unfold where_. rewrite (proj2 (Z.eqb_neq _ _)) by lia. rewrite (proj2 (Z.ltb_ge _ _)) by lia. done. Qed.
Lemma moved_pos a pid f h off p : off <> -1 -> moved a pid f h off p = a.
Proof. intros H. unfold moved. rewrite (proj2 (Z.eqb_neq _ _)) by lia. done. Qed.

(** One call. *)
Lemma h_refines avail n a pid c : node_inv n -> st_rel n a -> pid ∈ a_procs a -> supported c ->
  good (h_step avail pid n c).2.1 ->
  tells (OHyp (h_step avail pid n c).1) = Some (EHyp (r_step pid a c).1) /\
  st_rel (h_step avail pid n c).2.2 (r_step pid a c).2 /\ node_inv (h_step avail pid n c).2.2.
Proof.
  intros I R P S G. destruct c as [[name|] mode|fd|[name|]|fd iov off|fd iov off| |]; try (destruct S; fail); cbn [h_step r_step] in *.
  - (* open *)
    destruct S as (B & M & X). destruct (flags_ok mode ltac:(lia) M) as (w & Hr & Hw & Hf). cbn [snd] in G.
    destruct (ksys_refines _ _ _ _ I R G) as (E1 & E2 & E3). rewrite E1. clear G E1.
    assert (Q : tells (OHyp match Some (s_step a (ROpen pid name (rump_flags mode) (N.lor S_IRUSR S_IWUSR))).1 with Some (RpFd fd) => HFd (Z.of_nat fd) | Some RpPanic => HAbort | _ => HErr EINVAL end)
                = Some (EHyp (r_open a pid name mode).1) /\ (s_step a (ROpen pid name (rump_flags mode) (N.lor S_IRUSR S_IWUSR))).2 = (r_open a pid name mode).2).
    { cbn. unfold s_open, r_open. rewrite Hr, Hw, X, andb_false_r, Hf. destruct (flags_no_trunc mode) as [T _]. rewrite Hf in T. rewrite T, flags_create.
      destruct (a_names a !! name) as [id|]; destruct (least_free a pid) as [f|]; try done.
      all: destruct (creates mode); done. }
    destruct Q as [Q1 Q2]. split; [exact Q1|]. split; [|exact E3]. rewrite <- Q2. exact E2.
  - (* open, bad name *) done.
  - (* close *)
    destruct (fd_case n a pid fd I R S) as [(f & Ef & Eh)|(Ef & Eh)]; rewrite Eh; unfold close in *.
    + rewrite Ef in *. cbn [snd] in G. destruct (ksys_refines _ _ _ _ I R G) as (E1 & E2 & E3). rewrite E1. cbn [s_step] in *.
      destruct (a_open a !! (pid, f)); cbn in *; done.
    + destruct (fd_try_from (fd_u64 fd)) as [f| |]; [by destruct (Ef f)|done|done].
  - (* info *)
    cbn [snd] in G. destruct (ksys_refines _ _ _ _ I R G) as (E1 & E2 & E3). rewrite E1. cbn [s_step] in *. rewrite decide_True in * by done.
    destruct (a_names a !! name) as [id|]; cbn in *; [|done]. destruct (a_objs a !! id) as [[|m c]|]; cbn in *; done.
  - done.
  - (* read *)
    destruct S as (B & (len & -> & L) & Ho). unfold r_read. cbn [h_step] in *. cbn [snd] in G. unfold read_at in *.
    rewrite decide_False in * by lia. rewrite (decide_False (P := off = -1)) in * by lia.
    replace (max_buf <? N.of_nat len)%N with false in * by (symmetry; apply N.ltb_ge; unfold max_buf; lia).
    destruct (fd_case n a pid fd I R B) as [(f & Ef & Eh)|(Ef & Eh)]; rewrite Eh.
    + rewrite Ef in *. destruct (decide (off < 0)) as [Hn|Hn].
      * cbn. split; [|split; [|done]]; destruct (a_open a !! (pid, f)) as [h|]; cbn; try done; unfold where_; rewrite (proj2 (Z.eqb_neq _ _)) by lia; rewrite (proj2 (Z.ltb_lt _ _)) by lia; done.
      * destruct (ksys_refines _ _ _ _ I R G) as (E1 & E2 & E3). cbn [fst snd]. rewrite E1. clear E1 G. cbn [s_step] in *. unfold s_read in *.
        destruct (a_open a !! (pid, f)) as [h|]; cbn [mbind option_bind]; [|cbn in *; done]. rewrite where_pos by lia.
        destruct (is_read (h_flags h)); cbn [negb andb] in *; [|destruct (a_objs a !! h_obj h) as [[|m c]|]; cbn in *; done].
        destruct (a_objs a !! h_obj h) as [[|m c]|]; cbn in *; try done. destruct (is_readable m); cbn in *; [|done]. rewrite moved_pos by done. rewrite Nat.add_0_r. done.
    + destruct (fd_try_from (fd_u64 fd)) as [f| |]; [by destruct (Ef f)|done|done].
  - (* write *)
    destruct S as (B & (d & -> & L)). unfold r_write. cbn [h_step] in *. cbn [snd] in G. unfold write_at, fileio_write in *.
    rewrite (decide_False (P := length d = 0%nat)) in * by lia.
    replace (max_buf <? N.of_nat (length d))%N with false in * by (symmetry; apply N.ltb_ge; unfold max_buf; lia).
    destruct (fd_case n a pid fd I R B) as [(f & Ef & Eh)|(Ef & Eh)]; rewrite Eh.
    + rewrite Ef in *. destruct (decide (off = -1)) as [->|H1]; [|destruct (decide (off < 0)) as [Hn|Hn]].
      * rewrite (decide_False (P := length d = 0%nat)) in * by lia. destruct (ksys_refines _ _ _ _ I R G) as (E1 & E2 & E3). cbn [fst snd]. rewrite E1. clear E1 G. cbn [s_step] in *. unfold s_write in *.
        destruct (a_open a !! (pid, f)) as [h|]; cbn [mbind option_bind]; [|cbn in *; done].
        destruct (is_write (h_flags h)); cbn [negb andb] in *; [|destruct (a_objs a !! h_obj h) as [[|m c]|]; cbn in *; done].
        destruct (a_objs a !! h_obj h) as [[|m c]|]; cbn in *; try done. destruct (is_writable m); cbn in *; [|done]. rewrite app_nil_r. done.
      * cbn. split; [|split; [|done]]; destruct (a_open a !! (pid, f)) as [h|]; cbn; try done; destruct (a_objs a !! h_obj h) as [[|m c]|]; try done;
          unfold where_; rewrite (proj2 (Z.eqb_neq _ _)) by lia; rewrite (proj2 (Z.ltb_lt _ _)) by lia; done.
      * destruct (ksys_refines _ _ _ _ I R G) as (E1 & E2 & E3). cbn [fst snd]. rewrite E1. clear E1 G. cbn [s_step] in *. unfold s_write in *.
        destruct (a_open a !! (pid, f)) as [h|]; cbn [mbind option_bind]; [|cbn in *; done].
        destruct (is_write (h_flags h)); cbn [negb andb] in *; [|destruct (a_objs a !! h_obj h) as [[|m c]|]; rewrite ?where_pos by lia; cbn in *; done].
        destruct (a_objs a !! h_obj h) as [[|m c]|]; cbn in *; try done. rewrite where_pos by lia. destruct (is_writable m); cbn in *; [|done]. rewrite moved_pos by done. rewrite app_nil_r. done.
    + destruct (fd_try_from (fd_u64 fd)) as [f| |]; [by destruct (Ef f)| |];
        destruct (decide (off = -1)); try (destruct (decide (length d = 0%nat))); done.
Qed.

Lemma h_run_refines pid n a l : node_inv n -> st_rel n a -> pid ∈ a_procs a -> Forall (fun x => item_ok x.2) l ->
  RpPanic ∉ (h_run pid n l).1.2 -> RpErr OutOfMemory ∉ (h_run pid n l).1.2 ->
  map tells (h_run pid n l).1.1 = map Some (r_run pid a l.*2).1.
Proof.
  revert n a. induction l as [|[av [c|r]] l IH]; intros n a I R P F G1 G2; [done|..]; apply stdpp.list.Forall_cons in F as [F1 F2]; cbn in *.
  - pose proof (h_refines av n a pid c I R P F1) as S. pose proof (r_procs a c pid pid P) as P'. destruct (h_step av pid n c) as [o [k n1]]. destruct (r_step pid a c) as [x a1].
    specialize (IH n1 a1). destruct (h_run pid n1 l) as [[os ks] n2]. destruct (r_run pid a1 l.*2) as [xs a2]. cbn in *.
    destruct S as (S1 & S2 & S3); [destruct k as [k|]; [|done]; split; intros ->; [apply G1|apply G2]; constructor|].
    rewrite S1. f_equal. apply IH; try assumption; destruct k as [k|]; try done; intros Z; [apply G1|apply G2]; by constructor.
  - pose proof (ksys_refines av n a r I R) as S. unfold ksys in S. pose proof (s_procs a r pid P) as P'. destruct (step av n r) as [o n1]. destruct (s_step a r) as [x a1].
    specialize (IH n1 a1). destruct (h_run pid n1 l) as [[os ks] n2]. destruct (r_run pid a1 l.*2) as [xs a2]. cbn in *.
    destruct S as (S1 & S2 & S3); [split; intros E; [apply G1|apply G2]; rewrite E; constructor|].
    injection S1 as S1. rewrite S1. f_equal. apply IH; try assumption; intros Z; [apply G1|apply G2]; by constructor.
Qed.
