(** C23, C32, C33: user pointers, system call decoding and global thread ids. *)
From Verif Require Import Base SysModel SysSpec.

(** ** Decoders *)
Ltac npos := match goal with |- context [match ?p with xI _ => _ | xO _ => _ | xH => _ end] => destruct p end.

Lemma syscall_new_iff n c : syscall_new n = Some c <-> n = syscall_num c.
Proof.
  split; [|intros ->; by destruct c].
  unfold syscall_new. destruct n as [|p]; [done|].
  repeat npos; intros [= <-]; done.
Qed.
Lemma procop_new_iff n c : procop_new n = Some c <-> n = procop_num c.
Proof.
  split; [|intros ->; by destruct c].
  unfold procop_new. destruct n as [|p]; [done|].
  repeat npos; intros [= <-]; done.
Qed.
Lemma vsop_new_iff n c : vsop_new n = Some c <-> n = vsop_num c.
Proof.
  split; [|intros ->; by destruct c].
  unfold vsop_new. destruct n as [|p]; [done|].
  repeat npos; intros [= <-]; done.
Qed.
Lemma fileop_new_iff n c : fileop_new n = Some c <-> n = fileop_num c.
Proof.
  split; [|intros ->; by destruct c].
  unfold fileop_new. destruct n as [|p]; [done|].
  repeat npos; intros [= <-]; done.
Qed.
Lemma sysop_new_iff n c : sysop_new n = Some c <-> n = sysop_num c.
Proof.
  split; [|intros ->; by destruct c].
  unfold sysop_new. destruct n as [|p]; [done|].
  repeat npos; intros [= <-]; done.
Qed.

Lemma us_for_current_iff dbg pid b l s :
  (pid < 12)%N ->
  us_for_current dbg (Ok pid) b l = Ok s <-> user_buffer b l /\ s = mkUS pid b l.
Proof.
  intros Hp. unfold us_for_current, uvaddr_try_from, us_new, user_buffer, kernel_base,
    page_sz, i32_max, max_processes.
  assert ((pid <? 12)%N = true) as -> by (by apply N.ltb_lt).
  rewrite andb_false_r.
  destruct (N.ltb_spec b 0x400000000000); [|split; [done|intros [? ->]; lia]].
  destruct (N.ltb_spec 2147483647 l); [split; [done|intros [? ->]; lia]|].
  destruct (N.ltb_spec (b + l) (2^64)); [|split; [done|intros [? ->]; lia]].
  destruct (N.leb_spec 4096 b); [|split; [done|intros [? ->]; lia]].
  destruct (N.ltb_spec (b + l) 0x400000000000); simpl;
    [|split; [done|intros [? ->]; lia]].
  split; [intros [= <-]; split; [lia|done]|intros [? ->]; done].
Qed.

Lemma us_for_current_no_panic dbg pid b l :
  (pid < 12)%N -> us_for_current dbg (Ok pid) b l <> Panic.
Proof.
  intros Hp. unfold us_for_current, uvaddr_try_from, us_new, max_processes.
  assert ((pid <? 12)%N = true) as -> by (by apply N.ltb_lt).
  rewrite andb_false_r. repeat case_match; done.
Qed.

Lemma fd_try_from_iff v x : fd_try_from v = Ok x <-> (v < 4096)%N /\ x = v.
Proof.
  unfold fd_try_from, max_fds. destruct (N.ltb_spec v 4096).
  - split; [by intros [= <-]|by intros [_ ->]].
  - split; [done|lia].
Qed.
Lemma i64_try_from_iff v x : i64_try_from v = Ok x <-> (v < 2^63)%N /\ x = Z.of_N v.
Proof.
  unfold i64_try_from. destruct (N.ltb_spec v (2^63)).
  - split; [by intros [= <-]|by intros [_ ->]].
  - split; [done|lia].
Qed.
Lemma rbind_ok {A B} (r : res A) (f : A -> res B) b :
  rbind r f = Ok b <-> exists a, r = Ok a /\ f a = Ok b.
Proof.
  destruct r; simpl; split; try done; try (intros (?&?&?); congruence).
  eauto.
Qed.
Lemma rbind_no_panic {A B} (r : res A) (f : A -> res B) :
  r <> Panic -> (forall a, f a <> Panic) -> rbind r f <> Panic.
Proof. destruct r; simpl; auto. Qed.

Ltac use_oks := repeat match goal with
  | H : rbind _ _ = Ok _ |- _ => apply rbind_ok in H as (?&?&?)
  | H : us_for_current _ _ _ _ = Ok _ |- _ => apply us_for_current_iff in H as [??]; [|done]
  | H : fd_try_from _ = Ok _ |- _ => apply fd_try_from_iff in H as [??]
  | H : i64_try_from _ = Ok _ |- _ => apply i64_try_from_iff in H as [??]
  end.

(** C32: with any register contents, the kernel accepts exactly the requests of the
    documented table, with exactly the documented arguments; all other contents are
    rejected. *)
Theorem C32_decoding_matches_table dbg pid f a1 a2 a3 a4 a5 k :
  (pid < 12)%N ->
  decode dbg (Ok pid) f a1 a2 a3 a4 a5 = Ok k <-> accepts pid f a1 a2 a3 a4 a5 k.
Proof.
  intros Hp. split.
  - unfold decode. destruct (syscall_new f) as [c|] eqn:Hc; [|done].
    apply syscall_new_iff in Hc as ->. destruct c; simpl.
    + unfold decode_system. destruct (sysop_new a1) as [o|] eqn:Ho; [|done].
      apply sysop_new_iff in Ho as ->. destruct o; intros [= <-]; constructor.
    + unfold decode_process. destruct (procop_new a1) as [o|] eqn:Ho; [|done].
      apply procop_new_iff in Ho as ->.
      destruct o; intros H; use_oks; simplify_eq; by constructor.
    + unfold decode_vspace. destruct (vsop_new a1) as [o|] eqn:Ho; [|done].
      apply vsop_new_iff in Ho as ->. destruct o; intros [= <-]; constructor.
    + unfold decode_file. destruct (fileop_new a1) as [o|] eqn:Ho; [|done].
      apply fileop_new_iff in Ho as ->.
      destruct o; intros H; use_oks; simplify_eq; by constructor.
    + intros [= <-]. constructor.
  - intros H; destruct H; cbn -[us_for_current fd_try_from i64_try_from flags_from modes_from]; try done;
      repeat match goal with
      | H : user_buffer ?b ?l |- context [us_for_current dbg (Ok pid) ?b ?l] =>
          rewrite (proj2 (us_for_current_iff dbg pid b l _ Hp) (conj H eq_refl)); cbn [rbind]
      | H : (?a < 4096)%N |- context [fd_try_from ?a] =>
          rewrite (proj2 (fd_try_from_iff a _) (conj H eq_refl)); cbn [rbind]
      | H : (?a < 2^63)%N |- context [i64_try_from ?a] =>
          rewrite (proj2 (i64_try_from_iff a _) (conj H eq_refl)); cbn [rbind]
      end; done.
Qed.

(** C32: an accepted request is determined by the code: two different (function,
    operation) pairs never decode to the same request, except the test call whose
    operation number is one of its arguments. *)
Theorem C32_codes_distinct dbg pid f a1 a2 a3 a4 a5 f' b1 b2 b3 b4 b5 k :
  (pid < 12)%N ->
  decode dbg (Ok pid) f a1 a2 a3 a4 a5 = Ok k ->
  decode dbg (Ok pid) f' b1 b2 b3 b4 b5 = Ok k -> f = f' /\ a1 = b1.
Proof.
  intros Hp H1 H2. apply C32_decoding_matches_table in H1, H2; try done.
  destruct H1; inversion H2; done.
Qed.

(** C32: the documented codes: nothing outside the table is accepted. *)
Theorem C32_unknown_codes_rejected dbg pid f a1 a2 a3 a4 a5 :
  (pid < 12)%N ->
  (f = 0 \/ 5 < f \/
   (f = 1 /\ (a1 = 0 \/ 3 < a1)) \/ (f = 2 /\ (a1 = 0 \/ a1 = 5 \/ 10 < a1)) \/
   (f = 3 /\ (a1 = 0 \/ 7 < a1)) \/ (f = 4 /\ (a1 = 0 \/ 10 < a1)))%N ->
  exists e, decode dbg (Ok pid) f a1 a2 a3 a4 a5 = Err e.
Proof.
  intros Hp Hf.
  destruct (decode dbg (Ok pid) f a1 a2 a3 a4 a5) as [k|e|] eqn:E.
  - apply C32_decoding_matches_table in E; [|done]. destruct E; exfalso; lia.
  - by exists e.
  - exfalso. revert E. unfold decode.
    destruct (syscall_new f) as [c|] eqn:Hc; [|done].
    apply syscall_new_iff in Hc as ->. destruct c; simpl; [| | | |done].
    + unfold decode_system. destruct (sysop_new a1) as [[]|]; done.
    + unfold decode_process. destruct (procop_new a1) as [[]|]; try done.
      apply rbind_no_panic; [by apply us_for_current_no_panic|done].
    + unfold decode_vspace. destruct (vsop_new a1) as [[]|]; done.
    + unfold decode_file. destruct (fileop_new a1) as [o|] eqn:Ho; [|done].
      apply fileop_new_iff in Ho as ->. destruct o; simpl in Hf; lia.
Qed.

(** Decoding never panics, whatever a process puts into its registers. *)
Theorem C32_decoding_never_panics dbg pid f a1 a2 a3 a4 a5 :
  (pid < 12)%N -> decode dbg (Ok pid) f a1 a2 a3 a4 a5 <> Panic.
Proof.
  intros Hp. unfold decode. destruct (syscall_new f) as [[]|]; try done.
  - unfold decode_system. destruct (sysop_new a1) as [[]|]; done.
  - unfold decode_process. destruct (procop_new a1) as [[]|]; try done.
    apply rbind_no_panic; [by apply us_for_current_no_panic|done].
  - unfold decode_vspace. destruct (vsop_new a1) as [[]|]; done.
  - unfold decode_file, fd_try_from, i64_try_from.
    destruct (fileop_new a1) as [[]|]; try done;
    repeat first [ apply rbind_no_panic; [first [by apply us_for_current_no_panic
                                               |by case_match]|intros ?] | done ].
Qed.

(** C32: a rejected call has no effect: the handlers are not run at all, the process
    sees only the error code. *)
Theorem C32_rejected_has_no_effect dbg pid h h' r e :
  decode dbg (Ok pid) (rdi r) (rsi r) (rdx r) (r10 r) (r8 r) (r9 r) = Err e ->
  kernel_entry dbg (Ok pid) h r = Ok (scerr_num (reported e), rdi r, rsi r)
  /\ kernel_entry dbg (Ok pid) h' r = kernel_entry dbg (Ok pid) h r.
Proof. unfold kernel_entry. intros ->. done. Qed.

(** C32, end to end: a user-level function, called with sensible arguments, reaches the
    handler of the request it stands for with its own arguments, whatever the unused
    registers hold, and hands back exactly what this handler returned: its two words on
    success and the corresponding error otherwise. *)
Theorem C32_stub_reaches_its_handler dbg pid h g u :
  (pid < 12)%N -> wf_ucall u ->
  exists k, denotes pid u k /\
    ucall_run dbg (Ok pid) h g u =
      match h k with
      | Ok (x1, x2) =>
          match u with
          | UDelete _ _ => if (x1 =? 0)%N then UOk x1 x2 else UErr ScUnknown
          | _ => UOk x1 x2
          end
      | Err e => UErr (reported e)
      | Panic => UPanic
      end.
Proof.
  intros Hp Hw.
  assert (exists r k, stub g u = SRegs r /\ denotes pid u k /\
            accepts pid (rdi r) (rsi r) (rdx r) (r10 r) (r8 r) (r9 r) k) as (r&k&Hs&Hd&Ha).
  { destruct u; simpl in Hw; simpl; unfold stub_fileio_at, stub_fileio, stub_vspace;
      repeat match goal with
      | H : _ /\ _ |- _ => destruct H
      | |- context [(?l =? 0)%N] => destruct (N.eqb_spec l 0); [lia|]
      | |- context [(?o =? -1)%Z] => destruct (Z.eqb_spec o (-1)); [lia|]
      end;
      try (do 2 eexists; split; [reflexivity|]; split; [reflexivity|];
           by constructor);
      try (do 2 eexists; split; [reflexivity|]; split; [eexists; reflexivity|];
           by constructor).
    - eexists _, (KOpen (mkUS pid ptr len) flags modes). split; [reflexivity|].
      split; [done|]. simpl.
      match goal with H : N.land flags 9731 = _ |- _ => rewrite <- H at 2 end.
      match goal with H : N.land modes 7 = _ |- _ => rewrite <- H at 2 end.
      by constructor.
    - eexists _, (KReadAt fd (mkUS pid ptr len) off). split; [reflexivity|].
      split; [done|]. simpl. unfold i64_as_u64. rewrite Z.mod_small by lia.
      rewrite <- (Z2N.id off) at 2 by lia. constructor; try done; lia.
    - eexists _, (KWriteAt fd (mkUS pid ptr len) off). split; [reflexivity|].
      split; [done|]. simpl. unfold i64_as_u64. rewrite Z.mod_small by lia.
      rewrite <- (Z2N.id off) at 2 by lia. constructor; try done; lia.
    - eexists _, (KMkDir (mkUS pid ptr len) modes). split; [reflexivity|].
      split; [done|]. simpl.
      match goal with H : N.land modes 7 = _ |- _ => rewrite <- H at 2 end.
      by constructor. }
  exists k. split; [done|]. unfold ucall_run. rewrite Hs. unfold kernel_entry.
  apply (C32_decoding_matches_table dbg) in Ha; [|done]. rewrite Ha. simpl.
  destruct (h k) as [[x1 x2]|e|] eqn:Hh; [| |done].
  - destruct u; simpl; done.
  - assert (forall a b, stub_result u (scerr_num (scerr_of_kerror e)) a b = UErr (reported e))
      as Hr by (intros a b; destruct u; destruct e; done).
    by rewrite Hr.
Qed.

(** Special cases of the stubs that never reach the kernel, or reach another operation:
    empty transfers and offset -1. *)
Theorem C32_stub_special_cases dbg cur h g fd ptr len off :
  ucall_run dbg cur h g (URead fd ptr 0) = UErr ScBadFileDescriptor
  /\ ucall_run dbg cur h g (UWrite fd ptr 0) = UErr ScBadFileDescriptor
  /\ ucall_run dbg cur h g (UReadAt fd ptr 0 off) = UErr ScBadFileDescriptor
  /\ ucall_run dbg cur h g (UWriteAt fd ptr 0 off) = UErr ScBadFileDescriptor
  /\ ((0 < len)%N -> ucall_run dbg cur h g (UReadAt fd ptr len (-1)) = UErr ScOffsetError)
  /\ ((0 < len)%N -> ucall_run dbg cur h g (UWriteAt fd ptr len (-1))
                     = ucall_run dbg cur h g (UWrite fd ptr len)).
Proof.
  unfold ucall_run, stub, stub_fileio_at, stub_fileio; simpl.
  split_and!; try done; intros ?; destruct (N.eqb_spec len 0); try lia; done.
Qed.

(** Negative offsets other than -1 are refused by the kernel. *)
Theorem C32_negative_offsets_refused dbg pid h g fd ptr len off (wr : bool) :
  (pid < 12)%N -> (fd < 4096)%N -> (0 < len)%N -> user_buffer ptr len ->
  (- 2^63 <= off < -1)%Z ->
  ucall_run dbg (Ok pid) h g (if wr then UWriteAt fd ptr len off else UReadAt fd ptr len off)
  = UErr ScInternalError.
Proof.
  intros Hp Hfd Hl Hb Ho.
  assert ((i64_as_u64 off <? 2^63)%N = false) as Hbig.
  { apply N.ltb_ge. unfold i64_as_u64.
    replace (off mod 2^64)%Z with (off + 2^64)%Z; [lia|].
    apply Zmod_unique with (q := (-1)%Z); lia. }
  unfold ucall_run.
  destruct wr; simpl; unfold stub_fileio_at;
    (destruct (N.eqb_spec len 0); [lia|]); (destruct (Z.eqb_spec off (-1)); [lia|]);
    unfold kernel_entry; cbn -[us_for_current fd_try_from i64_try_from];
    rewrite (proj2 (fd_try_from_iff fd _) (conj Hfd eq_refl)); cbn [rbind];
    rewrite (proj2 (us_for_current_iff dbg pid ptr len _ Hp) (conj Hb eq_refl)); cbn [rbind];
    unfold i64_try_from; rewrite Hbig; done.
Qed.

Example C32_hyps_met :
  (3 < 12)%N /\ wf_ucall (UWriteAt 7 8192 100 12) /\
  ucall_run true (Ok 3%N) (fun k => match k with KWriteAt fd _ o => Ok (fd, Z.to_N o) | _ => Panic end)
    (mkR 9 9 9 9 9 9) (UWriteAt 7 8192 100 12) = UOk 7 12.
Proof. split; [done|]. split; [|done]. unfold wf_ucall, user_buffer. lia. Qed.

(** The error code does not always say "not supported": unknown file and system
    operations are reported as an internal error. *)
Theorem C32_unknown_file_op_not_reported_as_unsupported_refuted :
  exists r, ~ (exists k, accepts 1 (rdi r) (rsi r) (rdx r) (r10 r) (r8 r) (r9 r) k) /\
    forall h, kernel_entry false (Ok 1%N) h r = Ok (scerr_num ScInternalError, rdi r, rsi r).
Proof.
  exists (mkR 4 11 0 0 0 0). split; [|done]. intros [k Hk]. inversion Hk.
Qed.

(** The error number returned to user space decodes back to the error. *)
Theorem C32_error_numbers_round_trip e :
  e <> ScOk -> scerr_from (scerr_num e) = e /\ scerr_num e <> 0%N.
Proof. destruct e; done. Qed.

(** With debug assertions a process can bring the kernel down with one test call; without
    them the arithmetic wraps and the call never panics. *)
Theorem C32_test_call_panics_refuted :
  exists a, (a < 2^64)%N /\ test_call true 1 a 0 0 0 = Panic.
Proof. exists (2^64 - 1)%N. split; [lia|]. done. Qed.
Theorem C32_test_call_release_never_panics n a1 a2 a3 a4 :
  test_call false n a1 a2 a3 a4 <> Panic.
Proof.
  unfold test_call, u64_op.
  destruct n as [|p]; [done|].
  repeat npos; try done; repeat (case_match; simpl); try done.
Qed.

(** ** User slices *)

(** C23: a user slice is created exactly for buffers of user space. *)
Theorem C23_slice_confined dbg pid base len s :
  (pid < 12)%N ->
  us_for_current dbg (Ok pid) base len = Ok s <->
  ((4096 <= base /\ base + len < 70368744177664 /\ len <= 2147483647)%N /\
   s = mkUS pid base len).
Proof. apply us_for_current_iff. Qed.

(** The pages of the range [a, e) starting at page-aligned [a]. *)
Lemma check_pages_ok resolve wr fuel a e :
  (a mod page_sz = 0)%N -> (e <= a + N.of_nat fuel * page_sz)%N ->
  check_pages resolve wr fuel a e = Ok tt <->
  (forall p, (a <= p < e)%N -> (p mod page_sz = 0)%N ->
     (p < kernel_base)%N /\ exists rw, resolve p = Ok rw /\ (if wr then rw.2 else rw.1) = true).
Proof.
  unfold page_sz. revert a. induction fuel as [|n IH]; intros a Ha He; simpl.
  { split; [|done]. intros _ p Hp _. lia. }
  destruct (N.ltb_spec a e) as [Hlt|Hge].
  2:{ split; [|done]. intros _ p Hp _. lia. }
  unfold uvaddr_try_from.
  destruct (N.ltb_spec a kernel_base) as [Hk|Hk]; simpl.
  2:{ split; [done|]. intros H. destruct (H a) as [? _]; [lia|done|lia]. }
  destruct (resolve a) as [rw|er|] eqn:Hr; simpl.
  2,3: split; [done|]; intros H; destruct (H a) as (_&?&?&_); [lia|done|congruence].
  set (ok := if wr then rw.2 else rw.1).
  assert ((if wr && negb rw.2 then Err UserPtMissingWriteAccess
     else if negb wr && negb rw.1 then Err UserPtMissingReadAccess
     else check_pages resolve wr n (a + 4096) e) = Ok tt
    <-> ok = true /\ check_pages resolve wr n (a + 4096) e = Ok tt) as ->.
  { unfold ok. destruct wr, rw as [[] []]; simpl; naive_solver. }
  assert ((a + 4096) mod 4096 = 0)%N as Ha'.
  { rewrite <- (N.mul_1_l 4096) at 1. rewrite N.mod_add by done. done. }
  rewrite IH by (done || lia). split.
  - intros [Hok H] p Hp Hm. destruct (decide (p = a)) as [->|Hne]; [by eauto|].
    apply H; [|done]. split; [|lia].
    apply N.mod_divide in Hm as [k ->]; [|done].
    apply N.mod_divide in Ha as [j ->]; [|done]. nia.
  - intros H. split.
    + destruct (H a) as (_&rw'&Hr'&?); [lia|done|]. rewrite Hr in Hr'. by simplify_eq.
    + intros p Hp. apply H. lia.
Qed.

Lemma page_base_mod a : (page_base a mod page_sz = 0)%N.
Proof.
  unfold page_base, page_sz. pose proof (N.div_mod a 4096 ltac:(done)) as H.
  pose proof (N.mod_le a 4096 ltac:(done)).
  assert (a - a mod 4096 = a / 4096 * 4096)%N as -> by lia.
  by apply N.mod_mul.
Qed.

(** Addresses a slice of [len] bytes at [base] touches, by page. *)
Definition touched (base len p : N) : Prop :=
  exists b, (base <= b < base + len)%N /\ p = (b / 4096 * 4096)%N.

(** C23: reading through a user slice either is refused before the accessor runs, or
    slice, process argument and current process agree and every page the slice touches is
    below the kernel and mapped present in the process; then the accessor gets exactly
    this range. *)
Theorem C23_read_access_checked cur procpid resolve s :
  (forall p, resolve p <> Panic) ->
  (exists e, forall R (f : N -> N -> res R), with_slice cur procpid resolve s f = Err e)
  \/ ((forall p, touched (us_base s) (us_len s) p ->
         (p < 70368744177664)%N /\ exists w, resolve p = Ok (true, w)) /\
      us_pid s = procpid /\ (forall p, cur = Ok p -> p = procpid) /\
      forall R (f : N -> N -> res R),
        with_slice cur procpid resolve s f = f (us_base s) (us_len s)).
Proof.
  intros Hnp. unfold with_slice, is_accessible.
  destruct (N.eqb_spec (us_pid s) procpid) as [Hp|]; simpl; [|left; eauto].
  destruct (match cur with Ok p => negb (p =? procpid)%N | _ => false end) eqn:Hc;
    simpl; [left; eauto|].
  set (base := us_base s) in *. set (len := us_len s) in *.
  set (fuel := N.to_nat _).
  pose proof (page_base_mod base) as Hm.
  assert (base + len <= page_base base + N.of_nat fuel * page_sz)%N as Hf.
  { unfold fuel. rewrite N2Nat.id. unfold page_sz in *.
    pose proof (N.div_mod (base + len - page_base base) 4096 ltac:(done)).
    pose proof (N.mod_lt (base + len - page_base base) 4096 ltac:(done)). lia. }
  pose proof (check_pages_ok resolve false fuel _ _ Hm Hf) as Hiff.
  assert (forall p, touched base len p ->
     ((page_base base <= p < base + len)%N /\ (p mod page_sz = 0)%N)) as Ht.
  { intros p. unfold touched, page_base, page_sz. intros (b&Hb&->).
    pose proof (N.div_mod b 4096 ltac:(done)). pose proof (N.div_mod base 4096 ltac:(done)).
    pose proof (N.mod_lt b 4096 ltac:(done)).
    pose proof (N.le_0_l (base mod 4096)). pose proof (N.le_0_l (b mod 4096)).
    pose proof (N.div_le_mono base b 4096 ltac:(done) ltac:(lia)).
    split; [lia|]. by apply N.mod_mul. }
  destruct (check_pages resolve false fuel (page_base base) (base + len)) as [[]|e|] eqn:Hck; simpl.
  - right. split; [|split; [done|split; [|done]]].
    + intros p Hpt. apply Ht in Hpt as [Hpr Hpm].
      destruct (proj1 Hiff eq_refl p Hpr Hpm) as (Hk&[r w]&Hr&Hok).
      simpl in Hok. subst r. split; [exact Hk|by exists w].
    + intros p ->. destruct (N.eqb_spec p procpid); done.
  - left; eauto.
  - exfalso. revert Hck. clear -Hnp. generalize (page_base base).
    induction fuel as [|n IH]; intros a; [done|]. simpl.
    destruct (a <? base + len)%N; [|done]. unfold uvaddr_try_from.
    destruct (a <? kernel_base)%N; simpl; [|done].
    destruct (resolve a) as [rw|er|] eqn:Hr; simpl; [|done|by destruct (Hnp a)].
    destruct (negb rw.1); [done|]. apply IH.
Qed.

(** Conversely a fully mapped slice of the running process is accessible. *)
Theorem C23_mapped_slices_accessible {R} procpid resolve s (f : N -> N -> res R) :
  us_pid s = procpid -> (us_base s + us_len s < 70368744177664)%N ->
  (forall p, resolve p <> Panic) ->
  (forall p, (us_base s - 4095 <= p < us_base s + us_len s)%N -> exists w, resolve p = Ok (true, w)) ->
  with_slice (Ok procpid) procpid resolve s f = f (us_base s) (us_len s).
Proof.
  intros Hp Hb Hnp Hall. unfold with_slice, is_accessible.
  destruct (N.eqb_spec (us_pid s) procpid); [|done]. simpl.
  rewrite N.eqb_refl. simpl.
  set (base := us_base s) in *. set (len := us_len s) in *. set (fuel := N.to_nat _).
  pose proof (page_base_mod base) as Hm.
  assert (base + len <= page_base base + N.of_nat fuel * page_sz)%N as Hf.
  { unfold fuel. rewrite N2Nat.id. unfold page_sz in *.
    pose proof (N.div_mod (base + len - page_base base) 4096 ltac:(done)).
    pose proof (N.mod_lt (base + len - page_base base) 4096 ltac:(done)). lia. }
  rewrite (proj2 (check_pages_ok resolve false fuel _ _ Hm Hf)); [done|].
  intros p Hpr _. unfold kernel_base. split; [lia|].
  destruct (Hall p) as [w Hw].
  { unfold page_base, page_sz in Hpr. pose proof (N.mod_lt base 4096 ltac:(done)). lia. }
  exists (true, w). done.
Qed.

(** Writing to user memory checks only that the pages are readable: a buffer in
    read-only memory is accepted (the kernel then writes through it). *)
Theorem C23_write_to_readonly_accepted_refuted :
  exists resolve s, (forall p, resolve p = Ok (true, false)) /\
    us_for_current true (Ok 1%N) (us_base s) (us_len s) = Ok s /\
    is_accessible (Ok 1%N) 1 resolve s true = Err UserPtMissingWriteAccess /\
    forall R (f : N -> N -> res R),
      with_slice_mut (Ok 1%N) 1 resolve s f = f (us_base s) (us_len s).
Proof.
  exists (fun _ => Ok (true, false)), (mkUS 1 8192 10). done.
Qed.

(** C23: a sub-slice with ordered bounds lies within the slice; bounds outside the slice
    panic; the slice is again a user buffer. *)
Theorem C23_subslice_within dbg s st e t :
  user_buffer (us_base s) (us_len s) -> (st <= e)%N ->
  us_subslice dbg s st e = Ok t ->
  (us_pid t = us_pid s /\ us_base t = us_base s + st /\ us_len t = e - st /\
   us_base s <= us_base t /\ us_base t + us_len t <= us_base s + us_len s)%N /\
  user_buffer (us_base t) (us_len t).
Proof.
  intros Hb Hse. unfold us_subslice, uvaddr_try_from, user_buffer in *.
  destruct (N.ltb_spec (us_len s) st); simpl; [done|].
  destruct (N.ltb_spec (us_len s) e); simpl; [done|].
  destruct (N.ltb_spec (us_base s + st) kernel_base); [|done].
  destruct (N.leb_spec st e); [|lia].
  intros [= <-]; simpl. split_and!; lia.
Qed.

Theorem C23_subslice_in_bounds_succeeds dbg s st e :
  user_buffer (us_base s) (us_len s) -> (st <= e <= us_len s)%N ->
  us_subslice dbg s st e = Ok (mkUS (us_pid s) (us_base s + st) (e - st)).
Proof.
  intros Hb Hse. unfold us_subslice, uvaddr_try_from, user_buffer, kernel_base in *.
  destruct (N.ltb_spec (us_len s) st); [lia|].
  destruct (N.ltb_spec (us_len s) e); [lia|]. simpl.
  destruct (N.ltb_spec (us_base s + st) 0x400000000000); [|lia].
  destruct (N.leb_spec st e); [done|lia].
Qed.

(** With reversed bounds a build without debug assertions returns a slice of almost 2^64
    bytes, far outside the original. *)
Theorem C23_subslice_reversed_bounds_refuted :
  exists s t, user_buffer (us_base s) (us_len s) /\
    us_subslice false s 2 1 = Ok t /\ (us_base s + us_len s < us_base t + us_len t)%N.
Proof.
  exists (mkUS 1 8192 10), (mkUS 1 8194 (2^64 - 1)). unfold user_buffer. simpl.
  split; [lia|]. split; [done|lia].
Qed.

(** Writes at an offset stay inside the buffer, and are refused exactly when they would
    not. *)
Theorem C23_write_subslice_bounds dbg s blen off :
  user_buffer (us_base s) (us_len s) -> (off + blen < 2^64)%N ->
  us_write_subslice dbg s blen off =
    if (off + blen <=? us_len s)%N then Ok (mkUS (us_pid s) (us_base s + off) blen)
    else Err InvalidOffset.
Proof.
  intros Hb Ho. unfold us_write_subslice, u64_op.
  destruct (N.ltb_spec (off + blen) (2^64)); [|lia]. simpl.
  destruct (N.ltb_spec (us_len s) (off + blen)); destruct (N.leb_spec (off + blen) (us_len s));
    try lia; try done.
  rewrite C23_subslice_in_bounds_succeeds; [|done|lia]. do 2 f_equal. lia.
Qed.

Example C23_hyps_met :
  exists s, us_for_current true (Ok 3%N) 8190 10 = Ok s /\
    with_slice (Ok 3%N) 3 (fun p => if (p =? 4096)%N || (p =? 8192)%N then Ok (true, false) else Err NotMapped)
      s (fun b l => Ok (b + l)%N) = Ok 8200%N /\
    with_slice (Ok 3%N) 3 (fun p => if (p =? 4096)%N then Ok (true, false) else Err NotMapped)
      s (fun b l => Ok (b + l)%N) = Err NotMapped.
Proof. eexists. done. Qed.

(** ** Global thread ids *)

Lemma gtid_arith mtid mid : (mtid < 2^32)%N -> (mid < 2^32)%N ->
  new_gtid mtid mid = (mid * 2^32 + mtid)%N.
Proof.
  intros Ht Hm. unfold new_gtid, w64. rewrite N.shiftl_mul_pow2.
  rewrite N.mod_small by lia.
  rewrite <- N.lxor_lor, <- N.add_nocarry_lxor; [done| |].
  all: apply N.bits_inj_0; intros n; rewrite N.land_spec;
    destruct (N.ltb_spec n 32) as [Hn|Hn];
    [rewrite N.mul_pow2_bits_low by done; done
    |].
  all: rewrite (N.bits_above_log2 mtid); [apply andb_false_r|];
    destruct (decide (mtid = 0)%N) as [->|]; [simpl; lia|];
    apply N.log2_lt_pow2; [lia|];
    apply N.lt_le_trans with (2^32)%N; [done|]; by apply N.pow_le_mono_r.
Qed.

(** C33: composing and decomposing gives back both parts. *)
Theorem C33_gtid_round_trip mtid mid :
  (mtid < 2^32)%N -> (mid < 2^32)%N ->
  mtid_from_gtid (new_gtid mtid mid) = mtid /\ mid_from_gtid (new_gtid mtid mid) = mid
  /\ (new_gtid mtid mid < 2^64)%N.
Proof.
  intros Ht Hm. rewrite gtid_arith by done.
  unfold mtid_from_gtid, mid_from_gtid, w64.
  rewrite !N.shiftr_div_pow2, N.shiftl_mul_pow2.
  replace ((mid * 2^32 + mtid) * 2^32)%N with (mtid * 2^32 + mid * 2^64)%N by lia.
  rewrite N.mod_add by lia. rewrite N.mod_small by lia.
  rewrite N.div_mul by lia. split; [done|].
  rewrite N.div_add_l by lia. rewrite N.div_small by done. split; lia.
Qed.

Theorem C33_gtid_injective t1 m1 t2 m2 :
  (t1 < 2^32)%N -> (m1 < 2^32)%N -> (t2 < 2^32)%N -> (m2 < 2^32)%N ->
  new_gtid t1 m1 = new_gtid t2 m2 -> t1 = t2 /\ m1 = m2.
Proof.
  intros ???? E.
  destruct (C33_gtid_round_trip t1 m1) as (G1&G2&_); [done..|].
  destruct (C33_gtid_round_trip t2 m2) as (G3&G4&_); [done..|]. rewrite E in G1, G2. split; congruence.
Qed.

(** C33: every 64-bit global id is the composition of its parts. *)
Theorem C33_gtid_decompose g :
  (g < 2^64)%N -> new_gtid (mtid_from_gtid g) (mid_from_gtid g) = g.
Proof.
  intros Hg.
  assert (mid_from_gtid g = g / 2^32)%N as Hmid.
  { unfold mid_from_gtid. by rewrite N.shiftr_div_pow2. }
  assert (mtid_from_gtid g = g mod 2^32)%N as Hmt.
  { unfold mtid_from_gtid, w64. rewrite N.shiftr_div_pow2, N.shiftl_mul_pow2.
    change (2^64)%N with (2^32 * 2^32)%N.
    rewrite N.mul_mod_distr_r by done. by rewrite N.div_mul. }
  rewrite Hmid, Hmt, gtid_arith.
  - pose proof (N.div_mod g (2^32) ltac:(done)). lia.
  - by apply N.mod_lt.
  - apply N.div_lt_upper_bound; [done|]. lia.
Qed.

(** The cores of one deployment: either a single machine (id 0) with fewer than 96
    cores, or client machines 1 to 4 with fewer than 24 cores each. *)
Definition valid_core (rackscale : bool) (mtid mid : N) : Prop :=
  if rackscale then (1 <= mid <= 4 /\ mtid < 24)%N else (mid = 0 /\ mtid < 96)%N.

(** C33: the scheduler's core index is below the maximum number of cores and different
    for different cores of a deployment. *)
Theorem C33_core_index_injective rs t1 m1 t2 m2 :
  valid_core rs t1 m1 -> valid_core rs t2 m2 ->
  (core_id_to_index (new_gtid t1 m1) < 96)%N /\
  (core_id_to_index (new_gtid t1 m1) = core_id_to_index (new_gtid t2 m2) -> t1 = t2 /\ m1 = m2).
Proof.
  intros H1 H2.
  assert (forall t m, valid_core rs t m -> (t < 2^32 /\ m < 2^32)%N) as Hr
    by (unfold valid_core; intros; destruct rs; lia).
  assert (forall t m, valid_core rs t m ->
    core_id_to_index (new_gtid t m) = if rs then (24 * (m - 1) + t)%N else t) as Hidx.
  { intros t m Hv. destruct (Hr _ _ Hv) as [Ht Hm].
    unfold core_id_to_index. destruct (C33_gtid_round_trip t m Ht Hm) as (->&->&_).
    unfold valid_core in Hv. destruct rs.
    - destruct (N.eqb_spec m 0); [lia|]. done.
    - destruct Hv as [-> _]. simpl. by rewrite gtid_arith. }
  rewrite (Hidx _ _ H1), (Hidx _ _ H2). unfold valid_core in *. destruct rs; split; try lia.
Qed.

(** Mixing machine 0 with machine 1 would not be injective. *)
Theorem C33_core_index_collision_refuted :
  exists c d, c <> d /\ core_id_to_index c = core_id_to_index d.
Proof. exists (new_gtid 0 0), (new_gtid 0 1). done. Qed.

Example C33_hyps_met : valid_core true 23 4 /\ core_id_to_index (new_gtid 23 4) = 95%N.
Proof. split; [unfold valid_core; lia|done]. Qed.

Print Assumptions C32_decoding_matches_table.
Print Assumptions C32_codes_distinct.
Print Assumptions C32_unknown_codes_rejected.
Print Assumptions C32_decoding_never_panics.
Print Assumptions C32_stub_reaches_its_handler.
Print Assumptions C32_negative_offsets_refused.
Print Assumptions C23_read_access_checked.
Print Assumptions C23_mapped_slices_accessible.
Print Assumptions C23_subslice_within.
Print Assumptions C33_gtid_round_trip.
Print Assumptions C33_core_index_injective.
