(** C76: files of the library OS. *)
From Verif Require Import Base FileModel FileSpec FileProofs FsModel FsSpec FsProofs FsRefine RfsModel RfsSpec RfsProofs.
Local Open Scope Z_scope.

(** Every history of supported file calls of the library OS, among any requests of other programs (which may use, rename and delete the
    same files), is answered as rumpuser(3) says, if the kernel neither stops nor runs out of memory: descriptors, sizes, types, counts
    and bytes are right, and a call fails exactly when it should. *)
Theorem C76_histories_partial pid l :
  let h := (9%nat, Other (RAddProcess pid)) :: l in
  Forall (fun x => item_ok x.2) l ->
  RpPanic ∉ (h_run pid node_init h).1.2 -> RpErr OutOfMemory ∉ (h_run pid node_init h).1.2 ->
  map tells (h_run pid node_init h).1.1 = map Some (r_run pid a_init h.*2).1.
Proof.
  intros h F G1 G2. subst h. pose proof (ksys_refines 9 node_init a_init (RAddProcess pid) node_init_inv st_rel_init) as S.
  cbn [h_run] in *. unfold ksys in S. destruct (step 9 node_init (RAddProcess pid)) as [o n1]. pose proof (h_run_refines pid n1 (s_step a_init (RAddProcess pid)).2 l) as H.
  rewrite fmap_cons. cbn [r_run snd].
  destruct (h_run pid n1 l) as [[os ks] n2]. cbn [fst snd] in *.
  destruct S as (S1 & S2 & S3); [split; intros E; [apply G1|apply G2]; rewrite E; constructor|]. apply (inj Some) in S1.
  assert (P : pid ∈ a_procs (s_step a_init (RAddProcess pid)).2) by (cbn; rewrite decide_False by set_solver; cbn; set_solver).
  destruct (s_step a_init (RAddProcess pid)) as [x a1]. cbn [fst snd] in *. specialize (H S3 S2 P F).
  destruct (r_run pid a1 (l.*2)) as [xs a2]. cbn in *. rewrite S1. f_equal.
  apply H; intros Z; [apply G1|apply G2]; by constructor.
Qed.
Print Assumptions C76_histories_partial.

Definition add (pid : N) : nat * item := (9%nat, Other (RAddProcess pid)).

(** A library OS that makes a file, writes at an offset and after that at its position, reads across a hole, and sees what another program
    does; it also uses wrong descriptors. *)
Definition demo : list (nat * item) :=
  [(9%nat, Other (RAddProcess 2)); (9%nat, Hyp (HOpen (Some "/d"%string) 0)); (9%nat, Hyp (HOpen (Some "/d"%string) 6)); (9%nat, Hyp (HWrite 0 [[7; 8]%N] 2));
   (9%nat, Hyp (HWrite 0 [[1]%N] (-1))); (9%nat, Hyp (HRead 0 [10%nat] 0)); (9%nat, Hyp (HOpen (Some "/d"%string) 0)); (9%nat, Hyp (HWrite 1 [[1]%N] 0));
   (9%nat, Hyp (HRead (-5) [1%nat] 0)); (9%nat, Hyp (HRead 0 [1%nat] (-7))); (9%nat, Hyp (HInfo (Some "/d"%string))); (9%nat, Hyp (HInfo (Some "/"%string))); (9%nat, Other (RDelete 2 "/d"));
   (9%nat, Hyp (HInfo (Some "/d"%string))); (9%nat, Hyp (HClose 0)); (9%nat, Hyp (HClose 0)); (9%nat, Hyp (HOpen None 2))].
Example C76_hyps_met :
  Forall (fun x => item_ok x.2) demo /\
  RpPanic ∉ (h_run 1 node_init (add 1 :: demo)).1.2 /\ RpErr OutOfMemory ∉ (h_run 1 node_init (add 1 :: demo)).1.2 /\
  (h_run 1 node_init (add 1 :: demo)).1.1 =
    [OOther RpOk; OOther RpOk; OHyp (HErr 22); OHyp (HFd 0); OHyp (HPut 2); OHyp (HPut 1); OHyp (HGot [1; 0; 7; 8]%N); OHyp (HFd 1); OHyp (HErr 22);
     OHyp (HErr 22); OHyp (HErr 22); OHyp (HFile 4 2); OHyp (HFile 0 1); OOther RpOk; OHyp (HErr 2); OHyp HOk; OHyp (HErr 9); OHyp (HErr 22)].
Proof.
  assert (E : (h_run 1 node_init (add 1 :: demo)).1 =
    ([OOther RpOk; OOther RpOk; OHyp (HErr 22); OHyp (HFd 0); OHyp (HPut 2); OHyp (HPut 1); OHyp (HGot [1; 0; 7; 8]%N); OHyp (HFd 1); OHyp (HErr 22);
     OHyp (HErr 22); OHyp (HErr 22); OHyp (HFile 4 2); OHyp (HFile 0 1); OOther RpOk; OHyp (HErr 2); OHyp HOk; OHyp (HErr 9); OHyp (HErr 22)],
     [RpOk; RpOk; RpErr PermissionError; RpFd 0; RpCount 2; RpCount 1; RpData [1; 0; 7; 8]%N; RpFd 1; RpErr PermissionError;
      RpInfo 2 4; RpInfo 1 0; RpOk; RpErr InvalidFile; RpOk; RpErr InvalidFileDescriptor])) by (vm_compute; reflexivity).
  rewrite E. cbn [fst snd].
  split; [|split; [|split; [|reflexivity]]]; [|by rewrite !elem_of_cons, elem_of_nil; intuition discriminate..].
  unfold demo. repeat (apply stdpp.list.Forall_cons; split); try apply stdpp.list.Forall_nil; try exact Logic.I.
  all: cbn [snd item_ok supported].
  all: repeat match goal with |- _ /\ _ => split end.
  all: lazymatch goal with
       | |- exists _, _ => eexists; split; [reflexivity|cbn; lia]
       | |- _ \/ _ => first [left; vm_compute; reflexivity | right; vm_compute; reflexivity]
       | |- exclusive _ = false => vm_compute; reflexivity
       | |- _ => first [lia | exact Logic.I | done]
       end.
Qed.

(** A file opened for writing only can be read: RUMPUSER_OPEN_RDONLY is 0, so `contains` is always true and the file is opened for both. *)
Theorem C76_write_only_refuted :
  let l := [add 1; (9%nat, Hyp (HOpen (Some "/w"%string) 5)); (9%nat, Hyp (HWrite 0 [[42]%N] 0)); (9%nat, Hyp (HRead 0 [1%nat] 0))] in
  (h_run 1 node_init l).1.1 = [OOther RpOk; OHyp (HFd 0); OHyp (HPut 1); OHyp (HGot [42]%N)] /\
  (r_run 1 a_init l.*2).1 = [EOther RpOk; EHyp (AFd 0); EHyp (APut 1); EHyp AErr].
Proof. split; vm_compute; reflexivity. Qed.
Print Assumptions C76_write_only_refuted.

(** Creating a file exclusively succeeds on a file that exists. *)
Theorem C76_exclusive_refuted :
  let l := [add 1; (9%nat, Hyp (HOpen (Some "/l"%string) 14)); (9%nat, Hyp (HOpen (Some "/l"%string) 14))] in
  (h_run 1 node_init l).1.1 = [OOther RpOk; OHyp (HFd 0); OHyp (HFd 1)] /\
  (r_run 1 a_init l.*2).1 = [EOther RpOk; EHyp (AFd 0); EHyp AErr].
Proof. split; vm_compute; reflexivity. Qed.
Print Assumptions C76_exclusive_refuted.

(** No read at the position of the file (offset -1) ever succeeds, though a write does; it should for every open file. *)
Theorem C76_sequential_read_refuted :
  (forall avail pid n fd len, h_step avail pid n (HRead fd [len] (-1)) = (HErr EINVAL, (None, n))) /\
  (r_run 1 a_init [Other (RAddProcess 1); Hyp (HOpen (Some "/s"%string) 6); Hyp (HWrite 0 [[1; 2]%N] 0); Hyp (HRead 0 [1%nat] (-1)); Hyp (HRead 0 [9%nat] (-1))]).1 =
    [EOther RpOk; EHyp (AFd 0); EHyp (APut 2); EHyp (AGot [1]%N); EHyp (AGot [2]%N)].
Proof.
  split; [|vm_compute; reflexivity]. intros. cbn. unfold read_at. destruct (decide (len = 0%nat)); [done|]. rewrite decide_True by done. done.
Qed.
Print Assumptions C76_sequential_read_refuted.

(** More than one buffer (or none) stops the program, and an empty buffer is an error instead of nothing to do. *)
Theorem C76_buffers_refuted avail pid n fd off :
  (forall x y l, (h_step avail pid n (HRead fd (x :: y :: l) off)).1 = HAbort) /\
  (forall x y l, (h_step avail pid n (HWrite fd (x :: y :: l) off)).1 = HAbort) /\
  (h_step avail pid n (HWrite fd [[]] off)).1 = HErr EINVAL /\
  (h_step avail pid n HBio).1 = HAbort /\ (h_step avail pid n HSync).1 = HAbort.
Proof. repeat split. Qed.
Print Assumptions C76_buffers_refuted.
