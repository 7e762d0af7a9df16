(** Property theorems C09: replicas of the file system agree. *)
From Verif Require Import Base FileModel FsModel FsView FsProofs CnrModel CnrSpec CnrProofs.

(** Two replicas that consumed the same operations from every log, in whatever
    interleaving of the logs, answering positional reads in between, are in the
    same state and gave the same responses.  Missing from the full property: reads
    at the cursor (refuted below) and writes whose descriptor was re-opened
    between routing and execution (refuted below). *)
Theorem C09_replicas_converge_partial nlogs (e1 e2 : list event) :
  0 < nlogs ->
  let l1 := muts e1 in let l2 := muts e2 in
  (forall i, i < nlogs -> proj nlogs i l1 = proj nlogs i l2) ->
  hints_ok node_init l1 ->
  Err OutOfMemory ∉ (rep_run node_init l1).1 -> Err OutOfMemory ∉ (rep_run node_init l2).1 ->
  (forall op, ERead op ∈ e1 ++ e2 -> forall pid fd m dst, op <> FileRead pid fd m dst None) ->
  ev_run node_init e1 = ev_run node_init e2 /\
  (forall i, i < nlogs -> outs nlogs i node_init l1 = outs nlogs i node_init l2).
Proof.
  intros Hn l1 l2 Hp Hh O1 O2 Hrd.
  rewrite !ev_run_muts by (intros op Hop; apply Hrd; set_solver). fold l1 l2.
  assert (Hh2 : hints_ok node_init l2).
  { apply (hints_transfer nlogs Hn node_init l1 l2); auto. intros i Hi. by rewrite Hp. }
  split.
  - apply (veq_all nlogs Hn). intros i Hi.
    apply (runs_agree nlogs Hn i l1); auto using veq_refl.
  - intros i Hi. apply (runs_agree nlogs Hn i l1); auto using veq_refl.
Qed.
Print Assumptions C09_replicas_converge_partial.

(** A replica that is only up to date on one log already answers the requests that
    are routed to this log like any other such replica, even if the replicas are at
    different positions in other logs. *)
Theorem C09_one_log_suffices_for_reads nlogs i l1 l2 l op :
  0 < nlogs -> i < nlogs ->
  (* l: a reference execution of which both replicas consumed prefixes per log *)
  hints_ok node_init l -> Err OutOfMemory ∉ (rep_run node_init l).1 ->
  (forall j, j < nlogs -> proj nlogs j l1 `prefix_of` proj nlogs j l) ->
  (forall j, j < nlogs -> proj nlogs j l2 `prefix_of` proj nlogs j l) ->
  Err OutOfMemory ∉ (rep_run node_init l1).1 -> Err OutOfMemory ∉ (rep_run node_init l2).1 ->
  proj nlogs i l1 = proj nlogs i l2 ->
  (* the read operation is routed to log i, by the file it concerns *)
  i ∈ access_logs_of nlogs op ->
  match op with
  | FileRead pid fd m _ _ => forall e, fd_of (rep_run node_init l1).2 pid fd = Some e -> fd_mnode e = m
  | FileInfo pid name m => forall id, names (rep_run node_init l1).2 name = Some id -> id = m
  | _ => True
  end ->
  (dispatch (rep_run node_init l1).2 op).1 = (dispatch (rep_run node_init l2).2 op).1.
Proof.
  intros Hn Hi Hh O P1 P2 O1 O2 Hp Hin Hop.
  assert (H1 : hints_ok node_init l1) by (by apply (hints_transfer nlogs Hn node_init l)).
  assert (H2 : hints_ok node_init l2) by (by apply (hints_transfer nlogs Hn node_init l)).
  destruct (runs_agree nlogs Hn i l1 node_init node_init l2) as [Hv _]; auto using veq_refl.
  apply (read_same_log nlogs Hn i); [done|].
  destruct op; cbn in Hin; try apply elem_of_list_singleton in Hin; auto.
Qed.
Print Assumptions C09_one_log_suffices_for_reads.

(** Writes to different files commute even when they go to the same state component
    (descriptor table). Concrete instance with two logs, two files, two
    interleavings. *)
Definition setup : list (nat * modify) :=
  [(9, ProcessAdd 1); (9, FileOpen 1 "/a" (N.lor O_RDWR O_CREAT) 6);
   (9, FileOpen 1 "/b" (N.lor O_RDWR O_CREAT) 6)]%string.
Definition wa : nat * modify := (9, FileWrite 1 0 2 [1; 2]%N None).
Definition wb : nat * modify := (7, FileWrite 1 1 3 [3]%N (Some 4)).
Definition ev (p : nat * modify) : event := EMut p.1 p.2.
Definition ex1 : list event := map ev (setup ++ [wa; wb; wa]).
Definition ex2 : list event := map ev (setup ++ [wa; wa]) ++ [ERead (FileRead 1 0 2 [0]%N (Some 0))] ++ [ev wb].
Example C09_hyps_met :
  (forall i, i < 2 -> proj 2 i (muts ex1) = proj 2 i (muts ex2)) /\
  muts ex1 <> muts ex2 /\
  hints_ok node_init (muts ex1) /\
  Err OutOfMemory ∉ (rep_run node_init (muts ex1)).1 /\
  Err OutOfMemory ∉ (rep_run node_init (muts ex2)).1 /\
  bytes_of (ev_run node_init ex2) 2 = Some [1; 2; 1; 2]%N.
Proof.
  split. { intros i Hi. destruct i as [|[|i]]; [vm_compute; reflexivity..|lia]. }
  split. { vm_compute. congruence. }
  split. { vm_compute. split_and!; try done; intros e He; injection He as <-; reflexivity. }
  split. { assert ((rep_run node_init (muts ex1)).1 = [Ok (ProcessAdded 1); Ok (FileOpened 0); Ok (FileOpened 1);
            Ok (FileAccessed 2); Ok (FileAccessed 1); Ok (FileAccessed 2)]) as -> by (vm_compute; reflexivity). set_solver. }
  split. { assert ((rep_run node_init (muts ex2)).1 = [Ok (ProcessAdded 1); Ok (FileOpened 0); Ok (FileOpened 1);
            Ok (FileAccessed 2); Ok (FileAccessed 2); Ok (FileAccessed 1)]) as -> by (vm_compute; reflexivity). set_solver. }
  vm_compute. reflexivity.
Qed.

(** A read at the cursor is answered by one replica only and moves only that
    replica's cursor: the same log contents then give different files. *)
Theorem C09_cursor_read_diverges_refuted :
  exists e1 e2, muts e1 = muts e2 /\ hints_ok node_init (muts e1) /\
    exists b1 b2, bytes_of (ev_run node_init e1) 2 = Some b1 /\
      bytes_of (ev_run node_init e2) 2 = Some b2 /\ b1 <> b2.
Proof.
  pose (w0 := (9, FileWrite 1 0 2 [1; 2]%N (Some 0)) : nat * modify).
  exists (map ev (setup ++ [w0]) ++ [ERead (FileRead 1 0 2 [0]%N None)] ++ map ev [wa]),
    (map ev (setup ++ [w0; wa])).
  split; [vm_compute; reflexivity|]. split.
  { vm_compute. split_and!; try done; intros e He; injection He as <-; reflexivity. }
  eexists _, _. split; [vm_compute; reflexivity|]. split; [vm_compute; reflexivity|].
  discriminate.
Qed.
Print Assumptions C09_cursor_read_diverges_refuted.

(** A write routed by a descriptor that was closed and re-opened on another file
    before it executes is not ordered with other writes to that file: replicas
    that consumed the same logs differ. *)
Theorem C09_stale_routing_diverges_refuted :
  exists l1 l2, (forall i, i < 2 -> proj 2 i l1 = proj 2 i l2) /\
    Err OutOfMemory ∉ (rep_run node_init l1).1 /\ Err OutOfMemory ∉ (rep_run node_init l2).1 /\
    exists b1 b2, bytes_of (rep_run node_init l1).2 3 = Some b1 /\
      bytes_of (rep_run node_init l2).2 3 = Some b2 /\ b1 <> b2.
Proof.
  (* thread A: looked up descriptor 0 = file 2; thread B closes it and re-opens "/b";
     thread A's write was routed to log 0, B's write to the same file to log 1. *)
  pose (base := setup ++ [(9, FileClose 1 0); (9, FileOpen 1 "/b" O_RDWR 6)]%string).
  pose (a := (9, FileWrite 1 0 2 [1]%N (Some 0)) : nat * modify).
  pose (b := (9, FileWrite 1 1 3 [2]%N (Some 0)) : nat * modify).
  exists (base ++ [a; b]), (base ++ [b; a]).
  split. { intros i Hi. destruct i as [|[|i]]; [vm_compute; reflexivity..|lia]. }
  split. { assert ((rep_run node_init (base ++ [a; b])).1 = [Ok (ProcessAdded 1); Ok (FileOpened 0); Ok (FileOpened 1);
            Ok (FileClosed 0); Ok (FileOpened 0); Ok (FileAccessed 1); Ok (FileAccessed 1)]) as -> by (vm_compute; reflexivity). set_solver. }
  split. { assert ((rep_run node_init (base ++ [b; a])).1 = [Ok (ProcessAdded 1); Ok (FileOpened 0); Ok (FileOpened 1);
            Ok (FileClosed 0); Ok (FileOpened 0); Ok (FileAccessed 1); Ok (FileAccessed 1)]) as -> by (vm_compute; reflexivity). set_solver. }
  eexists _, _. split; [vm_compute; reflexivity|]. split; [vm_compute; reflexivity|].
  discriminate.
Qed.
Print Assumptions C09_stale_routing_diverges_refuted.

(** With overflow checks on, routing a request on a descriptor of "/" crashes. *)
Theorem C10_root_descriptor_routing_panics_refuted :
  exists n, reachable n /\ (exists e, fd_of n 1 0 = Some e /\ log_of_checked 4 (fd_mnode e) = Panic).
Proof.
  exists (run node_init [(0, RAddProcess 1); (0, ROpen 1 "/" O_RDONLY 0)]%string).2.
  split; [by eexists|]. eexists. vm_compute. eauto.
Qed.
Print Assumptions C10_root_descriptor_routing_panics_refuted.
