(** Model of the operation-to-log mapping of the concurrent (multi-log) file
    system replica: kernel/src/fs/cnrfs.rs, [LogMapper] implementations.
    The logs themselves are the external crate [cnr]: a replica consumes every
    log in order, and consumes an operation mapped to several logs only when it
    is next in all of them.  That is stated in [CnrSpec]. *)
From Verif Require Import Base FileModel FsModel.

(** cnrfs.rs:117,154,157: [(mnode as usize - MNODE_OFFSET) % nlogs]; the
    subtraction wraps (release build; with overflow checks it panics for the
    root directory, number 1, see [log_of_checked]). *)
Definition log_of (nlogs : nat) (mnode : N) : nat :=
  N.to_nat (((mnode + (2 ^ 64 - MNODE_OFFSET)) mod 2 ^ 64) mod N.of_nat nlogs).

(** The same with overflow checks (dev profile, Cargo.toml:34-36). *)
Definition log_of_checked (nlogs : nat) (mnode : N) : res nat :=
  if decide (mnode < MNODE_OFFSET)%N then Panic
  else Ok (N.to_nat ((mnode - MNODE_OFFSET) mod N.of_nat nlogs)).

(** cnrfs.rs:108-131 [LogMapper for Modify]. *)
Definition logs_of (nlogs : nat) (op : modify) : list nat :=
  match op with
  | FileWrite _ _ mnode _ _ => [log_of nlogs mnode]
  | _ => seq 0 nlogs
  end.

(** cnrfs.rs:147-167 [LogMapper for Access]. *)
Definition access_logs_of (nlogs : nat) (op : access) : list nat :=
  match op with
  | FileRead _ _ mnode _ _ => [log_of nlogs mnode]
  | FileInfo _ _ mnode => [log_of nlogs mnode]
  | FdToMnode _ _ | FileNameToMnode _ _ => [0]
  | Synchronize log_id => [(log_id - 1) mod nlogs]
  end.

(** A replica applying a sequence of operations ([cnr]'s [exec] closure calls
    [dispatch_mut], cnrfs.rs:488).  Each operation carries the number of page
    buffers this replica's heap can supply at that moment. *)
Fixpoint rep_run (n : node) (l : list (nat * modify)) : list (res nresult) * node :=
  match l with
  | [] => ([], n)
  | (avail, op) :: l' =>
    let '(o, n1) := dispatch_mut avail n op in
    let '(os, n2) := rep_run n1 l' in (o :: os, n2)
  end.

(** Local events of a replica: applying a logged operation, or answering a read
    operation from its own copy (never logged). *)
Inductive event := EMut (avail : nat) (op : modify) | ERead (op : access).
Fixpoint ev_run (n : node) (l : list event) : node :=
  match l with
  | [] => n
  | EMut avail op :: l' => ev_run (dispatch_mut avail n op).2 l'
  | ERead op :: l' => ev_run (dispatch n op).2 l'
  end.
Definition muts (l : list event) : list (nat * modify) :=
  omap (fun e => match e with EMut a op => Some (a, op) | ERead _ => None end) l.
