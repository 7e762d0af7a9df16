(** Model of the scheduler / process-id replica (kernel/src/nr.rs) and of the per-process
    table of physical frames (kernel/src/process.rs). *)
From Verif Require Import Base.

(** ** KernelNode, kernel/src/nr.rs:96-115 *)

(** MAX_PROCESSES, kernel/src/process.rs:52; MAX_CORES, kernel/src/arch/x86_64/mod.rs:71. *)
Definition MAX_PROCESSES : nat := 12.
Definition MAX_CORES : N := 192.

(** CoreInfo, nr.rs:96-100. *)
Record core_info := mkCI { ci_pid : nat; ci_entry : N }.

(** KernelNode, nr.rs:102-105.  Hash maps are finite maps; iteration order is never used. *)
Record knode := mkKN { kn_procs : gset nat; kn_sched : gmap N core_info }.

(** Default, nr.rs:107-114. *)
Definition kn_init : knode := mkKN ∅ ∅.

(** Op, nr.rs:71-86 (the affinity argument is ignored by the code and omitted). *)
Inductive kop :=
| KAllocPid
| KFreePid (pid : nat)
| KAllocCore (pid : nat) (gtid : option N) (entry : N)
| KReleaseCore (pid : nat) (gtid : N).

(** NodeResult, nr.rs:88-94 in the order PidAllocated, PidReturned, CoreAllocated, CoreReleased. *)
Inductive kret := RPid (p : nat) | RPidReturned | RCore (g : N) | RCoreReleased.

(** The scan [for i in 0..MAX_PROCESSES], nr.rs:188-195. *)
Fixpoint first_free (ps : gset nat) (i fuel : nat) : option nat :=
  match fuel with
  | 0 => None
  | S fuel => if decide (i ∈ ps) then first_free ps (S i) fuel else Some i
  end.

(** dispatch_mut, nr.rs:183-246.  [rs]: built with the rackscale feature; [oom]: the
    fallible reservation ([try_reserve(1)?]) fails. *)
Definition kn_step (rs oom : bool) (s : knode) (op : kop) : knode * res kret :=
  match op with
  | KAllocPid =>
      match first_free (kn_procs s) 0 MAX_PROCESSES with
      | Some i =>
          if oom then (s, Err OutOfMemory)
          else (mkKN ({[i]} ∪ kn_procs s) (kn_sched s), Ok (RPid i))
      | None => (s, Err OutOfPids)
      end
  | KFreePid pid =>
      if decide (pid ∈ kn_procs s)
      then (mkKN (kn_procs s ∖ {[pid]}) (kn_sched s), Ok RPidReturned)
      else (s, Err NoProcessFoundForPid)
  | KAllocCore pid (Some g) entry =>
      if negb rs && negb (g <? MAX_CORES)%N then (s, Panic)
      else match kn_sched s !! g with
           | Some _ => (s, Err CoreAlreadyAllocated)
           | None =>
               if oom then (s, Err OutOfMemory)
               else (mkKN (kn_procs s) (<[g := mkCI pid entry]> (kn_sched s)), Ok (RCore g))
           end
  | KAllocCore _ None _ => (s, Panic)
  | KReleaseCore pid g =>
      if negb rs && negb (g <? MAX_CORES)%N then (s, Panic)
      else match kn_sched s !! g with
           | Some ci =>
               if decide (ci_pid ci = pid)
               then (mkKN (kn_procs s) (delete g (kn_sched s)), Ok RCoreReleased)
               else (s, Err CoreAllocatedToDifferentProcess)
           | None => (s, Err CoreNotAllocated)
           end
  end.

(** dispatch (CurrentProcess), nr.rs:171-181. *)
Definition kn_current (s : knode) (g : N) : res core_info :=
  match kn_sched s !! g with
  | Some ci => Ok ci
  | None => Err NoExecutorForCore
  end.

(** The replica applies the operations of the log one after the other; the result is the
    final state and the response to each operation. *)
Fixpoint kn_run (rs : bool) (s : knode) (ops : list (bool * kop)) : knode * list (kop * res kret) :=
  match ops with
  | [] => (s, [])
  | (oom, op) :: ops =>
      let '(s1, r) := kn_step rs oom s op in
      let '(s2, rs') := kn_run rs s1 ops in
      (s2, (op, r) :: rs')
  end.

(** ** ProcessFrames, kernel/src/process.rs:123-204 *)

(** A physical frame: base and size (memory/frame.rs; affinity is not used here). *)
Record pframe := mkPF { pf_base : N; pf_size : N }.
#[export] Instance pframe_eq_dec : EqDecision pframe.
Proof. solve_decision. Defined.

(** MAX_FRAMES_PER_PROCESS = MAX_CORES, process.rs:55. *)
Definition MAX_FRAMES_PER_PROCESS : nat := 192.

(** [frames: ArrayVec<(Option<Frame>, usize), MAX_FRAMES_PER_PROCESS>], process.rs:124-127;
    Default, :129-135.  The capacity is a parameter of the model. *)
Definition pfs_init (n : nat) : list (option pframe * nat) := replicate n (None, 0).

(** [position(|entry| entry.0.is_none())], process.rs:139. *)
Fixpoint pfs_free (fs : list (option pframe * nat)) : option nat :=
  match fs with
  | [] => None
  | (None, _) :: _ => Some 0
  | _ :: fs => S <$> pfs_free fs
  end.

(** add_frame, process.rs:138-145. *)
Definition pfs_add (fs : list (option pframe * nat)) (f : pframe)
  : list (option pframe * nat) * res nat :=
  match pfs_free fs with
  | Some i => (<[i := (Some f, 0)]> fs, Ok i)
  | None => (fs, Err TooManyRegisteredFrames)
  end.

(** get_frame, process.rs:147-159. *)
Definition pfs_get (fs : list (option pframe * nat)) (i : nat) : res (pframe * nat) :=
  match fs !! i with
  | Some (Some f, n) => Ok (f, n)
  | _ => Err InvalidFrameId
  end.

(** add_frame_mapping, process.rs:161-173 (the usize increment cannot wrap in practice;
    modelled without bound). *)
Definition pfs_add_mapping (fs : list (option pframe * nat)) (i : nat)
  : list (option pframe * nat) * res unit :=
  match fs !! i with
  | Some (Some f, n) => (<[i := (Some f, S n)]> fs, Ok tt)
  | _ => (fs, Err InvalidFrameId)
  end.

(** remove_frame_mapping, process.rs:175-193: the first entry with this base is used;
    a zero count panics. *)
Fixpoint pfs_remove_mapping (fs : list (option pframe * nat)) (pa : N)
  : list (option pframe * nat) * res unit :=
  match fs with
  | [] => ([], Err InvalidFrameId)
  | (Some f, n) :: fs' =>
      if (pf_base f =? pa)%N then
        match n with
        | S n' => ((Some f, n') :: fs', Ok tt)
        | 0 => (fs, Panic)
        end
      else let '(fs2, r) := pfs_remove_mapping fs' pa in ((Some f, n) :: fs2, r)
  | (None, n) :: fs' =>
      let '(fs2, r) := pfs_remove_mapping fs' pa in ((None, n) :: fs2, r)
  end.

(** deallocate_frame, process.rs:195-202. *)
Definition pfs_dealloc (fs : list (option pframe * nat)) (i : nat)
  : list (option pframe * nat) * res pframe :=
  match fs !! i with
  | Some (of, 0) =>
      match of with
      | Some f => (<[i := (None, 0)]> fs, Ok f)
      | None => (fs, Err InvalidFrameId)
      end
  | Some (_, S _) => (fs, Err FrameStillMapped)
  | None => (fs, Err InvalidFrameId)
  end.

(** The operations of the process replica that touch the table (nrproc.rs:570-633). *)
Inductive pfop :=
| PAdd (f : pframe) | PMap (i : nat) | PUnmap (pa : N) | PDealloc (i : nat) | PGet (i : nat).
Inductive pfret := PId (i : nat) | PUnit | PFrame (f : pframe) | PInfo (f : pframe) (n : nat).

Definition rmap {A B} (f : A -> B) (r : res A) : res B :=
  match r with Ok a => Ok (f a) | Err e => Err e | Panic => Panic end.

Definition pfs_step (fs : list (option pframe * nat)) (op : pfop)
  : list (option pframe * nat) * res pfret :=
  match op with
  | PAdd f => let '(fs', r) := pfs_add fs f in (fs', rmap PId r)
  | PMap i => let '(fs', r) := pfs_add_mapping fs i in (fs', rmap (fun _ => PUnit) r)
  | PUnmap pa => let '(fs', r) := pfs_remove_mapping fs pa in (fs', rmap (fun _ => PUnit) r)
  | PDealloc i => let '(fs', r) := pfs_dealloc fs i in (fs', rmap PFrame r)
  | PGet i => (fs, rmap (fun '(f, n) => PInfo f n) (pfs_get fs i))
  end.

Fixpoint pfs_run (fs : list (option pframe * nat)) (ops : list pfop)
  : list (option pframe * nat) * list (pfop * res pfret) :=
  match ops with
  | [] => (fs, [])
  | op :: ops =>
      let '(fs1, r) := pfs_step fs op in
      let '(fs2, rs) := pfs_run fs1 ops in
      (fs2, (op, r) :: rs)
  end.
