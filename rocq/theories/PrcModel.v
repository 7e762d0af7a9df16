(** Model of a process as the replicated object sees it: kernel/src/nrproc.rs (NrProcess), with
    Ring3Process of kernel/src/arch/x86_64/process.rs, its address space (VsModel) and its table
    of registered frames (NodeModel); and of the system calls that reach it
    (kernel/src/arch/x86_64/syscall.rs). *)
From Verif Require MemModel.
From Verif Require Import Base TlbModel SysModel NodeModel VsModel.

(** ** Executors *)

(** Ring3Executor::INIT_STACK_SIZE, UPCALL_STACK_SIZE, EXECUTOR_SPACE_REQUIREMENT,
    arch/x86_64/process.rs:824-830. *)
Definition INIT_STACK : N := 98304.
Definition UPCALL_STACK : N := 98304.
Definition EXEC_SPACE : N := 200704.
(** size_of VirtualCpu, lib/kpi/src/x86_64.rs:38-51: SaveArea (28 words and the 512 bytes of
    FxSave), three addresses, two flags, rounded up to 16. *)
Definition VCPU_SIZE : N := 768.
(** EXECUTOR_OFFSET, lib/kpi/src/process.rs:24; KERNEL_BASE, lib/kpi/src/lib.rs:31;
    MAX_NUMA_NODES, arch/x86_64/mod.rs:70. *)
Definition EXECUTOR_OFFSET : N := 0x2100000000.
Definition KERNEL_BASE : N := 0x400000000000.
Definition MAX_NUMA_NODES : nat := 12.

(** Ring3Executor, arch/x86_64/process.rs:774-811 (pid, entry point, page table root and save
    area are copies of process fields or constants). *)
Record exr := mkEx { x_eid : nat; x_aff : nat; x_stack : N; x_upstack : N; x_vcpu : N; x_vcpuk : N }.
(** Ring3Executor::new, 832-873. *)
Definition exec_new (eid : nat) (vcpuk from to : N) (aff : nat) : res exr :=
  if negb (from <? to)%N then Panic
  else if negb (INIT_STACK + UPCALL_STACK + VCPU_SIZE <=? to - from)%N then Panic
  else Ok (mkEx eid aff from (from + INIT_STACK) (from + INIT_STACK + UPCALL_STACK) vcpuk).
(** stack_top, upcall_stack_top, 888-896. *)
Definition stack_top (x : exr) : N := x_stack x + INIT_STACK - 8.
Definition upcall_stack_top (x : exr) : N := x_upstack x + UPCALL_STACK - 8.

(** The cache slot update, 1523-1526.  An index past the array panics. *)
Definition cache_push (c : list (option (list exr))) (i : nat) (x : exr) : res (list (option (list exr))) :=
  match c !! i with
  | None => Panic
  | Some (Some l) => Ok (<[i := Some (l ++ [x])]> c)
  | Some None => Ok (<[i := Some [x]]> c)
  end.
(** The loop of allocate_executors, 1487-1529: [n] executors to go, the next one at physical
    address [p] and virtual address [v].  [fail] = Some k: the k-th of the fallible allocations
    of the loop (one for the box, one for the vector; only the executor at which it fails
    matters) fails. *)
Fixpoint carve (n : nat) (p v : N) (aff : nat) (eid : nat) (c : list (option (list exr))) (fail : option nat)
  : nat * list (option (list exr)) * res unit :=
  match n with
  | 0 => (eid, c, Ok tt)
  | S n =>
    match exec_new eid (p + INIT_STACK + UPCALL_STACK + KERNEL_BASE) v (v + EXEC_SPACE) aff with
    | Ok x =>
      match fail with
      | Some 0 => (eid, c, Err OutOfMemory)
      | _ =>
        match cache_push c aff x with
        | Ok c' => carve n (p + EXEC_SPACE) (v + EXEC_SPACE) aff (S eid) c' (Nat.pred <$> fail)
        | _ => (eid, c, Panic)
        end
      end
    | _ => (eid, c, Panic)
    end
  end.

(** ** The process *)

(** NrProcess (nrproc.rs:134-142) and Ring3Process (arch/x86_64/process.rs:995-1027): address
    space, frame table, next executor id, where the next executor memory goes, cached executors
    per region, and the cores that run the process. *)
Record prc := mkPrc { p_vs : vspace; p_pfm : list (option pframe * nat); p_eid : nat; p_exoff : N;
  p_cache : list (option (list exr)); p_active : list (N * nat) }.
(** Ring3Process::new, 1030-1065, after Load has put [vs] into the address space. *)
Definition prc_init (vs : vspace) : prc :=
  mkPrc vs (pfs_init MAX_FRAMES_PER_PROCESS) 0 EXECUTOR_OFFSET (replicate MAX_NUMA_NODES None) [].

(** allocate_executors, 1430-1541 (without the feature rackscale). *)
Definition alloc_executors (lg : bool) (s : prc) (f : pframe) (aff : nat) (fail : option nat) : prc * res nat :=
  let n := N.to_nat (pf_size f / EXEC_SPACE) in
  match vs_map_frame lg (p_vs s) (p_exoff s) (pf_base f) (pf_size f) (ma_or ma_user ma_write_) with
  | (vs, Ok _) =>
    match carve n (pf_base f) (p_exoff s) aff (p_eid s) (p_cache s) fail with
    | (eid, c, Ok _) => (mkPrc vs (p_pfm s) eid (p_exoff s + pf_size f) c (p_active s), Ok n)
    | (eid, c, Err e) => (mkPrc vs (p_pfm s) eid (p_exoff s) c (p_active s), Err e)
    | (eid, c, Panic) => (mkPrc vs (p_pfm s) eid (p_exoff s) c (p_active s), Panic)
    end
  | (vs, _) => (mkPrc vs (p_pfm s) (p_eid s) (p_exoff s) (p_cache s) (p_active s), Panic)
  end.
(** get_executor, 1407-1428: the last one of the region. *)
Definition get_executor (c : list (option (list exr))) (region : nat) : list (option (list exr)) * res exr :=
  match c !! region with
  | None => (c, Panic)
  | Some None => (c, Err NoExecutorAllocated)
  | Some (Some l) =>
    match last l with
    | Some x => (<[region := Some (take (pred (length l)) l)]> c, Ok x)
    | None => (c, Err ExecutorCacheExhausted)
    end
  end.

(** ProcessOpMut, nrproc.rs:67-110 (Load is in ElfModel).  [fail], [oom]: a fallible allocation
    fails; [refill] = false: try_refill_tcache fails. *)
Inductive pop :=
| PoDisp (f : pframe) (aff : nat) (fail : option nat)
| PoMapFrame (b : N) (f : pframe) (a : mapact) (refill : bool)
| PoMapDevice (f : pframe) (a : mapact)
| PoMapId (b : N) (id : nat) (a : mapact) (refill : bool)
| PoUnmap (va : N)
| PoAssign (gtid : N) (region : nat) (oom : bool)
| PoAddFrame (f : pframe)
| PoRelease (id : nat).
(** ProcessResult, nrproc.rs:112-132.  Of the flush handles: the range, and the cores of each
    machine. *)
Inductive pret :=
| PrOk | PrCreated (n : nat) | PrMapped (pa sz : N) | PrUnmapped (va sz : N) (cores : list cbm)
| PrExec (x : exr) | PrFid (id : nat) | PrFrame (f : pframe).

(** add_core for each active core, nrproc.rs:603-606; memory/vspace.rs:46-48. *)
Fixpoint add_cores (hs : list cbm) (act : list (N * nat)) : res (list cbm) :=
  match act with
  | [] => Ok hs
  | (g, _) :: act =>
    match hs !! N.to_nat (mid_from_gtid g) with
    | None => Panic
    | Some m => let? m' := cbm_set m (mtid_from_gtid g) true in add_cores (<[N.to_nat (mid_from_gtid g) := m']> hs) act
    end
  end.

(** dispatch_mut, nrproc.rs:546-635.  [nm]: NUM_MACHINES. *)
Definition prc_step (lg dbg : bool) (nm : nat) (s : prc) (op : pop) : prc * res pret :=
  match op with
  | PoDisp f aff fail => let '(s', r) := alloc_executors lg s f aff fail in (s', rmap PrCreated r)
  | PoMapFrame b f a refill =>
    if refill then
      let '(vs, r) := vs_map_frame lg (p_vs s) b (pf_base f) (pf_size f) a in
      (mkPrc vs (p_pfm s) (p_eid s) (p_exoff s) (p_cache s) (p_active s), rmap (fun _ => PrOk) r)
    else (s, Err OutOfMemory)
  | PoMapDevice f a =>
    let '(vs, r) := vs_map_frame lg (p_vs s) (pf_base f) (pf_base f) (pf_size f) a in
    (mkPrc vs (p_pfm s) (p_eid s) (p_exoff s) (p_cache s) (p_active s), rmap (fun _ => PrOk) r)
  | PoMapId b id a refill =>
    match pfs_get (p_pfm s) id with
    | Ok (f, _) =>
      match pfs_add_mapping (p_pfm s) id with
      | (fs, Ok _) =>
        if refill then
          let '(vs, r) := vs_map_frame lg (p_vs s) b (pf_base f) (pf_size f) a in
          (mkPrc vs fs (p_eid s) (p_exoff s) (p_cache s) (p_active s), rmap (fun _ => PrMapped (pf_base f) (pf_size f)) r)
        else (mkPrc (p_vs s) fs (p_eid s) (p_exoff s) (p_cache s) (p_active s), Err OutOfMemory)
      | (fs, Err e) => (s, Err e)
      | (fs, Panic) => (s, Panic)
      end
    | Err e => (s, Err e)
    | Panic => (s, Panic)
    end
  | PoUnmap va =>
    match vs_unmap dbg (p_vs s) va with
    | (vs, Ok (vb, pa, sz, a)) =>
      let '(fs, r) := if ma_alias a then pfs_remove_mapping (p_pfm s) pa else (p_pfm s, Ok tt) in
      let s' := mkPrc vs fs (p_eid s) (p_exoff s) (p_cache s) (p_active s) in
      match r with
      | Ok _ => (s', rmap (PrUnmapped vb sz) (add_cores (replicate nm (mkCbm 0 0)) (p_active s)))
      | _ => (s', Panic)
      end
    | (vs, Err e) => (s, Err e)
    | (vs, Panic) => (s, Panic)
    end
  | PoAssign g region oom =>
    let '(c, r) := get_executor (p_cache s) region in
    match r with
    | Ok x =>
      if oom then (mkPrc (p_vs s) (p_pfm s) (p_eid s) (p_exoff s) c (p_active s), Err OutOfMemory)
      else (mkPrc (p_vs s) (p_pfm s) (p_eid s) (p_exoff s) c (p_active s ++ [(g, x_eid x)]), Ok (PrExec x))
    | Err e => (s, Err e)
    | Panic => (s, Panic)
    end
  | PoAddFrame f =>
    let '(fs, r) := pfs_add (p_pfm s) f in
    (mkPrc (p_vs s) fs (p_eid s) (p_exoff s) (p_cache s) (p_active s), rmap PrFid r)
  | PoRelease id =>
    let '(fs, r) := pfs_dealloc (p_pfm s) id in
    (mkPrc (p_vs s) fs (p_eid s) (p_exoff s) (p_cache s) (p_active s), rmap PrFrame r)
  end.

(** A history, applied by a replica. *)
Fixpoint prc_run (lg dbg : bool) (nm : nat) (s : prc) (ops : list pop) : prc * list (pop * res pret) :=
  match ops with
  | [] => (s, [])
  | op :: ops =>
    let '(s1, r) := prc_step lg dbg nm s op in
    let '(s2, rs) := prc_run lg dbg nm s1 ops in
    (s2, (op, r) :: rs)
  end.

(** ** The system calls *)

(** NrProcess::map_frames, nrproc.rs:261-293: one operation per frame; anything but success
    panics.  The flag of a frame tells whether the refill of its operation succeeds. *)
Fixpoint map_frames (lg dbg : bool) (nm : nat) (s : prc) (b : N) (a : mapact) (fs : list (pframe * bool)) : prc * res unit :=
  match fs with
  | [] => (s, Ok tt)
  | (f, refill) :: fs =>
    match prc_step lg dbg nm s (PoMapFrame b f a refill) with
    | (s', Ok _) => map_frames lg dbg nm s' (b + pf_size f) a fs
    | (s', _) => (s', Panic)
    end
  end.
(** map_generic, syscall.rs:310-364.  [mem]: None if try_with_capacity or the refill of line 317
    fails, else the large and the base pages in the cache, each with the outcome of the refill of
    the map operation it is used for. *)
Definition sys_map (lg dbg : bool) (nm : nat) (s : prc) (b size : N)
    (mem : option (list (pframe * bool) * list (pframe * bool))) : prc * res (N * N) :=
  match mem with
  | None => (s, Err OutOfMemory)
  | Some (larges, bases) =>
    let bp := N.to_nat (MemModel.size_to_pages size).1 in
    let lp := N.to_nat (MemModel.size_to_pages size).2 in
    if (length larges <? lp) || (length bases <? bp) then (s, Panic)
    else
      let fs := take lp larges ++ take bp bases in
      match map_frames lg dbg nm s b ma_write_ fs with
      | (s', Ok _) =>
        match fs with
        | [] => (s', Panic)
        | (f, _) :: _ => (s', Ok (pf_base f, foldr (fun x t => (pf_size x.1 + t)%N) 0%N fs))
        end
      | (s', _) => (s', Panic)
      end
  end.
(** unmap_generic, syscall.rs:366-383 (the shootdown itself is in TlbModel); [handles[0]] needs a
    machine. *)
Definition sys_unmap (lg dbg : bool) (nm : nat) (s : prc) (b : N) : prc * res (N * N) :=
  match prc_step lg dbg nm s (PoUnmap b) with
  | (s', Ok (PrUnmapped va sz (_ :: _))) => (s', Ok (va, sz))
  | (s', Err e) => (s', Err e)
  | (s', _) => (s', Panic)
  end.
(** map_device, syscall.rs:395-405; map_device_frame, nrproc.rs:203-221. *)
Definition sys_map_device (lg dbg : bool) (nm : nat) (s : prc) (b size : N) : prc * res (N * N) :=
  match prc_step lg dbg nm s (PoMapDevice (mkPF b size) ma_write_) with
  | (s', Ok _) => (s', Ok (b, size))
  | (s', Err e) => (s', Err e)
  | (s', Panic) => (s', Panic)
  end.
(** map_frame_id, syscall.rs:407-420. *)
Definition ma_frame_id : mapact := ma_or (ma_or ma_user ma_write_) ma_aliased.
Definition sys_map_frame_id (lg dbg : bool) (nm : nat) (s : prc) (b : N) (id : nat) (refill : bool) : prc * res (N * N) :=
  match prc_step lg dbg nm s (PoMapId b id ma_frame_id refill) with
  | (s', Ok (PrMapped pa sz)) => (s', Ok (pa, sz))
  | (s', Err e) => (s', Err e)
  | (s', _) => (s', Panic)
  end.
(** allocate_physical, syscall.rs:218-252: [mem]: the frame of the cache, None if there is none. *)
Definition sys_alloc_physical (lg dbg : bool) (nm : nat) (s : prc) (size : N) (mem : option pframe) : prc * res (N * N) :=
  if negb (size =? BASE)%N && negb (size =? LARGE)%N then (s, Err InvalidSyscallArgument1)
  else match mem with
  | None => (s, Err OutOfMemory)
  | Some f =>
    match prc_step lg dbg nm s (PoAddFrame f) with
    | (s', Ok (PrFid id)) => (s', Ok (N.of_nat id, pf_base f))
    | (s', Err e) => (s', Err e)
    | (s', _) => (s', Panic)
    end
  end.
(** release_physical, syscall.rs:254-290: the second component is the frame given back to the
    allocator. *)
Definition sys_release_physical (lg dbg : bool) (nm : nat) (s : prc) (id : nat) : prc * option pframe * res (N * N) :=
  match prc_step lg dbg nm s (PoRelease id) with
  | (s', Ok (PrFrame f)) => if (pf_size f =? BASE)%N || (pf_size f =? LARGE)%N then (s', Some f, Ok (0%N, 0%N)) else (s', None, Panic)
  | (s', Err e) => (s', None, Err e)
  | (s', _) => (s', None, Panic)
  end.
(** identify, syscall.rs:430-435; resolve, nrproc.rs:177-194. *)
Definition sys_identify (dbg : bool) (s : prc) (a : N) : res (N * N) :=
  if dbg && negb (a <? KERNEL_BASE)%N then Panic
  else rmap (fun r => (r.1, 0%N)) (vs_resolve (p_vs s) a).
