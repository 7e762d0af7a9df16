(** Memory system calls of a process that runs in a rack (feature rackscale):
    kernel/src/arch/x86_64/rackscale/{syscalls,get_shmem_frames}.rs and
    processops/{allocate,release}_physical.rs, over the machine of IsoModel.

    A process is one replicated object that the machines (clients) of the rack share, so there is
    one address space per process; each client has a cache of base pages per process.  Free memory
    is what the memslice allocators of the controller hold (controller_state.rs:32-36).

    Simplifications: as in IsoModel; which 2 MiB pages the allocators supply, and which machine
    DCM picks, is an input of the call.  Messages are not modelled beyond the size of the reply
    (RpcModel, RkModel).  A call is one step.  map_pmem, executors and page tables use other
    memory. *)
From Verif Require MemModel.
From Verif Require Import Base NodeModel VsModel PrcModel IsoModel.

(** FrameCacheBase, rackscale/mod.rs:66: MCache<2048, 0>. *)
Definition FRAME_CACHE : nat := N.to_nat 2048.
(** Entries of the queues that carry messages, lib/rpc/src/transport/shmem/queue_mpmc.rs:18; the
    buffer of the server has the same size, lib/rpc/src/server.rs:21. *)
Definition RM_MSG : N := 8192.
(** A reply to GetShmemFrames, get_shmem_frames.rs:169-187: the header (4 bytes), KResult<(u64,
    u64)> and Vec<ShmemRegion> (24 bytes each), and 16 bytes for each frame. *)
Definition shmem_reply (n : nat) : N := 4 + 24 + 24 + 16 * N.of_nat n.

(** The rack: processes, memory and the controller ([mc_dead]: it panicked); the caches
    (client_state.rs:37-38), by client and process, as page numbers, last one first out
    (memory/mcache.rs:256-262); and which clients panicked. *)
Record rrack := mkRr { rr_m : mach; rr_cache : list (list (list N)); rr_down : list bool }.

Definition cache_of (R : rrack) (i p : nat) : option (list N) :=
  match rr_cache R !! i with Some l => l !! p | None => None end.
Definition set_cache (c : list (list (list N))) (i p : nat) (l : list N) : list (list (list N)) :=
  match c !! i with Some cs => <[i := <[p := l]> cs]> c | None => c end.
(** The 4 KiB frame of a page. *)
Definition page_frame (n : N) : pframe := mkPF (n * BASE) BASE.

(** The calls.
    - RmMap: map_mem; [oom]: try_with_capacity fails; [frames]: the 2 MiB pages the allocators
      supply, None if the allocator of a machine picked by DCM is empty; [refills]: for each frame,
      the outcome of the refill of its map operation;
    - RmLocal: unmap_mem, map_device and map_frame_id, which run on the client
      (syscalls.rs:190-211), and loads and stores in user mode;
    - RmAlloc: allocate_physical, with the 2 MiB page supplied, or None as above;
    - RmRelease: release_physical; [room]: the allocator is not full; [dcm]: DCM agrees. *)
Inductive rmcall :=
| RmMap (b size : N) (oom : bool) (frames : option (list pframe)) (refills : list bool)
| RmLocal (c : mcall)
| RmAlloc (size : N) (frame : option pframe)
| RmRelease (id : nat) (room dcm : bool).

(** The calls that run on the client alone. *)
Definition local_call (c : mcall) : bool :=
  match c with CUnmap _ | CMapDevice _ _ | CMapId _ _ _ | CWrite _ _ | CRead _ => true | _ => false end.

(** The machine with another set of free pages and another state of the controller. *)
Definition with_free (m : mach) (free : N -> bool) (dead : bool) : mach :=
  mkMach (mc_ps m) (mc_kern m) free (mc_mem m) dead.
Definition fail_client (d : list bool) (i : nat) (b : bool) : list bool := if b then <[i := true]> d else d.

(** The rest of map_mem, syscalls.rs:156-186, with the frames found ([zero]: those just zeroed):
    anything but success of map_frames, and an empty list of frames, panics. *)
Definition map_found (dbg : bool) (nm : nat) (R : rrack) (i p : nat) (s : prc) (b : N)
    (frames zero : list pframe) (refills : list bool) (free : N -> bool) (cache : list N)
  : option (rrack * option (res (N * N))) :=
  if length refills =? length frames then
    let '(s', q) := map_frames true dbg nm s b ma_write_ (zip frames refills) in
    let r := match q, frames with
             | Ok _, f :: _ => Ok (pf_base f, foldr (fun f t => (pf_size f + t)%N) 0%N frames)
             | _, _ => Panic
             end in
    Some (mkRr (put_prc (rr_m R) p s' free (foldl zero_frame (mc_mem (rr_m R)) zero) (mc_dead (rr_m R)))
            (set_cache (rr_cache R) i p cache) (fail_client (rr_down R) i (is_panic r)), Some r)
  else None.

(** map_mem, syscalls.rs:43-187: [k] pages of the cache; one more large page if they do not
    suffice; its first pages complete the request, the following ones go to the cache as far as
    they fit (the others are lost).  [size_to_pages] asks for at most 512 base pages, so one large
    page is enough (line 113).  The answer is None if there is none: the controller panicked, in
    this call (get_shmem_frames.rs:149-151, or the reply does not fit) or before. *)
Definition rm_map (dbg : bool) (nm : nat) (R : rrack) (i p : nat) (s : prc) (cache : list N)
    (b size : N) (frames : option (list pframe)) (refills : list bool)
  : option (rrack * option (res (N * N))) :=
  let m := rr_m R in
  let bp := N.to_nat (MemModel.size_to_pages size).1 in
  let lp := N.to_nat (MemModel.size_to_pages size).2 in
  let k := min (length cache) bp in
  let taken := reverse (drop (length cache - k) cache) in
  let rest := take (length cache - k) cache in
  let need := bp - k in
  let nl := lp + (if need =? 0 then 0 else 1) in
  if nl =? 0 then map_found dbg nm R i p s b (map page_frame taken) [] refills (mc_free m) rest
  else if mc_dead m then Some (mkRr m (set_cache (rr_cache R) i p rest) (rr_down R), None)
  else match frames with
  | None => Some (mkRr (with_free m (mc_free m) true) (set_cache (rr_cache R) i p rest) (rr_down R), None)
  | Some fs =>
    if length fs =? nl then
      match take_frames (mc_free m) LARGE fs with
      | None => None
      | Some free =>
        if (RM_MSG <? shmem_reply nl)%N
        then Some (mkRr (with_free m free true) (set_cache (rr_cache R) i p rest) (rr_down R), None)
        else
          let pages := match drop lp fs with f :: _ => frame_pages f | [] => [] end in
          let fresh := map page_frame (take need pages) in
          let saved := take (FRAME_CACHE - length rest) (drop need pages) in
          map_found dbg nm R i p s b (take lp fs ++ fresh ++ map page_frame taken) (take lp fs ++ fresh) refills
            free (rest ++ saved)
      end
    else None
  end.

(** rpc_allocate_physical, processops/allocate_physical.rs:33-78, and its handler, 81-128: the
    controller takes one large page whatever the size; the client registers a frame of the size
    asked for. *)
Definition rm_alloc (dbg : bool) (nm : nat) (R : rrack) (i p : nat) (s : prc) (size : N) (frame : option pframe)
  : option (rrack * option (res (N * N))) :=
  let m := rr_m R in
  if mc_dead m then Some (R, None)
  else match frame with
  | None => Some (mkRr (with_free m (mc_free m) true) (rr_cache R) (rr_down R), None)
  | Some f =>
    match take_frame (mc_free m) LARGE f with
    | None => None
    | Some free =>
      let '(s', q) := prc_step true dbg nm s (PoAddFrame (mkPF (pf_base f) size)) in
      let r := match q with Ok (PrFid id) => Ok (N.of_nat id, pf_base f) | Err e => Err e | _ => Panic end in
      Some (mkRr (put_prc m p s' free (mc_mem m) (mc_dead m)) (rr_cache R) (fail_client (rr_down R) i (is_panic r)), Some r)
    end
  end.

(** rpc_release_physical, processops/release_physical.rs:36-78, and its handler, 81-142: the frame
    leaves the process first; the controller returns a large page at its base.  An allocator that
    is full answers CacheFull (mcache.rs:285-287); if DCM does not agree the error is DCMError,
    here RackscaleRPCError. *)
Definition rm_release (dbg : bool) (nm : nat) (R : rrack) (i p : nat) (s : prc) (id : nat) (room dcm : bool)
  : option (rrack * option (res (N * N))) :=
  let m := rr_m R in
  let '(s', q) := prc_step true dbg nm s (PoRelease id) in
  match q with
  | Ok (PrFrame f) =>
    if mc_dead m then Some (mkRr (put_prc m p s' (mc_free m) (mc_mem m) true) (rr_cache R) (rr_down R), None)
    else if room then
      Some (mkRr (put_prc m p s' (give_frame (mc_free m) (mkPF (pf_base f) LARGE)) (mc_mem m) false) (rr_cache R) (rr_down R),
        Some (if dcm then Ok (0%N, 0%N) else Err RackscaleRPCError))
    else Some (mkRr (put_prc m p s' (mc_free m) (mc_mem m) false) (rr_cache R) (rr_down R), Some (Err CacheFull))
  | Err e => Some (mkRr (put_prc m p s' (mc_free m) (mc_mem m) (mc_dead m)) (rr_cache R) (rr_down R), Some (Err e))
  | _ => Some (mkRr (put_prc m p s' (mc_free m) (mc_mem m) (mc_dead m)) (rr_cache R) (<[i := true]> (rr_down R)), Some Panic)
  end.

(** One call of process [p] on client [i].  None: the inputs do not fit (no such client or
    process, the client panicked, frames that are not free). *)
Definition rack_step (dbg : bool) (nm : nat) (R : rrack) (i p : nat) (c : rmcall) : option (rrack * option (res (N * N))) :=
  match rr_down R !! i, mc_ps (rr_m R) !! p, cache_of R i p with
  | Some false, Some s0, Some cache =>
    let s := shared_in (mc_kern (rr_m R)) s0 in
    match c with
    | RmMap b size oom frames refills =>
      if oom then Some (R, Some (Err OutOfMemory)) else rm_map dbg nm R i p s cache b size frames refills
    | RmLocal c =>
      if local_call c then
        match mach_step dbg nm (with_free (rr_m R) (mc_free (rr_m R)) false) p c with
        | Some (m', r) =>
          Some (mkRr (with_free m' (mc_free m') (mc_dead (rr_m R))) (rr_cache R) (fail_client (rr_down R) i (is_panic r)), Some r)
        | None => None
        end
      else None
    | RmAlloc size frame => rm_alloc dbg nm R i p s size frame
    | RmRelease id room dcm => rm_release dbg nm R i p s id room dcm
    end
  | _, _, _ => None
  end.

(** A history of calls: client, process, call. *)
Fixpoint rack_run (dbg : bool) (nm : nat) (R : rrack) (l : list (nat * nat * rmcall)) : option (rrack * list (option (res (N * N)))) :=
  match l with
  | [] => Some (R, [])
  | (i, p, c) :: l =>
    match rack_step dbg nm R i p c with
    | Some (R1, r) => match rack_run dbg nm R1 l with Some (R2, rs) => Some (R2, r :: rs) | None => None end
    | None => None
    end
  end.
