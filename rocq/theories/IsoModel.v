(** A machine with several processes: their memory system calls, the free physical memory and
    its contents.  Composes PrcModel (one process) with the allocator of the kernel
    (kernel/src/memory) and the part of the page table that all processes share
    (kernel/src/arch/x86_64/process.rs:1376-1385).

    Simplifications: one machine and one replica of each process; the default build (large pages
    on, no rackscale).  Free memory is the set of free 4 KiB pages of all caches together; which
    free frames the caches supply is an input of the call, as is whether a refill fails (C13 is
    about the caches themselves).  The memory of page tables and kernel data is not in the set.
    A panic stops the machine. *)
From Verif Require MemModel.
From Verif Require Import Base NodeModel VsModel PrcModel.

(** The state: processes, the slots of the top-level table that all share with the kernel,
    free pages, bytes of physical memory, and whether the kernel panicked. *)
Record mach := mkMach { mc_ps : list prc; mc_kern : gmap N (gmap N pdpte);
  mc_free : N -> bool; mc_mem : N -> N; mc_dead : bool }.

(** Frames as the caches supply them: one aligned 4 KiB or 2 MiB page (memory/mcache.rs), whose
    4 KiB pages are free. *)
Definition frame_pages (f : pframe) : list N :=
  map (fun i => (pf_base f / BASE + N.of_nat i)%N) (seq 0 (N.to_nat (pf_size f / BASE))).
Definition page_of_frame (f : pframe) (x : N) : bool :=
  (pf_base f / BASE <=? x)%N && (x <? (pf_base f + pf_size f) / BASE)%N.
Definition take_frame (free : N -> bool) (sz : N) (f : pframe) : option (N -> bool) :=
  if (pf_size f =? sz)%N && (pf_base f mod sz =? 0)%N && forallb free (frame_pages f)
  then Some (fun x => free x && negb (page_of_frame f x)) else None.
Fixpoint take_frames (free : N -> bool) (sz : N) (fs : list pframe) : option (N -> bool) :=
  match fs with
  | [] => Some free
  | f :: fs => match take_frame free sz f with Some free' => take_frames free' sz fs | None => None end
  end.
(** release_base_page, release_large_page, reached from syscall.rs:260-287. *)
Definition give_frame (free : N -> bool) (f : pframe) : N -> bool := fun x => free x || page_of_frame f x.
(** Frame::zero, memory/frame.rs. *)
Definition zero_frame (mem : N -> N) (f : pframe) : N -> N :=
  fun x => if (pf_base f <=? x)%N && (x <? pf_base f + pf_size f)%N then 0%N else mem x.

(** The address space with the shared slots in place, arch/x86_64/process.rs:1376-1385: the
    top-level entries of the kernel are copied, so the tables behind them are the same memory
    in all processes. *)
Definition shared_in (k : gmap N (gmap N pdpte)) (s : prc) : prc :=
  mkPrc (mkVS (vs_map (p_vs s)) (k ∪ vs_pt (p_vs s))) (p_pfm s) (p_eid s) (p_exoff s) (p_cache s) (p_active s).
(** What an operation of a process leaves behind: its own slots, and the shared tables. *)
Definition own_part (k : gmap N (gmap N pdpte)) (s : prc) : prc :=
  mkPrc (mkVS (vs_map (p_vs s)) (vs_pt (p_vs s) ∖ k)) (p_pfm s) (p_eid s) (p_exoff s) (p_cache s) (p_active s).
Definition shared_part (k : gmap N (gmap N pdpte)) (s : prc) : gmap N (gmap N pdpte) :=
  map_imap (fun i _ => vs_pt (p_vs s) !! i) k.

(** The calls of a process, and what the caches and the allocator contribute.
    - CMap: map, map_pmem (syscall.rs:310-364); [mem]: None if the first refill fails, else the
      large and the base pages supplied, with the outcome of the refill of each map;
    - CUnmap, CMapDevice, CMapId, CAlloc, CRelease: the other calls (PrcModel);
    - CExec: allocate_dispatchers (kernel/src/process.rs:586-608), one round, with its frame;
    - CWrite, CRead: a store or load of one byte in user mode. *)
Inductive mcall :=
| CMap (b size : N) (mem : option (list (pframe * bool) * list (pframe * bool)))
| CUnmap (b : N)
| CMapDevice (b size : N)
| CMapId (b : N) (id : nat) (refill : bool)
| CAlloc (size : N) (mem : option pframe)
| CRelease (id : nat)
| CExec (f : pframe) (aff : nat) (fail : option nat)
| CWrite (va v : N)
| CRead (va : N).

(** Translation in user mode.  The entries of the shared slots are for the kernel only
    (bootloader/src/vspace.rs:465-468, vspace/mod.rs:105: no US bit).  Addresses are given by
    their low 48 bits. *)
Definition user_translate (m : mach) (s : prc) (va : N) : option (N * mapact) :=
  if (2 ^ 48 <=? va)%N then None else
  match mc_kern m !! i4 va with
  | Some _ => None
  | None =>
    match vs_resolve (p_vs s) va with
    | Ok (pa, r) => if ma_kernel r then None else Some (pa, r)
    | _ => None
    end
  end.

(** The state after process [p]'s operation ended in [s'] (with the shared slots in place). *)
Definition put_prc (m : mach) (p : nat) (s' : prc) (free : N -> bool) (mem : N -> N) (dead : bool) : mach :=
  mkMach (<[p := own_part (mc_kern m) s']> (mc_ps m)) (shared_part (mc_kern m) s') free mem dead.

(** One call.  None: the inputs do not fit (no such process, frames that are not free). *)
Definition mach_step (dbg : bool) (nm : nat) (m : mach) (p : nat) (c : mcall) : option (mach * res (N * N)) :=
  if mc_dead m then None else
  match mc_ps m !! p with
  | None => None
  | Some s0 =>
    let s := shared_in (mc_kern m) s0 in
    match c with
    | CMap b size mem =>
      match mem with
      | None => Some (m, Err OutOfMemory)
      | Some (ls, bs) =>
        if (length ls =? N.to_nat (MemModel.size_to_pages size).2) && (length bs =? N.to_nat (MemModel.size_to_pages size).1) then
          match take_frames (mc_free m) LARGE (map fst ls) with
          | None => None
          | Some fr1 =>
            match take_frames fr1 BASE (map fst bs) with
            | None => None
            | Some fr2 =>
              let '(s', r) := sys_map true dbg nm s b size mem in
              Some (put_prc m p s' fr2 (foldl zero_frame (mc_mem m) (map fst (ls ++ bs))) (is_panic r), r)
            end
          end
        else None
      end
    | CUnmap b => let '(s', r) := sys_unmap true dbg nm s b in Some (put_prc m p s' (mc_free m) (mc_mem m) (is_panic r), r)
    | CMapDevice b size =>
      let '(s', r) := sys_map_device true dbg nm s b size in Some (put_prc m p s' (mc_free m) (mc_mem m) (is_panic r), r)
    | CMapId b id refill =>
      let '(s', r) := sys_map_frame_id true dbg nm s b id refill in Some (put_prc m p s' (mc_free m) (mc_mem m) (is_panic r), r)
    | CAlloc size mem =>
      match mem with
      | None => let '(s', r) := sys_alloc_physical true dbg nm s size None in Some (put_prc m p s' (mc_free m) (mc_mem m) (is_panic r), r)
      | Some f =>
        if negb (size =? BASE)%N && negb (size =? LARGE)%N then None else
        match take_frame (mc_free m) size f with
        | None => None
        | Some fr => let '(s', r) := sys_alloc_physical true dbg nm s size (Some f) in Some (put_prc m p s' fr (mc_mem m) (is_panic r), r)
        end
      end
    | CRelease id =>
      let '(s', back, r) := sys_release_physical true dbg nm s id in
      Some (put_prc m p s' (match back with Some f => give_frame (mc_free m) f | None => mc_free m end) (mc_mem m) (is_panic r), r)
    | CExec f aff fail =>
      match take_frame (mc_free m) LARGE f with
      | None => None
      | Some fr =>
        let '(s', r) := alloc_executors true s f aff fail in
        Some (put_prc m p s' fr (zero_frame (mc_mem m) f) (is_panic r), rmap (fun n => (N.of_nat n, 0%N)) r)
      end
    | CWrite va v =>
      match user_translate m s0 va with
      | Some (pa, r) =>
        if ma_write r then Some (mkMach (mc_ps m) (mc_kern m) (mc_free m) (fun x => if (x =? pa)%N then v else mc_mem m x) false, Ok (v, 0%N))
        else Some (m, Err NotMapped)
      | None => Some (m, Err NotMapped)
      end
    | CRead va =>
      match user_translate m s0 va with
      | Some (pa, _) => Some (m, Ok (mc_mem m pa, 0%N))
      | None => Some (m, Err NotMapped)
      end
    end
  end.

(** A history of calls of all processes. *)
Fixpoint mach_run (dbg : bool) (nm : nat) (m : mach) (l : list (nat * mcall)) : option (mach * list (res (N * N))) :=
  match l with
  | [] => Some (m, [])
  | (p, c) :: l =>
    match mach_step dbg nm m p c with
    | Some (m1, r) => match mach_run dbg nm m1 l with Some (m2, rs) => Some (m2, r :: rs) | None => None end
    | None => None
    end
  end.
