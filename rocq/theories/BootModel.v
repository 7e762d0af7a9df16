(** Model of how the kernel takes over physical memory at boot:
    kernel/src/arch/x86_64/memory.rs [process_uefi_memory_regions],
    [identify_numa_affinity], and kernel/src/memory/global.rs [GlobalMemory::new].
    The machine is described by the UEFI memory map and by the NUMA topology found
    in the ACPI tables; both are inputs here.  Memory contents are not modelled
    (zeroing of the page that holds a node cache). *)
From Verif Require Import Base MemModel.
Open Scope N_scope.

(** global.rs:22 [MAX_PHYSICAL_REGIONS], the capacity of every region list. *)
Definition MAX_REGIONS : nat := 64.
(** mcache.rs:30,37,45: capacities of [FrameCacheLarge], [FrameCacheSmall] and
    [FrameCacheEarly]. *)
Definition LBP : nat := N.to_nat 131071.
Definition LLP : nat := N.to_nat 131070.
Definition SBP : nat := 381.
Definition SLP : nat := 128.
Definition EBP : nat := N.to_nat 2048.
Definition ELP : nat := 12.

(** One entry of the UEFI memory map: is it CONVENTIONAL memory, its start, its
    number of 4 KiB pages. *)
Record region := mkRegion { rg_conv : bool; rg_start : N; rg_pages : N }.
(** A NUMA node of the topology with its affinity regions [lo, hi); the flag marks
    hot-plug regions. *)
Record node := mkNode { nd_id : N; nd_mem : list (N * N * bool) }.

(** [assert!(!l.is_full()); l.push(f)] on a region list. *)
Definition push_region (l : list frame) (f : frame) : res (list frame) :=
  if decide (length l < MAX_REGIONS)%nat then Ok (l ++ [f]) else Panic.

(** mcache.rs:73-80 [new_with_frame]. *)
Definition mc_with_frame (dbg : bool) (BP LP : nat) (node : N) (f : frame) : res mcache :=
  match populate_4k_first dbg BP LP (mc_new node) f with
  | (Ok _, c) => Ok c
  | (Err e, _) => Err e
  | (Panic, _) => Panic
  end.

(** arch/x86_64/memory.rs:121-122. *)
Definition ONE_MIB : N := 1048576.
Definition EARLY_CAPACITY : N := 33554432.

(** arch/x86_64/memory.rs:108-153: the loop of [process_uefi_memory_regions]. *)
Fixpoint uefi_loop (dbg : bool) (rs : list region) (em : option mcache) (acc : list frame)
    : res (option mcache * list frame) :=
  match rs with
  | [] => Ok (em, acc)
  | r :: rs' =>
    if rg_conv r then
      match frame_new (rg_start r) (rg_pages r * BASE_PAGE) 0 with
      | Ok f =>
        if decide (ONE_MIB <= rg_start r) then
          if bool_decide (EARLY_CAPACITY < f_size f) && negb (bool_decide (is_Some em)) then
            match split_at f EARLY_CAPACITY with
            | Ok (early, high) =>
              match mc_with_frame dbg EBP ELP 0 early with
              | Ok c =>
                if decide (high = frame_empty) then uefi_loop dbg rs' (Some c) acc
                else match push_region acc high with
                     | Ok acc' => uefi_loop dbg rs' (Some c) acc'
                     | _ => Panic
                     end
              | _ => Panic
              end
            | _ => Panic
            end
          else match push_region acc f with
               | Ok acc' => uefi_loop dbg rs' em acc'
               | _ => Panic
               end
        else uefi_loop dbg rs' em acc
      | _ => Panic
      end
    else uefi_loop dbg rs' em acc
  end.
(** arch/x86_64/memory.rs:101-158 [process_uefi_memory_regions]. *)
Definition process_uefi (dbg : bool) (rs : list region) : res (mcache * list frame) :=
  match uefi_loop dbg rs None [] with
  | Ok (Some em, mem) => Ok (em, mem)
  | _ => Panic
  end.

(** atopology's [MemoryAffinity::contains] (external crate): the middle range is
    the part of [start, end) inside the region, (0, 0) if there is none. *)
Definition affinity_mid (lo hi start stop : N) : N * N :=
  if decide (N.max lo start < N.min hi stop) then (N.max lo start, N.min hi stop) else (0, 0).

(** arch/x86_64/memory.rs:56-74: the sub-ranges of one frame, with their node, in
    the order of the loops over nodes and affinity regions. *)
Definition region_part (f : frame) (id : N) (r : N * N * bool) : list (N * N * N) :=
  match r with
  | (lo, hi, hotplug) =>
    if (hotplug : bool) then [] else
    let mid := affinity_mid lo hi (f_base f) (f_base f + f_size f) in
    if decide (0 < mid.1) then [(mid.1, mid.2, id)] else []
  end.
Definition frame_parts (topo : list node) (f : frame) : list (N * N * N) :=
  flat_map (fun nd => flat_map (region_part f (nd_id nd)) (nd_mem nd)) topo.

(** arch/x86_64/memory.rs:65-68: [Frame::from_range], then push. *)
Fixpoint push_parts (ps : list (N * N * N)) (acc : list frame) : res (list frame) :=
  match ps with
  | [] => Ok acc
  | (lo, hi, id) :: ps' =>
    match frame_from_range lo hi id with
    | Ok f => match push_region acc f with
              | Ok acc' => push_parts ps' acc'
              | _ => Panic
              end
    | _ => Panic
    end
  end.

(** Sum of the sizes, arch/x86_64/memory.rs:90-91. *)
Definition total_size (l : list frame) : N := foldr (fun f s => f_size f + s) 0 l.

(** arch/x86_64/memory.rs:49-95 [identify_numa_affinity].  The copy for a machine
    without topology always fits: both lists have the same capacity. *)
Definition identify_numa (topo : list node) (mem : list frame) : res (list frame) :=
  match topo with
  | [] => Ok mem
  | _ =>
    match push_parts (flat_map (frame_parts topo) mem) [] with
    | Ok ann => if decide (total_size ann = total_size mem) then Ok ann else Panic
    | _ => Panic
    end
  end.

(** global.rs:61-69: is the list sorted by affinity? *)
Fixpoint sorted_aff (l : list frame) : bool :=
  match l with
  | f :: ((g :: _) as l') => bool_decide (f_aff f <= f_aff g) && sorted_aff l'
  | _ => true
  end.
Definition max_aff (l : list frame) : N := foldr (fun f m => N.max (f_aff f) m) 0 l.

(** global.rs:82 [EMEM_SIZE]. *)
Definition EMEM_SIZE : N := 2 * LARGE_PAGE + 64 * BASE_PAGE.

(** global.rs:76-108: set up the early cache of every node.  Returns the frames
    that remain of the argument, the frames cut off above the early memory, and the
    early caches.  ([leftovers] has as many slots as there are frames, so its push
    does not fail; [gm.emem] has [MAX_NUMA_NODES] slots, arch/x86_64/mod.rs:70.) *)
Definition MAX_NODES : N := 12.
Fixpoint emem_loop (dbg : bool) (mem : list frame) (cur : N)
    : res (list frame * list frame * list mcache) :=
  match mem with
  | [] => Ok ([], [], [])
  | f :: mem' =>
    if decide (f_aff f = cur /\ EMEM_SIZE < f_size f) then
      match split_at_large f with
      | Ok (low, aligned_frame) =>
        match split_at aligned_frame EMEM_SIZE with
        | Ok (em, leftover) =>
          match mc_with_frame dbg SBP SLP cur em with
          | Ok c =>
            if decide (MAX_NODES <= cur) then Panic else
            match emem_loop dbg mem' (cur + 1) with
            | Ok (rest, lo, cs) =>
              Ok (low :: rest, (if decide (leftover = frame_empty) then lo else leftover :: lo), c :: cs)
            | _ => Panic
            end
          | _ => Panic
          end
        | _ => Panic
        end
      | _ => Panic
      end
    else
      match emem_loop dbg mem' cur with
      | Ok (rest, lo, cs) => Ok (f :: rest, lo, cs)
      | _ => Panic
      end
  end.

(** global.rs:117-134: take one large page of every node's early memory for the
    node's big cache.  Returns the early caches after that and the pages taken. *)
Fixpoint ncache_loop (cs : list mcache) : res (list mcache * list frame) :=
  match cs with
  | [] => Ok ([], [])
  | c :: cs' =>
    match mc_alloc_large c with
    | (Ok f, c') =>
      if decide (f_base f = 0) then Panic
      else match ncache_loop cs' with
           | Ok (cs2, fs) => Ok (c' :: cs2, f :: fs)
           | Err e => Err e
           | Panic => Panic
           end
    | (Err e, _) => Err e
    | (Panic, _) => Panic
    end
  end.

(** global.rs:140-151: fill one node's cache with the frames of that node. *)
Fixpoint fill_cache (aff : N) (mem : list frame) (c : mcache) : res mcache :=
  match mem with
  | [] => Ok c
  | f :: mem' =>
    if decide (f_aff f = aff) then
      match populate_2m_first LBP LLP c f with
      | (Ok _, c') => fill_cache aff mem' c'
      | _ => Panic
      end
    else fill_cache aff mem' c
  end.
(** global.rs:138-152: all nodes, from node [aff] on. *)
Fixpoint fill_caches (n : nat) (aff : N) (mem : list frame) : res (list mcache) :=
  match n with
  | O => Ok []
  | S n' =>
    match fill_cache aff mem (mc_new aff) with
    | Ok c => match fill_caches n' (aff + 1) mem with
              | Ok cs => Ok (c :: cs)
              | _ => Panic
              end
    | _ => Panic
    end
  end.

(** global.rs:32-41 [GlobalMemory], and the pages that hold the node caches
    themselves ([gm_self], not a field of the code). *)
Record gmem := mkGm { gm_emem : list mcache; gm_caches : list mcache; gm_self : list frame }.

(** global.rs:61-155 [GlobalMemory::new]; [dbg] says whether debug assertions are
    compiled in. *)
Definition gm_new (dbg : bool) (mem : list frame) : res gmem :=
  if negb (sorted_aff mem) then Panic else
  match mem with
  | [] => Panic
  | _ =>
    let n := max_aff mem + 1 in
    match emem_loop dbg mem 0 with
    | Ok (rest, leftovers, em) =>
      if decide (N.of_nat (length em) = n) then
        match ncache_loop em with
        | Ok (em', self) =>
          match fill_caches (N.to_nat n) 0 (rest ++ leftovers) with
          | Ok cs => Ok (mkGm em' cs self)
          | _ => Panic
          end
        | Err e => Err e
        | Panic => Panic
        end
      else Panic
    | _ => Panic
    end
  end.

(** arch/x86_64/mod.rs:330-391: the boot sequence, as far as memory is concerned:
    the early cache of the boot core, then the global memory ([unwrap] of an error
    is a panic).  Allocations from the early cache between the two are not part of
    this. *)
Definition boot (dbg : bool) (rs : list region) (topo : list node) : res (mcache * gmem) :=
  match process_uefi dbg rs with
  | Ok (early, mem) =>
    match identify_numa topo mem with
    | Ok ann => match gm_new dbg ann with
                | Ok gm => Ok (early, gm)
                | _ => Panic
                end
    | _ => Panic
    end
  | _ => Panic
  end.
