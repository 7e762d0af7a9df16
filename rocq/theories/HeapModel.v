(** Model of the kernel heap: kernel/src/memory/mod.rs [KernelAllocator] (the global
    allocator) and kernel/src/memory/per_core.rs, in the build without rackscale,
    in normal operation: global memory is set and the core is not in panic mode
    (before that blocks come from the emergency allocator of [MemModel]).  Any
    number of cores; one call of [alloc], [dealloc] or [realloc] is one step
    (a core's own caches are private to it, the node caches are locked).  Memory
    contents are not modelled.

    The slab allocator (external crate slabmalloc) appears as slots in pages it was
    given: it returns any slot it likes of the right size class that is free and
    aligned, or claims to be exhausted; a free clears the slot at the address's
    index in the page the address is on. *)
From Verif Require Import Base MemModel.
Open Scope N_scope.

(** kpi lib.rs:31, memory/mod.rs:49: start of the direct map of physical memory,
    and of the area for big objects. *)
Definition KBASE : N := 70368744177664.
Definition BIGBASE : N := KBASE + 2199023255552.

(** slabmalloc's [MAX_ALLOC_SIZE] and size classes: powers of two from 8. *)
Definition MAX_ZONE : N := 131072.
Definition class_of (size : N) : N := 2 ^ N.log2_up (N.max 8 size).
(** [mb] is slabmalloc's [MAX_BASE_ALLOC_SIZE]: classes up to it use base pages. *)
Definition zpsize (mb class : N) : N := if decide (class <= mb) then BASE_PAGE else LARGE_PAGE.

(** A page owned by a slab allocator of a core and affinity: its class, its physical
    address, and the physical addresses of the slots in use. *)
Record zpage := mkZp { zp_core : nat; zp_aff : N; zp_class : N; zp_base : N; zp_used : list N }.
(** Slots of a page: 80 bytes at its end hold meta data. *)
Definition zp_slots (mb : N) (p : zpage) : list N :=
  map (fun i => zp_base p + N.of_nat i * zp_class p) (seq 0 (N.to_nat ((zpsize mb (zp_class p) - 80) / zp_class p))).

(** What one call works on: the core's current page cache, the node cache of the
    same affinity, the slab pages, [big_objects_sbrk], and the pages mapped for big
    objects (virtual address, frame). *)
Record ls := mkLs { l_pm : mcache; l_nc : mcache; l_zone : list zpage; l_sbrk : N; l_big : list (N * frame) }.
Definition set_pm (s : ls) (pm : mcache) : ls := mkLs pm (l_nc s) (l_zone s) (l_sbrk s) (l_big s).

(** mcache.rs:37 [FrameCacheSmall]. *)
Definition SBP : nat := 381.
Definition SLP : nat := 128.

(** memory/mod.rs:330-344: move pages from the node cache to the core's cache. *)
Fixpoint refill_base (n : nat) (nc pm : mcache) : res unit * mcache * mcache :=
  match n with
  | O => (Ok tt, nc, pm)
  | S n' =>
    match mc_alloc_base nc with
    | (Ok f, nc') => match mc_grow_base SBP pm [f] with
                     | (Ok _, pm') => refill_base n' nc' pm'
                     | (_, pm') => (Panic, nc', pm')
                     end
    | (Err e, nc') => (Err e, nc', pm)
    | (Panic, nc') => (Panic, nc', pm)
    end
  end.
Fixpoint refill_large (n : nat) (nc pm : mcache) : res unit * mcache * mcache :=
  match n with
  | O => (Ok tt, nc, pm)
  | S n' =>
    match mc_alloc_large nc with
    | (Ok f, nc') => match mc_grow_large SLP pm [f] with
                     | (Ok _, pm') => refill_large n' nc' pm'
                     | (_, pm') => (Panic, nc', pm')
                     end
    | (Err e, nc') => (Err e, nc', pm)
    | (Panic, nc') => (Panic, nc', pm)
    end
  end.

(** memory/mod.rs:286-347 [try_refill_tcache] for DRAM. *)
Definition refill_tcache (nb nl : N) (s : ls) : res unit * ls :=
  let nb := N.min (N.of_nat SBP - N.of_nat (length (mc_base (l_pm s)))) nb in
  let nl := N.min (N.of_nat SLP - N.of_nat (length (mc_large (l_pm s)))) nl in
  let up nc pm := mkLs pm nc (l_zone s) (l_sbrk s) (l_big s) in
  match refill_base (N.to_nat nb) (l_nc s) (l_pm s) with
  | (Ok _, nc, pm) =>
    match refill_large (N.to_nat nl) nc pm with
    | (r, nc', pm') => (r, up nc' pm')
    end
  | (r, nc, pm) => (r, up nc pm)
  end.

(** memory/mod.rs:487-514 [maybe_refill_tcache]. *)
Definition maybe_refill (nb nl : N) (s : ls) : res unit * ls :=
  if decide (N.of_nat (length (mc_base (l_pm s))) < nb \/ N.of_nat (length (mc_large (l_pm s))) < nl)
  then refill_tcache nb nl s else (Ok tt, s).

(** The slots the slab allocator of (core, aff) may return for a layout. *)
Definition slot_ok (mb : N) (core : nat) (aff size align : N) (p : zpage) (x : N) : bool :=
  bool_decide (zp_core p = core /\ zp_aff p = aff /\ zp_class p = class_of size /\
    x ∈ zp_slots mb p /\ x ∉ zp_used p /\ (x + KBASE) mod align = 0).
Definition use_slot (mb : N) (core : nat) (aff size align : N) (zs : list zpage) (i : nat) (x : N) : option (list zpage) :=
  match zs !! i with
  | Some p => if slot_ok mb core aff size align p x
              then Some (<[i := mkZp (zp_core p) (zp_aff p) (zp_class p) (zp_base p) (x :: zp_used p)]> zs) else None
  | None => None
  end.

(** The slab allocator's choices during one call, one per attempt: a page and a
    slot, or exhausted.  A choice that is not possible counts as exhausted. *)
Definition choice : Type := option (nat * N).
Definition next_choice (ch : list choice) : choice := match ch with [] => None | x :: _ => x end.

(** memory/mod.rs:83-92: allocate from the slab allocator; the result is the
    physical address. *)
Definition zone_alloc (mb : N) (core : nat) (aff size align : N) (ch : list choice) (s : ls) : res N * list choice * ls :=
  match next_choice ch with
  | Some (i, x) =>
    match use_slot mb core aff size align (l_zone s) i x with
    | Some zs => (Ok x, tail ch, mkLs (l_pm s) (l_nc s) zs (l_sbrk s) (l_big s))
    | None => (Err CacheExhausted, tail ch, s)
    end
  | None => (Err CacheExhausted, tail ch, s)
  end.

(** memory/mod.rs:517-579 [try_refill_zone]. *)
Definition refill_zone (mb : N) (core : nat) (aff size : N) (s : ls) : res unit * ls :=
  let add f pm := mkLs pm (l_nc s) (mkZp core aff (class_of size) (f_base f) [] :: l_zone s) (l_sbrk s) (l_big s) in
  if decide (size <= mb) then
    match mc_alloc_base (l_pm s) with
    | (Ok f, pm) => (Ok tt, add f pm)
    | (Err e, pm) => (Err e, set_pm s pm)
    | (Panic, pm) => (Panic, set_pm s pm)
    end
  else
    match mc_alloc_large (l_pm s) with
    | (Ok f, pm) => (Ok tt, add f pm)
    | (Err e, pm) => (Err e, set_pm s pm)
    | (Panic, pm) => (Panic, set_pm s pm)
    end.

(** memory/mod.rs:589-637 [alloc] for sizes the slab allocator handles (with
    [try_refill] for that case, 217-222, and [refill_amount], 253-260).  The result
    is a virtual address, [None] is the null pointer. *)
Fixpoint alloc_zone (tries : nat) (mb : N) (core : nat) (aff size align : N) (ch : list choice) (s : ls)
    : res (option N) * list choice * ls :=
  match tries with
  | O => (Ok None, ch, s)
  | S t =>
    match zone_alloc mb core aff size align ch s with
    | (Ok x, ch', s') => (Ok (Some (x + KBASE)), ch', s')
    | (Err _, ch', s1) =>
      match (if decide (size <= mb) then maybe_refill 1 0 s1 else maybe_refill 0 1 s1) with
      | (Ok _, s2) =>
        match refill_zone mb core aff size s2 with
        | (Ok _, s3) => alloc_zone t mb core aff size align ch' s3
        | (Err _, s3) => (Ok None, ch', s3)
        | (Panic, s3) => (Panic, ch', s3)
        end
      | (Err _, s2) => (Ok None, ch', s2)
      | (Panic, s2) => (Panic, ch', s2)
      end
    | (Panic, ch', s') => (Panic, ch', s')
    end
  end.

(** [alloc] for sizes above [MAX_ALLOC_SIZE] up to a large page (memory/mod.rs:93-98,
    [try_refill] 233-241). *)
Fixpoint alloc_large (tries : nat) (s : ls) : res (option N) * ls :=
  match tries with
  | O => (Ok None, s)
  | S t =>
    match mc_alloc_large (l_pm s) with
    | (Ok f, pm) => (Ok (Some (f_base f + KBASE)), set_pm s pm)
    | (Err _, pm) =>
      match refill_tcache 0 1 (set_pm s pm) with
      | (Ok _, s') => alloc_large t s'
      | (Err _, s') => (Ok None, s')
      | (Panic, s') => (Panic, s')
      end
    | (Panic, pm) => (Panic, set_pm s pm)
    end
  end.

(** vspace/page_table.rs:822-838 [alloc_frame]: a page table is a block of 4 KiB from
    the heap.  A null pointer fails a debug assertion (or is used). *)
Fixpoint alloc_tables (n : nat) (mb : N) (core : nat) (aff : N) (ch : list choice) (s : ls)
    : res unit * list choice * ls :=
  match n with
  | O => (Ok tt, ch, s)
  | S n' =>
    match alloc_zone 3 mb core aff BASE_PAGE BASE_PAGE ch s with
    | (Ok (Some _), ch', s') => alloc_tables n' mb core aff ch' s'
    | (_, ch', s') => (Panic, ch', s')
    end
  end.

(** memory/mod.rs:158-189: take pages and map them at increasing addresses.  [nt]
    says how many new page tables each mapping needs (decided by the addresses;
    arbitrary here).  That the mapping itself then succeeds is C17: the range is
    fresh. *)
Fixpoint map_pages (large : bool) (n : nat) (va : N) (nt : list nat) (mb : N) (core : nat) (aff : N)
    (ch : list choice) (s : ls) : res N * list nat * list choice * ls :=
  match n with
  | O => (Ok va, nt, ch, s)
  | S n' =>
    match (if large then mc_alloc_large (l_pm s) else mc_alloc_base (l_pm s)) with
    | (Ok f, pm) =>
      match alloc_tables (hd 0%nat nt) mb core aff ch (set_pm s pm) with
      | (Ok _, ch', s1) =>
        let s2 := mkLs (l_pm s1) (l_nc s1) (l_zone s1) (l_sbrk s1) ((va, f) :: l_big s1) in
        map_pages large n' (va + f_size f) (tail nt) mb core aff ch' s2
      | (_, ch', s1) => (Panic, nt, ch', s1)
      end
    | (_, pm) => (Panic, nt, ch, set_pm s pm)
    end
  end.

(** memory/mod.rs:99-191: one attempt to allocate a big object. *)
Definition big_pages (size : N) : N * N :=
  let '(base, large) := size_to_pages size in
  if decide (254 < base) then (0, large + 1) else (base, large).
Definition try_big (mb : N) (core : nat) (aff size : N) (nt : list nat) (ch : list choice) (s : ls)
    : res N * list choice * ls :=
  let '(base, large) := big_pages size in
  match maybe_refill (base + 20) (large + 1) s with
  | (Ok _, s1) =>
    let start := l_sbrk s1 in
    let s2 := mkLs (l_pm s1) (l_nc s1) (l_zone s1) (start + (large + 1) * LARGE_PAGE) (l_big s1) in
    match map_pages true (N.to_nat large) start nt mb core aff ch s2 with
    | (Ok va, nt', ch', s3) =>
      match map_pages false (N.to_nat base) va nt' mb core aff ch' s3 with
      | (Ok _, _, ch'', s4) => (Ok start, ch'', s4)
      | (_, _, ch'', s4) => (Panic, ch'', s4)
      end
    | (_, _, ch', s3) => (Panic, ch', s3)
    end
  | (Err e, s1) => (Err e, ch, s1)
  | (Panic, s1) => (Panic, ch, s1)
  end.
(** [alloc] for big objects ([try_refill], memory/mod.rs:223-231). *)
Fixpoint alloc_big (tries : nat) (mb : N) (core : nat) (aff size : N) (nt : list nat) (ch : list choice) (s : ls)
    : res (option N) * ls :=
  match tries with
  | O => (Ok None, s)
  | S t =>
    match try_big mb core aff size nt ch s with
    | (Ok p, _, s') => (Ok (Some p), s')
    | (Err _, ch', s1) =>
      match refill_tcache (size_to_pages size).1 (size_to_pages size).2 s1 with
      | (Ok _, s2) => alloc_big t mb core aff size nt ch' s2
      | (Err _, s2) => (Ok None, s2)
      | (Panic, s2) => (Panic, s2)
      end
    | (Panic, _, s1) => (Panic, s1)
    end
  end.

(** memory/mod.rs:193-202 [allocator_for], 589-637 [alloc]. *)
Definition alloc (mb : N) (core : nat) (aff size align : N) (nt : list nat) (ch : list choice) (s : ls)
    : res (option N) * ls :=
  if decide (size <= MAX_ZONE) then
    match alloc_zone 3 mb core aff size align ch s with (r, _, s') => (r, s') end
  else if decide (size <= LARGE_PAGE) then alloc_large 3 s
  else alloc_big 3 mb core aff size nt ch s.

(** slabmalloc: free the slot of [pa] with a layout of class [class].  The page is
    the one [pa] is on, with the page size of that class.  A page of the other size,
    or none, at that address would be garbage to the code: a panic here. *)
Definition zone_free (mb class pa : N) (zs : list zpage) : res (list zpage) :=
  let base := pa / zpsize mb class * zpsize mb class in
  match list_find (fun p => zp_base p = base) zs with
  | Some (i, p) =>
    if decide (zpsize mb (zp_class p) = zpsize mb class /\ (pa - base) mod class = 0) then
      let slot := base + (pa - base) / class * zp_class p in
      if decide (slot ∈ zp_used p) then
        Ok (<[i := mkZp (zp_core p) (zp_aff p) (zp_class p) (zp_base p) (filter (fun y => y <> slot) (zp_used p))]> zs)
      else Panic
    else Panic
  | None => Panic
  end.

(** memory/mod.rs:639-727 [dealloc].  (The branch for sizes up to a base page is
    dead: such sizes are the slab allocator's.) *)
Definition dealloc (mb : N) (aff ptr size align : N) (s : ls) : res unit * ls :=
  if decide (size <= MAX_ZONE) then
    match zone_free mb (class_of size) (ptr - KBASE) (l_zone s) with
    | Ok zs => (Ok tt, mkLs (l_pm s) (l_nc s) zs (l_sbrk s) (l_big s))
    | _ => (Panic, s)
    end
  else if decide (size <= LARGE_PAGE) then
    if decide (align <= LARGE_PAGE) then
      match frame_new (ptr - KBASE) LARGE_PAGE aff with
      | Ok f => match mc_release_large SLP (l_pm s) f with
                | (Ok _, pm) => (Ok tt, set_pm s pm)
                | (_, pm) => (Panic, set_pm s pm)
                end
      | _ => (Panic, s)
      end
    else (Panic, s)
  else (Ok tt, s).

(** memory/mod.rs:729-785 [realloc]. *)
Definition realloc (mb : N) (core : nat) (aff ptr size align new_size : N) (nt : list nat) (ch : list choice) (s : ls)
    : res (option N) * ls :=
  if decide (size <= MAX_ZONE /\ size <> BASE_PAGE /\ new_size <= class_of size) then (Ok (Some ptr), s)
  else match alloc mb core aff new_size align nt ch s with
       | (Ok (Some p), s1) =>
         match dealloc mb aff ptr size align s1 with
         | (Ok _, s2) => (Ok (Some p), s2)
         | (_, s2) => (Panic, s2)
         end
       | r => r
       end.

(** ** Cores and affinities *)
(** per_core.rs:33-40 [PerCoreAllocatorState] (its slab pages are in the shared list
    above) and the arenas of a core, per_core.rs:83-89. *)
Record arena := mkAr { ar_aff : N; ar_pm : mcache }.
Record core := mkCore { co_cur : arena; co_arenas : list (option arena) }.
Record heap := mkHp { hp_mb : N; hp_nodes : N; hp_cores : list core; hp_nc : list mcache;
  hp_zone : list zpage; hp_sbrk : N; hp_big : list (N * frame) }.

(** per_core.rs:134-169 [swap_manager]; [false] is the error InvalidAffinityId. *)
Definition swap_manager (nodes node : N) (c : core) : res bool * core :=
  if decide (node < N.of_nat (length (co_arenas c)) /\ node < N.max 1 nodes) then
    let arena := match co_arenas c !! N.to_nat node with
                 | Some (Some a) => a
                 | _ => mkAr node (mc_new node)
                 end in
    let ars := <[N.to_nat node := None]> (co_arenas c) in
    if decide (N.to_nat (ar_aff (co_cur c)) < length ars)%nat then
      (Ok true, mkCore arena (<[N.to_nat (ar_aff (co_cur c)) := Some (co_cur c)]> ars))
    else (Panic, c)
  else (Ok false, c).
(** per_core.rs:171-181 [set_mem_affinity]. *)
Definition set_affinity (nodes node : N) (c : core) : res bool * core :=
  if decide (node = ar_aff (co_cur c)) then (Ok true, c) else swap_manager nodes node c.

(** Run a call on core [c]; [node_caches[affinity]] of an affinity without a cache
    panics (in the code when a refill needs it). *)
Definition on_core {A} (h : heap) (c : nat) (k : N -> ls -> res A * ls) : res A * heap :=
  match hp_cores h !! c with
  | Some co =>
    let aff := ar_aff (co_cur co) in
    match hp_nc h !! N.to_nat aff with
    | Some nc =>
      let '(r, s) := k aff (mkLs (ar_pm (co_cur co)) nc (hp_zone h) (hp_sbrk h) (hp_big h)) in
      (r, mkHp (hp_mb h) (hp_nodes h) (<[c := mkCore (mkAr aff (l_pm s)) (co_arenas co)]> (hp_cores h))
            (<[N.to_nat aff := l_nc s]> (hp_nc h)) (l_zone s) (l_sbrk s) (l_big s))
    | None => (Panic, h)
    end
  | None => (Panic, h)
  end.
Definition k_alloc (h : heap) (c : nat) (size align : N) (nt : list nat) (ch : list choice) : res (option N) * heap :=
  on_core h c (fun aff => alloc (hp_mb h) c aff size align nt ch).
Definition k_dealloc (h : heap) (c : nat) (ptr size align : N) : res unit * heap :=
  on_core h c (fun aff => dealloc (hp_mb h) aff ptr size align).
Definition k_realloc (h : heap) (c : nat) (ptr size align new_size : N) (nt : list nat) (ch : list choice)
    : res (option N) * heap :=
  on_core h c (fun aff => realloc (hp_mb h) c aff ptr size align new_size nt ch).
Definition k_affinity (h : heap) (c : nat) (node : N) : res bool * heap :=
  match hp_cores h !! c with
  | Some co => let '(r, co') := set_affinity (hp_nodes h) node co in
      (r, mkHp (hp_mb h) (hp_nodes h) (<[c := co']> (hp_cores h)) (hp_nc h) (hp_zone h) (hp_sbrk h) (hp_big h))
  | None => (Panic, h)
  end.
