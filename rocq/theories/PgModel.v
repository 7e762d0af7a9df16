(** Model of the user-space heap's page supply: the per-core pagers of a process, the search
    for a page over the pagers, allocations above the zone allocator's sizes, and the rump
    runtime's anonymous mmap.  lib/vibrio/src/mem.rs, lib/vibrio/src/rumprt/crt/mem.rs.

    Not modelled: the zone allocator (slabmalloc, an external crate): an allocation of up to
    its largest size appears here only by the page it asks for.  Pages are never given back
    (mem.rs:66-68, 98-100, 110-112 only print a warning).  The kernel's answer to a map
    request is an input of each step.  Each pager is locked for one request (for the whole
    loop in mmap); steps are these critical sections, except for the loop of a big allocation,
    which is one step here although it locks for each page (see PBig). *)
From Verif Require Import Base.
From stdpp Require Import functions.
Local Open Scope N_scope.

(** PML4_SLOT_SIZE (x86 crate) = 512 GiB; lib/kpi/src/process.rs:15, 27, 30. *)
Definition HEAP_START : N := 2 ^ 39.
Definition HEAP_REGION : N := 2 ^ 39.
Definition PG_CORES : nat := 96.
Definition PG_BASE : N := 4096.
Definition PG_LARGE : N := 2097152.

(** lib/vibrio/src/mem.rs:115-124 (PAGER): start and limit of pager [i]. *)
Definition pg_start (i : nat) : N := HEAP_START + N.of_nat i * HEAP_REGION.
Definition pg_limit (i : nat) : N := HEAP_START + N.of_nat (S i) * HEAP_REGION.

(** The pagers: the [sbrk] of each, and (for the statements only) the ranges that the kernel
    has mapped for each, the newest first.  mem.rs:46-49. *)
Record pgs := mkPgs { pg_sbrk : nat -> N; pg_log : list (nat * (N * N)) }.
Definition pgs_init : pgs := mkPgs pg_start [].

(** round_up!, mem.rs:28-32, on usize: the addition overflows for large arguments (a panic
    when overflow checks are on; modelled so). *)
Definition pg_round_up (n s : N) : res N :=
  if decide (n + s < 2 ^ 64) then Ok ((n + s - 1) / s * s) else Panic.

(** Pager::allocate, mem.rs:70-86.  [kok]: the kernel maps the range.  [sbrk] stays rounded
    up when the request fails. *)
Definition pg_allocate (st : pgs) (i : nat) (size align : N) (kok : bool) : res N * pgs :=
  if decide (i < PG_CORES)%nat then
    match pg_round_up size PG_BASE, pg_round_up (pg_sbrk st i) (N.max align PG_BASE) with
    | Ok size, Ok sbrk =>
      if decide (pg_limit i <= sbrk) then (Err OutOfMemory, mkPgs (<[i := sbrk]> (pg_sbrk st)) (pg_log st))
      else if kok then
        if decide (sbrk + size < 2 ^ 64) then
          (Ok sbrk, mkPgs (<[i := sbrk + size]> (pg_sbrk st)) ((i, (sbrk, size)) :: pg_log st))
        else (Panic, st)
      else (Err OutOfMemory, mkPgs (<[i := sbrk]> (pg_sbrk st)) (pg_log st))
    | _, _ => (Panic, st)
    end
  else (Panic, st).

(** alloc_page, mem.rs:55-65: the layout of one page.  (The assertion that the address is
    not null holds: the heap starts at 512 GiB.) *)
Definition pg_page_size (large : bool) : N := if large then PG_LARGE else PG_BASE.
Definition pg_alloc_page (st : pgs) (i : nat) (large : bool) (kok : bool) : res N * pgs :=
  pg_allocate st i (pg_page_size large) (pg_page_size large) kok.

(** The pager before which the search stops: (my_core_index - 1) % MAX_CORES on usize,
    mem.rs:152, 173.  On core 0 the subtraction overflows: a panic with overflow checks
    ([chk]), otherwise 2^64 - 1 modulo 96. *)
Definition pg_stop (chk : bool) (me : nat) : res nat :=
  match me with
  | S k => Ok k
  | O => if chk then Panic else Ok (N.to_nat ((2 ^ 64 - 1) mod N.of_nat PG_CORES))
  end.

(** try_alloc_page / try_alloc_largepage, mem.rs:141-184: ask the pagers in turn.  [ks k] is
    the kernel's answer to a request of pager [k].  The loop ends within MAX_CORES rounds
    (proved), so the fuel of the caller does not run out. *)
Fixpoint pg_try_loop (fuel : nat) (chk : bool) (st : pgs) (me c : nat) (large : bool) (ks : nat -> bool)
  : res (option N) * pgs :=
  match fuel with
  | O => (Panic, st)
  | S fuel =>
    match pg_alloc_page st c large (ks c) with
    | (Ok p, st') => (Ok (Some p), st')
    | (Panic, st') => (Panic, st')
    | (Err _, st') =>
      let c' := (S c mod PG_CORES)%nat in
      match pg_stop chk me with
      | Ok stop => if decide (c' = stop) then (Ok None, st') else pg_try_loop fuel chk st' me c' large ks
      | _ => (Panic, st')
      end
    end
  end.
Definition pg_try (chk : bool) (st : pgs) (me : nat) (large : bool) (ks : nat -> bool) : res (option N) * pgs :=
  pg_try_loop PG_CORES chk st me me large ks.

(** SafeZoneAllocator::alloc for sizes above a large page, mem.rs:224-240: one large page
    after the other; the address of the first is returned; None panics ([expect]).
    [kss]: the kernel's answers for each page. *)
Fixpoint pg_big_loop (n : nat) (chk : bool) (st : pgs) (me : nat) (first : option N) (kss : nat -> nat -> bool)
  : res (option N) * pgs :=
  match n with
  | O => (Ok first, st)
  | S n =>
    match pg_try chk st me true (kss n) with
    | (Ok (Some p), st') => pg_big_loop n chk st' me (match first with None => Some p | f => f end) kss
    | (_, st') => (Panic, st')
    end
  end.
Definition pg_big (chk : bool) (st : pgs) (me : nat) (size : N) (kss : nat -> nat -> bool) : res (option N) * pgs :=
  pg_big_loop (N.to_nat ((size + PG_LARGE - 1) / PG_LARGE)) chk st me None kss.

(** nrk::mmap, rumprt/crt/mem.rs:96-150: chunks of 64 MiB, aligned to 2 MiB; an error
    panics.  [n]: chunks to go; [ks n]: the kernel's answer.  mem.rs:112 asserts len > 4096. *)
Definition PG_CHUNK : N := 67108864.
Fixpoint pg_mmap_loop (n : nat) (st : pgs) (me : nat) (remaining : N) (ptr : option N) (ks : nat -> bool)
  : res N * pgs :=
  match n with
  | O => match ptr with
         | Some p => if decide (remaining = 0) then (Ok p, st) else (Panic, st)
         | None => (Panic, st)
         end
  | S n =>
    let size := N.min PG_CHUNK remaining in
    match pg_allocate st me size PG_LARGE (ks n) with
    | (Ok va, st') => pg_mmap_loop n st' me (remaining - size) (match ptr with None => Some va | p => p end) ks
    | (_, st') => (Panic, st')
    end
  end.
Definition pg_mmap (st : pgs) (me : nat) (len : N) (ks : nat -> bool) : res N * pgs :=
  if decide (4096 < len) then
    pg_mmap_loop (N.to_nat ((len + PG_CHUNK - 1) / PG_CHUNK)) st me len None ks
  else (Panic, st).

(** Requests: a pager asked directly for a layout (rumprt/dev.rs:256-262), a page wanted on a
    core, a big allocation, an mmap. *)
Inductive pgop :=
  | PReq (i : nat) (size align : N) (kok : bool)
  | PPage (me : nat) (large : bool) (ks : nat -> bool)
  | PBig (me : nat) (size : N) (kss : nat -> nat -> bool)
  | PMmap (me : nat) (len : N) (ks : nat -> bool).

(** One request: the state after it, and whether the process is still alive. *)
Definition pg_step (chk : bool) (st : pgs) (o : pgop) : bool * pgs :=
  match o with
  | PReq i size align kok => let '(r, st') := pg_allocate st i size align kok in (negb (is_panic r), st')
  | PPage me large ks => let '(r, st') := pg_try chk st me large ks in (negb (is_panic r), st')
  | PBig me size kss => let '(r, st') := pg_big chk st me size kss in (negb (is_panic r), st')
  | PMmap me len ks => let '(r, st') := pg_mmap st me len ks in (negb (is_panic r), st')
  end.
(** A history; it ends at a panic. *)
Fixpoint pg_run (chk : bool) (st : pgs) (l : list pgop) : bool * pgs :=
  match l with
  | [] => (true, st)
  | o :: l => let '(ok, st') := pg_step chk st o in if ok then pg_run chk st' l else (false, st')
  end.
