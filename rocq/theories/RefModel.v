(** Model of refilling a core's cache of shared memory in a rack, with base pages
    from a cache of the machine and large pages from the controller.

    Modelled code:
      kernel/src/memory/mod.rs:333-482          try_refill_shmem
      kernel/src/memory/mcache.rs:244-335       free pages, spare capacity, grow, allocate
      kernel/src/memory/frame.rs:189-226        the base pages of a frame
      kernel/src/arch/x86_64/rackscale/get_shmem_frames.rs:42-110  rpc_get_shmem_frames
      kernel/src/arch/x86_64/rackscale/dcm/affinity_alloc.rs:51-107  dcm_affinity_alloc

    Addresses are in units of base pages.  The environment decides what a machine
    gives on a request for large pages (the scheduler of the rack, C39 and
    C61); the memory that the request itself needs is not modelled, nor are the
    errors of a core that has no memory manager. *)
From Verif Require Import Base.

(** mcache.rs:49-70: a cache of pages with fixed capacities; the head of a list
    is the top of the stack. *)
Record cache := mkCache { base : list N; large : list N; base_cap : nat; large_cap : nat }.

(** mcache.rs:293-322. *)
Definition spare_base (c : cache) : nat := base_cap c - length (base c).
Definition spare_large (c : cache) : nat := large_cap c - length (large c).

(** mcache.rs:297-335: [None] when the cache is full, a panic at every use here. *)
Definition grow_base (c : cache) (p : N) : option cache :=
  if length (base c) <? base_cap c
  then Some (mkCache (p :: base c) (large c) (base_cap c) (large_cap c)) else None.
Definition grow_large (c : cache) (p : N) : option cache :=
  if length (large c) <? large_cap c
  then Some (mkCache (base c) (p :: large c) (base_cap c) (large_cap c)) else None.

(** mcache.rs:255-279. *)
Definition pop_base (c : cache) : option (N * cache) :=
  match base c with
  | [] => None
  | p :: r => Some (p, mkCache r (large c) (base_cap c) (large_cap c))
  end.
Definition pop_large (c : cache) : option (N * cache) :=
  match large c with
  | [] => None
  | p :: r => Some (p, mkCache (base c) r (base_cap c) (large_cap c))
  end.

(** The base pages of a large page. *)
Definition PAGES : nat := 512.
Definition split (l : N) : list N := map (λ i, (l + N.of_nat i)%N) (seq 0 PAGES).

(** mod.rs:371-378: [k] base pages from the shared cache to the core's. *)
Fixpoint move_base (k : nat) (core sh : cache) : option (cache * cache) :=
  match k with
  | 0 => Some (core, sh)
  | S k' =>
      match pop_base sh with
      | None => None
      | Some (p, sh') =>
          match grow_base core p with
          | None => None
          | Some core' => move_base k' core' sh'
          end
      end
  end.

(** mod.rs:386-394: [k] large pages from the shared cache to the core's. *)
Fixpoint move_large (k : nat) (core sh : cache) : option (cache * cache) :=
  match k with
  | 0 => Some (core, sh)
  | S k' =>
      match pop_large sh with
      | None => None
      | Some (p, sh') =>
          match grow_large core p with
          | None => None
          | Some core' => move_large k' core' sh'
          end
      end
  end.

(** mod.rs:433-437: the frames [i], ..., [i + k - 1] to the core's cache. *)
Fixpoint grow_at (k i : nat) (frames : list N) (core : cache) : option cache :=
  match k with
  | 0 => Some core
  | S k' =>
      match nth_error frames i with
      | None => None
      | Some l =>
          match grow_large core l with
          | None => None
          | Some core' => grow_at k' (S i) frames core'
          end
      end
  end.

(** mod.rs:446-454, :464-472. *)
Fixpoint grow_bases (ps : list N) (c : cache) : option cache :=
  match ps with
  | [] => Some c
  | p :: ps' => match grow_base c p with None => None | Some c' => grow_bases ps' c' end
  end.

(** Where a core takes its memory from: its node or the shared memory of a machine. *)
Inductive affinity := Node | Shared (mid : N).

(** The core's cache for the shared memory that is refilled, the cache of the
    machine for it, and where the core takes memory from. *)
Record state := mkState { core : cache; sh : cache; aff : affinity }.

Inductive result := ROk | RErr | RPanic.

(** What a machine ([mid]) gives for a request of [n] large pages; [None]: the
    request is refused. *)
Definition source := N → nat → option (list N).

(** affinity_alloc.rs:51-107 on the controller, get_shmem_frames.rs:42-110 on a
    client, which asks for memory of its own machine.  The answer: the machine
    the frames are of and the frames; [None]: panic. *)
Definition ask (src : source) (controller : bool) (me mid : N) (n : nat) : option (option (N * list N)) :=
  if controller then
    if (mid =? 0)%N then None
    else Some (match src mid n with Some l => Some (mid, l) | None => None end)
  else
    if n =? 0 then None
    else Some (match src me n with Some l => Some (me, l) | None => None end).

(** mod.rs:441-480: the rest of the last frame. *)
Definition add_bases (st : state) (l : N) : result * state :=
  let pages := split l in
  let k := Nat.min (length pages) (spare_base (core st)) in
  match grow_bases (firstn k pages) (core st) with
  | None => (RPanic, st)
  | Some core' =>
      let rest := skipn k pages in
      let m := Nat.min (length rest) (spare_base (sh st)) in
      match grow_bases (firstn m rest) (sh st) with
      | None => (RPanic, st)
      | Some sh' => (ROk, mkState core' sh' (aff st))
      end
  end.

(** mod.rs:403-482: ask for [nl'] large pages; [nl] of them are for the core and,
    when base pages are still needed ([nb'] > 0), the last one is split. *)
Definition from_source (src : source) (controller : bool) (me mid : N)
    (st : state) (nb' nl nl' : nat) : result * state :=
  let st1 := mkState (core st) (sh st) Node in
  match ask src controller me mid nl' with
  | None => (RPanic, st1)
  | Some None => (RErr, st1)
  | Some (Some (from, frames)) =>
      let st2 := mkState (core st) (sh st) (Shared mid) in
      if (0 <? nl) && negb (from =? mid)%N then (RPanic, st2)
      else
        match grow_at nl 0 frames (core st) with
        | None => (RPanic, st2)
        | Some core' =>
            let st3 := mkState core' (sh st) (Shared mid) in
            if 0 <? nb' then
              match nth_error frames (nl' - 1) with
              | None => (RPanic, st3)
              | Some l => add_bases st3 l
              end
            else (ROk, st3)
        end
  end.

(** mod.rs:333-482: [controller], [me]: the machine that runs this; [mid]: the
    machine whose shared memory is refilled; [nb] base and [nl] large pages are
    needed. *)
Definition refill (src : source) (controller : bool) (me mid : N)
    (st : state) (nb nl : nat) : result * state :=
  let local := controller && (mid =? me)%N in
  if (0 <? nb) || local then
    let k := Nat.min (length (base (sh st))) nb in
    match move_base k (core st) (sh st) with
    | None => (RPanic, st)
    | Some (core1, sh1) =>
        let nb' := nb - k in
        let nl' := if 0 <? nb' then S nl else nl in
        if local then
          match move_large nl' core1 sh1 with
          | None => (RPanic, mkState core1 sh1 (aff st))
          | Some (core2, sh2) =>
              let st2 := mkState core2 sh2 (aff st) in
              if nb' =? 0 then (ROk, st2)
              else from_source src controller me mid st2 nb' nl 0
          end
        else
          let st1 := mkState core1 sh1 (aff st) in
          if (nb' =? 0) && (nl' =? 0) then (ROk, st1)
          else from_source src controller me mid st1 nb' nl nl'
    end
  else from_source src controller me mid st 0 nl nl.
