(** Model of kernel/src/memory/detmem.rs: the deterministic allocator shared by all
    replicas.  Each replica runs one allocation at a time (the replica's combiner),
    as a sequence of atomic steps; queues (mpmc.rs) are atomic FIFO queues here. *)
From stdpp Require Export functions.
From Verif Require Export Base.

(** [core::alloc::Layout]: size and alignment. *)
Definition layout := (N * N)%type.
(** detmem.rs:41 queue entries: layout and address, 0 for a failed allocation. *)
Definition entry := (layout * N)%type.

(** Where a replica is inside detmem.rs:79-141 [alloc]. *)
Inductive pc :=
| PIdle                                        (* before line 83 *)
| PLock (l : layout)                           (* line 95, waiting for [fill] *)
| PPop (l : layout)                            (* line 97, lock held *)
| PFill (l : layout) (ps : list N)             (* lines 106-110 *)
| PPush (l : layout) (ps : list N) (ok : bool) (k : nat).   (* lines 113-138 *)

(** detmem.rs:32-44 [DeterministicAlloc] plus the replicas using it and the backing
    allocator's live blocks ([d_live]: node and layout of every live block).
    [d_done] is what each replica's calls returned so far, [d_held] the blocks
    returned to replicas and not freed by them yet, [d_crash] a kernel panic. *)
Record dstate := mkD {
  d_qs : nat -> list entry; d_lock : option nat; d_pc : nat -> pc;
  d_done : nat -> list entry; d_live : gmap N (nat * layout);
  d_held : list (nat * layout * N); d_crash : bool }.

Definition d_init : dstate :=
  mkD (fun _ => []) None (fun _ => PIdle) (fun _ => []) ∅ [] false.

(** Return of [alloc] on replica [i] with the address [p]. *)
Definition d_return (s : dstate) (i : nat) (l : layout) (p : N) (lock : option nat)
    (qs : nat -> list entry) : dstate :=
  mkD qs lock (<[i := PIdle]> (d_pc s)) (<[i := d_done s i ++ [(l, p)]]> (d_done s)) (d_live s)
      (if decide (p = 0%N) then d_held s else (i, l, p) :: d_held s) (d_crash s).
Definition d_goto (s : dstate) (i : nat) (q : pc) (lock : option nat) (qs : nat -> list entry)
    (live : gmap N (nat * layout)) : dstate :=
  mkD qs lock (<[i := q]> (d_pc s)) (d_done s) live (d_held s) (d_crash s).
Definition d_panic (s : dstate) : dstate :=
  mkD (d_qs s) (d_lock s) (d_pc s) (d_done s) (d_live s) (d_held s) true.

(** One step of replica [i] of [n]; its calls have the layouts [reqs 0, reqs 1, ...].
    [p] is what the backing allocator returns if this step calls it: 0 on failure,
    else a block that is not live.  [cap] is the queue capacity (detmem.rs:63, rounded
    up to a power of two by the queue).  [None]: the step is not possible. *)
Definition d_step (n cap : nat) (reqs : nat -> layout) (s : dstate) (i : nat) (p : N)
    : option dstate :=
  if d_crash s then None else
  match d_pc s i with
  | PIdle =>
    (* detmem.rs:83-90 *)
    let l := reqs (length (d_done s i)) in
    match d_qs s i with
    | (rl, q) :: rest =>
      if decide (rl = l) then Some (d_return s i l q (d_lock s) (<[i := rest]> (d_qs s)))
      else Some (d_panic s)
    | [] => Some (d_goto s i (PLock l) (d_lock s) (d_qs s) (d_live s))
    end
  | PLock l =>
    (* detmem.rs:94 *)
    match d_lock s with
    | None => Some (d_goto s i (PPop l) (Some i) (d_qs s) (d_live s))
    | Some _ => None
    end
  | PPop l =>
    (* detmem.rs:96-100 *)
    match d_qs s i with
    | (rl, q) :: rest =>
      if decide (rl = l) then Some (d_return s i l q None (<[i := rest]> (d_qs s)))
      else Some (d_panic s)
    | [] => Some (d_goto s i (PFill l []) (d_lock s) (d_qs s) (d_live s))
    end
  | PFill l ps =>
    (* detmem.rs:105-113 *)
    if decide (length ps < n) then
      if decide (p = 0%N) then
        Some (d_goto s i (PFill l (ps ++ [0%N])) (d_lock s) (d_qs s) (d_live s))
      else match d_live s !! p with
           | Some _ => None
           | None => Some (d_goto s i (PFill l (ps ++ [p])) (d_lock s) (d_qs s)
                                  (<[p := (length ps, l)]> (d_live s)))
           end
    else Some (d_goto s i (PPush l ps (forallb (fun q => negb (q =? 0)%N) ps) 0)
                      (d_lock s) (d_qs s) (d_live s))
  | PPush l ps ok k =>
    if decide (k < n) then
      if ok then
        (* detmem.rs:117-123 *)
        if decide (k = i) then Some (d_goto s i (PPush l ps ok (S k)) (d_lock s) (d_qs s) (d_live s))
        else if decide (length (d_qs s k) < cap) then
          Some (d_goto s i (PPush l ps ok (S k)) (d_lock s)
                  (<[k := d_qs s k ++ [(l, nth k ps 0%N)]]> (d_qs s)) (d_live s))
        else Some (d_panic s)
      else
        (* detmem.rs:126-134; freeing and pushing are one step here *)
        if decide (length (d_qs s k) < cap) then
          Some (d_goto s i (PPush l ps ok (S k)) (d_lock s)
                  (<[k := d_qs s k ++ [(l, 0%N)]]> (d_qs s))
                  (delete (nth k ps 0%N) (d_live s)))
        else Some (d_panic s)
    else
      (* detmem.rs:139 *)
      Some (d_return s i l (nth i ps 0%N) None (d_qs s))
  end.

(** detmem.rs:143-146 [dealloc] by a replica. *)
Definition d_free (s : dstate) (i : nat) (l : layout) (p : N) : option dstate :=
  if d_crash s then None else
  match list_find (fun h => h = (i, l, p)) (d_held s) with
  | Some (k, _) => Some (mkD (d_qs s) (d_lock s) (d_pc s) (d_done s)
                         (delete p (d_live s)) (delete k (d_held s)) false)
  | None => None
  end.

Inductive dlabel := DRun (i : nat) (p : N) | DFree (i : nat) (l : layout) (p : N).
Definition d_label (n cap : nat) (reqs : nat -> layout) (s : dstate) (a : dlabel) : option dstate :=
  match a with
  | DRun i p => if decide (i < n) then d_step n cap reqs s i p else None
  | DFree i l p => d_free s i l p
  end.
Fixpoint d_run (n cap : nat) (reqs : nat -> layout) (s : dstate) (tr : list dlabel) : option dstate :=
  match tr with
  | [] => Some s
  | a :: tr' => match d_label n cap reqs s a with
                | Some s' => d_run n cap reqs s' tr'
                | None => None
                end
  end.
