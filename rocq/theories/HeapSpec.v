(** Specification vocabulary for the kernel heap. *)
From Verif Require Import Base MemModel MemSpec HeapModel.
Open Scope N_scope.

(** A block a user of the heap holds, and the node that was selected on the core
    when it was allocated. *)
Record blk := mkBlk { b_ptr : N; b_size : N; b_align : N; b_node : N }.

(** The node selected on a core. *)
Definition node_of (h : heap) (c : nat) : N :=
  match hp_cores h !! c with Some co => ar_aff (co_cur co) | None => 0 end.

(** What users do: allocate, free or resize one of the blocks they hold (by its
    position), or select a node to allocate from.  The core on which it happens and
    the choices of the slab allocator are part of the operation. *)
Inductive hop :=
| HAlloc (c : nat) (size align : N) (nt : list nat) (ch : list choice)
| HFree (c i : nat)
| HRealloc (c i : nat) (new_size : N) (nt : list nat) (ch : list choice)
| HAffinity (c : nat) (node : N).

(** One operation on the heap and the blocks in use; [None] if the kernel panics or
    the operation names a block or core that is not there. *)
Definition hstep (st : heap * list blk) (op : hop) : option (heap * list blk) :=
  let '(h, live) := st in
  match op with
  | HAlloc c size align nt ch =>
    match k_alloc h c size align nt ch with
    | (Ok (Some p), h') => Some (h', live ++ [mkBlk p size align (node_of h c)])
    | (Ok None, h') => Some (h', live)
    | _ => None
    end
  | HFree c i =>
    match live !! i with
    | Some b => match k_dealloc h c (b_ptr b) (b_size b) (b_align b) with
                | (Ok _, h') => Some (h', delete i live)
                | _ => None
                end
    | None => None
    end
  | HRealloc c i n nt ch =>
    match live !! i with
    | Some b => match k_realloc h c (b_ptr b) (b_size b) (b_align b) n nt ch with
                | (Ok (Some p), h') => Some (h', <[i := mkBlk p n (b_align b) (if decide (p = b_ptr b) then b_node b else node_of h c)]> live)
                | (Ok None, h') => Some (h', live)
                | _ => None
                end
    | None => None
    end
  | HAffinity c node => match k_affinity h c node with
                        | (Ok _, h') => Some (h', live)
                        | _ => None
                        end
  end.
Fixpoint hrun (st : heap * list blk) (ops : list hop) : option (heap * list blk) :=
  match ops with
  | [] => Some st
  | op :: r => match hstep st op with Some st' => hrun st' r | None => None end
  end.
(** A condition on every operation of a history, in the state it is applied to. *)
Fixpoint along (G : heap * list blk -> hop -> Prop) (st : heap * list blk) (ops : list hop) : Prop :=
  match ops with
  | [] => True
  | op :: r => G st op /\ match hstep st op with Some st' => along G st' r | None => True end
  end.

(** Physical address behind a kernel virtual address: the direct map below the area
    for big objects, and the pages mapped there. *)
Definition translate (h : heap) (va : N) : option N :=
  if decide (va < BIGBASE) then Some (va - KBASE)
  else match list_find (fun e : N * frame => e.1 <= va < e.1 + f_size e.2) (hp_big h) with
       | Some (_, (v, f)) => Some (f_base f + (va - v))
       | None => None
       end.

(** Free memory: in the cores' caches, of all affinities, and in the node caches. *)
Definition arena_frames (o : option arena) : list frame :=
  match o with Some a => frames (ar_pm a) | None => [] end.
Definition core_frames (c : core) : list frame :=
  frames (ar_pm (co_cur c)) ++ concat (map arena_frames (co_arenas c)).
Definition all_free (h : heap) : list frame :=
  concat (map core_frames (hp_cores h)) ++ concat (map frames (hp_nc h)).

(** A cache whose pages are aligned. *)
Definition cache_ok (c : mcache) : Prop :=
  Forall (fun a => a mod 4096 = 0) (mc_base c) /\ Forall (fun a => a mod 2097152 = 0) (mc_large c).

(** The heap when the cores start to use it: nothing allocated, all caches filled with
    disjoint pages below 2 TiB and labelled with their node; each node has
    a cache.  [hp_mb] is a
    size class that fits a base page. *)
Record heap_init (h : heap) : Prop := {
  hi_mb : exists k, 3 <= k <= 11 /\ hp_mb h = 2 ^ k;
  hi_zone : hp_zone h = [];
  hi_big : hp_big h = [];
  hi_sbrk : hp_sbrk h = BIGBASE;
  hi_disjoint : pairwise_disjoint (all_free h);
  hi_low : forall f, f ∈ all_free h -> f_base f + f_size f <= 2199023255552;
  hi_nc : forall i c, hp_nc h !! i = Some c -> cache_ok c /\ mc_node c = N.of_nat i;
  hi_core : forall i c, hp_cores h !! i = Some c ->
    cache_ok (ar_pm (co_cur c)) /\ mc_node (ar_pm (co_cur c)) = ar_aff (co_cur c) /\
    (length (mc_base (ar_pm (co_cur c))) <= 381)%nat /\ (length (mc_large (ar_pm (co_cur c))) <= 128)%nat /\
    (forall j a, co_arenas c !! j <> Some (Some a)) /\
    ar_aff (co_cur c) < N.max 1 (hp_nodes h) /\ ar_aff (co_cur c) < N.of_nat (length (co_arenas c));
  hi_nodes : N.max 1 (hp_nodes h) <= N.of_nat (length (hp_nc h)) }.

(** The requests users make: alignments divide 2 MiB. *)
Definition layout_ok (op : hop) : Prop :=
  match op with
  | HAlloc _ size align _ _ => 0 < size /\ 0 < align /\ 2097152 mod align = 0
  | HRealloc _ _ n _ _ => 0 < n
  | _ => True
  end.
(** The operation is not an in-place resize of a small block to another size class. *)
Definition keeps_class (live : list blk) (op : hop) : Prop :=
  match op with
  | HRealloc _ i n _ _ => forall b, live !! i = Some b ->
      b_size b <= MAX_ZONE -> b_size b <> 4096 -> n <= class_of (b_size b) -> class_of n = class_of (b_size b)
  | _ => True
  end.
(** A large block is freed, or moved by a resize, on a core that has the node selected
    the block was allocated from. *)
Definition frees_home (st : heap * list blk) (op : hop) : Prop :=
  match op with
  | HFree c i | HRealloc c i _ _ _ => forall b, st.2 !! i = Some b ->
      131072 < b_size b <= 2097152 -> node_of st.1 c = b_node b
  | _ => True
  end.
