(** What the C memory functions are for: blocks that belong to one user each and keep what
    was stored in them. *)
From Verif Require Import Base PgModel PgSpec HeapModel UmModel.
Open Scope N_scope.

(** A block a program holds: its address and the size asked for. *)
Record ublk := mkUb { ub_ptr : N; ub_size : N }.

(** What a program does: the memory functions, by the position of a block among those it
    holds, and storing a byte in a block.  The core it happens on, the kernel's answers and
    the slab allocator's choices are part of the operation. *)
Inductive uop :=
| UMalloc (c : nat) (size : N) (kss : nat -> nat -> bool) (c1 c2 : choice)
| UCalloc (c : nat) (nmem size : N) (kss : nat -> nat -> bool) (c1 c2 : choice)
| UMemalign (c : nat) (align size : N) (kss : nat -> nat -> bool) (c1 c2 : choice)
| URealloc (c i : nat) (size : N) (kss : nat -> nat -> bool) (c1 c2 : choice)
| UReallocNull (c : nat) (size : N) (kss : nat -> nat -> bool) (c1 c2 : choice)
| UFree (i : nat)
| UFreeNull
| UStore (i : nat) (off v : N).

(** A new block, if the function returned one. *)
Definition take_block (live : list ublk) (size : N) (r : res (option N) * uh) : option (uh * list ublk) :=
  match r with
  | (Ok (Some p), s) => Some (s, live ++ [mkUb p size])
  | (Ok None, s) => Some (s, live)
  | _ => None
  end.
(** One operation; [None] if the process dies, or the operation names a block (or a byte)
    that is not there. *)
Definition ustep (chk : bool) (mb : N) (st : uh * list ublk) (op : uop) : option (uh * list ublk) :=
  let '(s, live) := st in
  match op with
  | UMalloc c size kss c1 c2 => take_block live size (c_malloc chk mb c size kss c1 c2 s)
  | UCalloc c nmem size kss c1 c2 => take_block live (nmem * size) (c_calloc chk mb c nmem size kss c1 c2 s)
  | UMemalign c align size kss c1 c2 => take_block live size (c_memalign chk mb c align size kss c1 c2 s)
  | UReallocNull c size kss c1 c2 => take_block live size (c_realloc chk mb c None size kss c1 c2 s)
  | URealloc c i size kss c1 c2 =>
    match live !! i with
    | Some b => match c_realloc chk mb c (Some (ub_ptr b)) size kss c1 c2 s with
                | (Ok (Some p), s') => Some (s', <[i := mkUb p size]> live)
                | (Ok None, s') => Some (s', live)
                | _ => None
                end
    | None => None
    end
  | UFree i =>
    match live !! i with
    | Some b => match c_free mb (Some (ub_ptr b)) s with
                | (Ok _, s') => Some (s', delete i live)
                | _ => None
                end
    | None => None
    end
  | UFreeNull => match c_free mb None s with (Ok _, s') => Some (s', live) | _ => None end
  | UStore i off v =>
    match live !! i with
    | Some b => if decide (off < ub_size b)
                then Some (mkUh (u_pg s) (u_zone s) (fun x => if decide (x = ub_ptr b + off) then v else u_mem s x), live)
                else None
    | None => None
    end
  end.
Fixpoint urun (chk : bool) (mb : N) (st : uh * list ublk) (ops : list uop) : option (uh * list ublk) :=
  match ops with
  | [] => Some st
  | op :: r => match ustep chk mb st op with Some st' => urun chk mb st' r | None => None end
  end.
(** A condition on every operation of a history, in the state it is applied to. *)
Fixpoint ualong (G : uh * list ublk -> uop -> Prop) (chk : bool) (mb : N) (st : uh * list ublk) (ops : list uop) : Prop :=
  match ops with
  | [] => True
  | op :: r => G st op /\ match ustep chk mb st op with Some st' => ualong G chk mb st' r | None => True end
  end.

(** ** What the blocks should contain.  A block is the list of its bytes, [None] where the
    program cannot know.  Pointers do not appear; [null] tells whether the function returned
    NULL. *)
Notation contents := (list (list (option N))).
Definition unknown (n : N) : list (option N) := replicate (N.to_nat n) None.
Definition resized (n : N) (b : list (option N)) : list (option N) :=
  take (N.to_nat n) b ++ replicate (N.to_nat n - length b) None.
Definition cstep (null : bool) (cs : contents) (op : uop) : contents :=
  match op with
  | UMalloc _ size _ _ _ | UMemalign _ _ size _ _ _ | UReallocNull _ size _ _ _ => if null then cs else cs ++ [unknown size]
  | UCalloc _ nmem size _ _ _ => if null then cs else cs ++ [replicate (N.to_nat (nmem * size)) (Some 0)]
  | URealloc _ i size _ _ _ => alter (resized size) i cs
  | UFree i => delete i cs
  | UFreeNull => cs
  | UStore i off v => alter (fun b => <[N.to_nat off := Some v]> b) i cs
  end.
(** The blocks' expected contents after a history. *)
Fixpoint crun (chk : bool) (mb : N) (st : uh * list ublk) (cs : contents) (ops : list uop) : contents :=
  match ops with
  | [] => cs
  | op :: r => match ustep chk mb st op with
               | Some st' => crun chk mb st' (cstep (bool_decide (length st'.2 = length st.2)) cs op) r
               | None => cs
               end
  end.
(** Memory agrees with the expected contents of a block. *)
Definition holds (m : N -> N) (b : ublk) (c : list (option N)) : Prop :=
  length c = N.to_nat (ub_size b) /\
  forall off v, c !! N.to_nat off = Some (Some v) -> m (ub_ptr b + off) = v.

(** Addresses of a block. *)
Definition in_blk (b : ublk) (a : N) : Prop := ub_ptr b <= a < ub_ptr b + ub_size b.
(** The memory the kernel has mapped for the heap. *)
Definition mapped (s : uh) : N -> Prop := covered (pg_log (u_pg s)).*2.

(** ** The histories the theorems are about *)

(** An allocation of [size] bytes on core [c]: the size (with the 16 bytes of the header) is
    a [usize]; above 2 MiB, the core's own region has room for it and the kernel maps it. *)
Definition size_ok (s : uh) (c : nat) (kss : nat -> nat -> bool) (size : N) : Prop :=
  size + 16 < 2 ^ 64 /\
  (2097152 < size + 16 -> (c < 96)%nat /\ (forall k, kss k c = true) /\
     pg_sbrk (u_pg s) c + size + 16 + 2 * 2097152 <= pg_limit c).
(** A block is not resized in place to another size class. *)
Definition class_kept (live : list ublk) (i : nat) (size : N) : Prop :=
  forall b, live !! i = Some b -> ub_size b + 16 <= MAX_ZONE -> size + 16 <= class_of (ub_size b + 16) ->
    class_of (size + 16) = class_of (ub_size b + 16).
Definition uop_ok (st : uh * list ublk) (op : uop) : Prop :=
  match op with
  | UMalloc c size kss _ _ | UReallocNull c size kss _ _ => size_ok st.1 c kss size
  | UCalloc c nmem size kss _ _ => size_ok st.1 c kss (nmem * size)
  | UMemalign c align size kss _ _ => size_ok st.1 c kss size /\ exists k, k <= 12 /\ align = 2 ^ k
  | URealloc c i size kss _ _ => size_ok st.1 c kss size /\ class_kept st.2 i size
  | _ => True
  end.
(** slabmalloc's limit for base pages: a size class that fits a base page. *)
Definition mb_fits (mb : N) : Prop := exists k, 3 <= k <= 11 /\ mb = 2 ^ k.
