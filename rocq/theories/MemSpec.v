(** Specification vocabulary for physical memory: which addresses a frame covers,
    and how often a list of frames covers an address. *)
From Verif Require Import Base MemModel.
Open Scope N_scope.

Definition covers (f : frame) (a : N) : Prop := f_base f <= a < f_base f + f_size f.
Global Instance covers_dec f a : Decision (covers f a).
Proof. unfold covers. apply _. Defined.

(** A frame is page aligned and a multiple of the page size (documented invariant
    of [Frame], frame.rs:15-18). *)
Definition aligned (f : frame) : Prop := f_base f mod 4096 = 0 /\ f_size f mod 4096 = 0.

Definition disjoint (f g : frame) : Prop := forall a, ~ (covers f a /\ covers g a).

(** Number of frames of [l] that contain address [a]. *)
Fixpoint cov (l : list frame) (a : N) : nat :=
  match l with
  | [] => 0
  | f :: l' => (if decide (covers f a) then 1 else 0) + cov l' a
  end.

Definition pairwise_disjoint (l : list frame) : Prop :=
  forall i j f g, i <> j -> l !! i = Some f -> l !! j = Some g -> disjoint f g.

(** ** Page caches and their callers *)
Definition bframe (n a : N) : frame := mkFrame a BASE_PAGE n.
Definition lframe (n a : N) : frame := mkFrame a LARGE_PAGE n.
(** The memory in a cache. *)
Definition frames (c : mcache) : list frame :=
  map (bframe (mc_node c)) (mc_base c) ++ map (lframe (mc_node c)) (mc_large c).

(** The frames a caller hands over with an operation. *)
Definition gives (op : mop) : list frame :=
  match op with
  | Populate4K f | Populate2M f | ReleaseBase f | ReleaseLarge f => [f]
  | GrowBase fs | GrowLarge fs => fs
  | _ => []
  end.

(** One operation by callers who together own the frames [h]: they hand over only
    frames they own and then own what they received.  A refused release leaves the
    frame with the caller; frames of a refused grow are given up. *)
Definition wstep (dbg : bool) (BP LP : nat) (w : mcache * list frame) (op : mop)
    (w' : mcache * list frame) : Prop :=
  exists rest, w.2 ≡ₚ gives op ++ rest /\
    match mc_step dbg BP LP w.1 op with
    | (Ok r, c') => w' = (c', r ++ rest)
    | (Err _, c') => w' = (c', match op with GrowBase _ | GrowLarge _ => rest | _ => w.2 end)
    | (Panic, _) => False
    end.
Inductive whist (dbg : bool) (BP LP : nat) : mcache * list frame -> mcache * list frame -> Prop :=
| wh_nil w : whist dbg BP LP w w
| wh_cons w1 op w2 w3 : wstep dbg BP LP w1 op w2 -> whist dbg BP LP w2 w3 -> whist dbg BP LP w1 w3.

(** ** The emergency allocator *)
(** A sequence of requests (size, alignment), with all outcomes. *)
Fixpoint erun (r : emem) (reqs : list (N * N)) : list (res frame) * emem :=
  match reqs with
  | [] => ([], r)
  | (size, align) :: reqs' =>
      let '(o, r1) := emem_alloc r size align in
      let '(os, r2) := erun r1 reqs' in (o :: os, r2)
  end.
Definition granted (os : list (res frame)) : list frame :=
  omap (fun o => match o with Ok f => Some f | _ => None end) os.
