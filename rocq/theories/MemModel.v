(** Model of physical frames and the page caches: kernel/src/memory/frame.rs,
    utils.rs, emem.rs, mcache.rs.  Addresses and sizes are [N]; physical addresses
    are below 2^52 on x86-64, so 64-bit overflow of [base + size] and of rounding
    up to 2 MiB does not occur and is not modelled. *)
From Verif Require Import Base.
Open Scope N_scope.

(** kernel/src/arch/x86_64/memory.rs (x86 crate): page sizes. *)
Definition BASE_PAGE : N := 4096.
Definition LARGE_PAGE : N := 2097152.

(** kernel/src/prelude.rs:15-19 [round_up!]. *)
Definition round_up (num multiple : N) : N := ((num + multiple - 1) / multiple) * multiple.

(** frame.rs:23-28 [Frame]. *)
Record frame := mkFrame { f_base : N; f_size : N; f_aff : N }.
Global Instance frame_eq_dec : EqDecision frame.
Proof. solve_decision. Defined.

(** frame.rs:57-63 [Frame::empty]. *)
Definition frame_empty : frame := mkFrame 0 0 0.

(** frame.rs:45-54 [Frame::new]: panics on misaligned arguments. *)
Definition frame_new (base size aff : N) : res frame :=
  if decide (base mod BASE_PAGE = 0 /\ size mod BASE_PAGE = 0)
  then Ok (mkFrame base size aff) else Panic.

(** frame.rs:32-42 [Frame::from_range]. *)
Definition frame_from_range (lo hi node : N) : res frame :=
  if decide (lo mod BASE_PAGE = 0 /\ hi mod BASE_PAGE = 0 /\ lo < hi)
  then Ok (mkFrame lo (hi - lo) node) else Panic.

(** frame.rs:105-116 [split_at]. *)
Definition split_at (f : frame) (size : N) : res (frame * frame) :=
  if decide (size mod BASE_PAGE = 0) then
    if decide (f_size f <= size) then Ok (f, frame_empty)
    else match frame_new (f_base f) size (f_aff f),
               frame_new (f_base f + size) (f_size f - size) (f_aff f) with
         | Ok low, Ok high => Ok (low, high)
         | _, _ => Panic
         end
  else Panic.

(** frame.rs:86-95 [split_at_nearest_large_page_boundary]. *)
Definition split_at_large (f : frame) : res (frame * frame) :=
  if decide (f_base f mod LARGE_PAGE = 0) then Ok (frame_empty, f)
  else split_at f (round_up (f_base f) LARGE_PAGE - f_base f).

(** frame.rs:156-158 [base_pages]. *)
Definition base_pages (f : frame) : N := f_size f / BASE_PAGE.

(** frame.rs:194-216 [IntoBasePageIter::next]: item and remaining iterator. *)
Definition frame_next (f : frame) : res (option (frame * frame)) :=
  match f_size f ?= BASE_PAGE with
  | Gt => match split_at f BASE_PAGE with
          | Ok (low, high) => Ok (Some (low, high))
          | Err e => Err e | Panic => Panic
          end
  | Eq => Ok (Some (f, frame_empty))
  | Lt => Ok None
  end.

(** All items of the iterator (frame.rs:219-226 [into_iter] run to the end). *)
Fixpoint iter_pages (fuel : nat) (f : frame) : res (list frame) :=
  match fuel with
  | O => Ok []
  | S fuel' =>
    match frame_next f with
    | Ok None => Ok []
    | Ok (Some (p, rest)) =>
      match iter_pages fuel' rest with
      | Ok l => Ok (p :: l)
      | Err e => Err e | Panic => Panic
      end
    | Err e => Err e | Panic => Panic
    end
  end.
Definition pages_of (f : frame) : res (list frame) :=
  iter_pages (S (N.to_nat (base_pages f))) f.

(** utils.rs:15-28 [size_to_pages]. *)
Definition size_to_pages (size : N) : N * N :=
  let bytes_not_in_large := size mod LARGE_PAGE in
  let div := bytes_not_in_large / BASE_PAGE in
  let rem := bytes_not_in_large mod BASE_PAGE in
  let base_pages := if decide (0 < rem) then div + 1 else div in
  let remaining_size := size - bytes_not_in_large in
  let div := remaining_size / LARGE_PAGE in
  let rem := remaining_size mod LARGE_PAGE in
  let large_pages := if decide (0 < rem) then div + 1 else div in
  (base_pages, large_pages).

(** ** emem.rs *)
(** emem.rs:30-33 [EmergencyAllocator] ([index] is never read). *)
Definition emem := frame.
(** emem.rs:43-48 [empty]. *)
Definition emem_empty : emem := frame_empty.
(** emem.rs:50-67 [allocate_layout] (zeroing of the block not modelled). *)
Definition emem_alloc (r : emem) (size align : N) : res frame * emem :=
  if decide (align <= BASE_PAGE) then
    let size := round_up size BASE_PAGE in
    if decide (size <= f_size r) then
      match split_at r size with
      | Ok (low, high) => (Ok low, high)
      | Err e => (Err e, r)
      | Panic => (Panic, r)
      end
    else (Err CacheExhausted, r)
  else (Panic, r).
(** emem.rs:128-133 [allocate_base_page]. *)
Definition emem_alloc_base_page (r : emem) : res frame * emem := emem_alloc r BASE_PAGE BASE_PAGE.
(** emem.rs:95-108 [refill], emem.rs:110-123 [refill_large] at physical address
    [pa]. *)
Definition emem_refill (r : emem) (pa : N) : res unit * emem :=
  match frame_new pa BASE_PAGE 0 with Ok f => (Ok tt, f) | _ => (Panic, r) end.
Definition emem_refill_large (r : emem) (pa : N) : res unit * emem :=
  match frame_new pa LARGE_PAGE 0 with Ok f => (Ok tt, f) | _ => (Panic, r) end.

(** ** mcache.rs *)
(** mcache.rs:53-60 [MCache<BP, LP>]; the stacks are lists with the top first
    ([ArrayVec] pushes and pops at the end). *)
Record mcache := mkMc { mc_node : N; mc_base : list N; mc_large : list N }.

(** mcache.rs:65-71 [new]. *)
Definition mc_new (node : N) : mcache := mkMc node [] [].

(** [ArrayVec::try_push] for capacity [cap]. *)
Definition try_push (cap : nat) (l : list N) (x : N) : option (list N) :=
  if decide (length l < cap)%nat then Some (x :: l) else None.

(** mcache.rs:120-125 and 144-152: push the pages of [f] until the stack is full;
    the flag says whether the loop stopped at a failed push. *)
Fixpoint push_pages (fuel : nat) (BP : nat) (f : frame) (st : list N) : res (list N * bool) :=
  match fuel with
  | O => Ok (st, false)
  | S fuel' =>
    match frame_next f with
    | Ok None => Ok (st, false)
    | Ok (Some (p, rest)) =>
      match try_push BP st (f_base p) with
      | Some st' => push_pages fuel' BP rest st'
      | None => Ok (st, true)
      end
    | Err e => Err e | Panic => Panic
    end
  end.

(** mcache.rs:127-140: carve off up to [k] large pages. Returns remaining frame,
    stack and number of large pages that did not fit. *)
Fixpoint push_large (k : nat) (LP : nat) (f : frame) (st : list N) (lost : N)
    : res (frame * list N * N) :=
  match k with
  | O => Ok (f, st, lost)
  | S k' =>
    if decide (LARGE_PAGE <= f_size f) then
      match split_at f LARGE_PAGE with
      | Ok (lp, rest) =>
        match try_push LP st (f_base lp) with
        | Some st' => push_large k' LP rest st' lost
        | None => push_large k' LP rest st (lost + 1)
        end
      | Err e => Err e | Panic => Panic
      end
    else Ok (f, st, lost)
  end.

(** mcache.rs:109-169 [populate]; returns the number of bytes reported as lost by
    the warning (mcache.rs:154-161). *)
Definition populate (BP LP : nat) (c : mcache) (f : frame) (how_many : N) : res N * mcache :=
  let how_many := if decide (how_many = 0) then 1 else how_many in
  match split_at_large f with
  | Ok (low, high) =>
    match push_pages (S (N.to_nat (base_pages low))) BP low (mc_base c) with
    | Ok (b1, _) =>
      match push_large (N.to_nat how_many) LP high (mc_large c) 0 with
      | Ok (rest, l1, lost_large) =>
        match push_pages (S (N.to_nat (base_pages rest))) BP rest b1 with
        | Ok (b2, lostb) =>
          (Ok ((if lostb then 1 else 0) * BASE_PAGE + lost_large * LARGE_PAGE),
           mkMc (mc_node c) b2 l1)
        | _ => (Panic, c)
        end
      | _ => (Panic, c)
      end
    | _ => (Panic, c)
    end
  | _ => (Panic, c)
  end.

(** mcache.rs:86-98 [populate_4k_first] ([dbg]: debug assertions enabled). *)
Definition populate_4k_first (dbg : bool) (BP LP : nat) (c : mcache) (f : frame) : res N * mcache :=
  if decide (N.of_nat BP < base_pages f) then
    let bytes_left := (base_pages f - N.of_nat BP) * BASE_PAGE in
    populate BP LP c f (bytes_left / LARGE_PAGE)
  else
    if dbg && negb (bool_decide (N.of_nat BP * BASE_PAGE <= LARGE_PAGE)) then (Panic, c)
    else populate BP LP c f 1.

(** mcache.rs:104-107 [populate_2m_first]. *)
Definition populate_2m_first (BP LP : nat) (c : mcache) (f : frame) : res N * mcache :=
  populate BP LP c f (f_size f / LARGE_PAGE * 87 / 100).

(** mcache.rs:255-261 [allocate_base_page]. *)
Definition mc_alloc_base (c : mcache) : res frame * mcache :=
  match mc_base c with
  | [] => (Err CacheExhausted, c)
  | pa :: l => (frame_new pa BASE_PAGE (mc_node c), mkMc (mc_node c) l (mc_large c))
  end.
(** mcache.rs:273-279 [allocate_large_page]. *)
Definition mc_alloc_large (c : mcache) : res frame * mcache :=
  match mc_large c with
  | [] => (Err CacheExhausted, c)
  | pa :: l => (frame_new pa LARGE_PAGE (mc_node c), mkMc (mc_node c) (mc_base c) l)
  end.
(** mcache.rs:263-271 [release_base_page]. *)
Definition mc_release_base (BP : nat) (c : mcache) (f : frame) : res unit * mcache :=
  if decide (f_size f = BASE_PAGE /\ f_base f mod BASE_PAGE = 0 /\ f_aff f = mc_node c) then
    match try_push BP (mc_base c) (f_base f) with
    | Some l => (Ok tt, mkMc (mc_node c) l (mc_large c))
    | None => (Err CacheFull, c)
    end
  else (Panic, c).
(** mcache.rs:281-289 [release_large_page]. *)
Definition mc_release_large (LP : nat) (c : mcache) (f : frame) : res unit * mcache :=
  if decide (f_size f = LARGE_PAGE /\ f_base f mod LARGE_PAGE = 0 /\ f_aff f = mc_node c) then
    match try_push LP (mc_large c) (f_base f) with
    | Some l => (Ok tt, mkMc (mc_node c) (mc_base c) l)
    | None => (Err CacheFull, c)
    end
  else (Panic, c).
(** mcache.rs:297-318 [grow_base_pages] (not rackscale): one frame at a time. *)
Fixpoint mc_grow_base (BP : nat) (c : mcache) (fs : list frame) : res unit * mcache :=
  match fs with
  | [] => (Ok tt, c)
  | f :: fs' => match mc_release_base BP c f with
                | (Ok _, c') => mc_grow_base BP c' fs'
                | r => r
                end
  end.
(** mcache.rs:324-335 [grow_large_pages]. *)
Fixpoint mc_grow_large (LP : nat) (c : mcache) (fs : list frame) : res unit * mcache :=
  match fs with
  | [] => (Ok tt, c)
  | f :: fs' => match mc_release_large LP c f with
                | (Ok _, c') => mc_grow_large LP c' fs'
                | r => r
                end
  end.
(** mcache.rs:340-349 [reap_base_pages] into a slice of [n] slots; returns the
    frames stored. *)
Fixpoint mc_reap_base (n : nat) (c : mcache) : res (list frame) * mcache :=
  match n with
  | O => (Ok [], c)
  | S n' =>
    match mc_alloc_base c with
    | (Ok f, c1) =>
      match mc_reap_base n' c1 with
      | (Ok l, c2) => (Ok (f :: l), c2)
      | (_, c2) => (Panic, c2)
      end
    | (Err _, c1) => (Ok [], c1)
    | (Panic, c1) => (Panic, c1)
    end
  end.
(** mcache.rs:352-361 [reap_large_pages]. *)
Fixpoint mc_reap_large (n : nat) (c : mcache) : res (list frame) * mcache :=
  match n with
  | O => (Ok [], c)
  | S n' =>
    match mc_alloc_large c with
    | (Ok f, c1) =>
      match mc_reap_large n' c1 with
      | (Ok l, c2) => (Ok (f :: l), c2)
      | (_, c2) => (Panic, c2)
      end
    | (Err _, c1) => (Ok [], c1)
    | (Panic, c1) => (Panic, c1)
    end
  end.
(** mcache.rs:199-202 [free]; 244-251 statistics. *)
Definition mc_free (c : mcache) : N :=
  N.of_nat (length (mc_base c)) * BASE_PAGE + N.of_nat (length (mc_large c)) * LARGE_PAGE.

(** The operations as one type. *)
Inductive mop :=
| Populate4K (f : frame) | Populate2M (f : frame)
| GrowBase (fs : list frame) | GrowLarge (fs : list frame)
| AllocBase | AllocLarge | ReleaseBase (f : frame) | ReleaseLarge (f : frame)
| ReapBase (n : nat) | ReapLarge (n : nat).
(** Result: frames received by the caller. *)
Definition mc_step (dbg : bool) (BP LP : nat) (c : mcache) (op : mop) : res (list frame) * mcache :=
  let lift {A} (k : A -> list frame) (r : res A * mcache) :=
    (match r.1 with Ok a => Ok (k a) | Err e => Err e | Panic => Panic end, r.2) in
  match op with
  | Populate4K f => lift (fun _ => []) (populate_4k_first dbg BP LP c f)
  | Populate2M f => lift (fun _ => []) (populate_2m_first BP LP c f)
  | GrowBase fs => lift (fun _ => []) (mc_grow_base BP c fs)
  | GrowLarge fs => lift (fun _ => []) (mc_grow_large LP c fs)
  | AllocBase => lift (fun f => [f]) (mc_alloc_base c)
  | AllocLarge => lift (fun f => [f]) (mc_alloc_large c)
  | ReleaseBase f => lift (fun _ => []) (mc_release_base BP c f)
  | ReleaseLarge f => lift (fun _ => []) (mc_release_large LP c f)
  | ReapBase n => mc_reap_base n c
  | ReapLarge n => mc_reap_large n c
  end.
