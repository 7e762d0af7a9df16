(** Vocabulary for the properties of a process (C26, C41). *)
From Verif Require Import Base NodeModel VsModel VsSpec PrcModel.

(** A frame the allocator hands out: one page, aligned to its size. *)
Definition frame_ok (lg : bool) (f : pframe) : Prop := page_sized lg (pf_size f) /\ (pf_base f mod pf_size f = 0)%N.
Definition in_frame (f : pframe) (x : N) : Prop := within (pf_base f) (pf_size f) x.
Definition meets (f g : pframe) : Prop := exists x, in_frame f x /\ in_frame g x.

(** The frames registered, from the history. *)
Definition reg_step (m : gmap nat pframe) (o : pop * res pret) : gmap nat pframe :=
  match o with
  | (PoAddFrame f, Ok (PrFid i)) => <[i := f]> m
  | (PoRelease i, Ok _) => delete i m
  | _ => m
  end.
Definition reg (h : list (pop * res pret)) : gmap nat pframe := foldl reg_step ∅ h.

(** What is asked of an operation that follows history [h] in state [s]:
    - memory is mapped and registered in frames as the allocator hands them out, inside the 48
      bit address space;
    - a registered frame does not overlap one that is registered;
    - mappings made by frame id, and no others, are marked as aliasable;
    - executor memory is a large page, placed where nothing is mapped. *)
Definition op_ok (lg : bool) (nm : nat) (h : list (pop * res pret)) (s : prc) (op : pop) : Prop :=
  match op with
  | PoDisp f aff _ => frame_ok lg f /\ pf_size f = LARGE /\ aff < MAX_NUMA_NODES /\ (p_exoff s mod LARGE = 0)%N /\
      (p_exoff s + LARGE <= 2 ^ 48)%N /\ forall x, within (p_exoff s) LARGE x -> vs_resolve (p_vs s) x = Err NotMapped
  | PoMapFrame b f a _ => frame_ok lg f /\ ma_alias a = false /\ (b + pf_size f <= 2 ^ 48)%N
  | PoMapDevice f a => page_sized lg (pf_size f) /\ ma_alias a = false /\ (pf_base f + pf_size f <= 2 ^ 48)%N
  | PoMapId b i a _ => ma_alias a = true /\ forall f, reg h !! i = Some f -> (b + pf_size f <= 2 ^ 48)%N
  | PoUnmap va => (va < 2 ^ 48)%N
  | PoAssign g r _ => r < MAX_NUMA_NODES /\ (SysModel.mid_from_gtid g < N.of_nat nm)%N /\ (SysModel.mtid_from_gtid g < 256)%N
  | PoAddFrame f => frame_ok lg f /\ forall i g, reg h !! i = Some g -> ~ meets f g
  | PoRelease _ => True
  end.
Fixpoint hist_ok (lg dbg : bool) (nm : nat) (h : list (pop * res pret)) (s : prc) (ops : list pop) : Prop :=
  match ops with
  | [] => True
  | op :: ops => op_ok lg nm h s op /\ let p := prc_step lg dbg nm s op in hist_ok lg dbg nm (h ++ [(op, p.2)]) p.1 ops
  end.

(** The address space a process starts with: no mapping is aliasable. *)
Definition start_ok (lg dbg : bool) (vs : vspace) : Prop :=
  reach lg dbg vs /\ forall x p r, (x < 2 ^ 48)%N -> vs_resolve vs x = Ok (p, r) -> ma_alias r = false.

(** Some address of the process translates into the frame, through a mapping made by id. *)
Definition mapped_by_id (s : prc) (f : pframe) : Prop :=
  exists x p r, (x < 2 ^ 48)%N /\ vs_resolve (p_vs s) x = Ok (p, r) /\ ma_alias r = true /\ in_frame f p.

(** A map by id that takes effect: it succeeds, and nothing was mapped at its first address. *)
Definition clean_op (s : prc) (op : pop) (r : res pret) : Prop :=
  match op with
  | PoMapId b i _ _ => r = Err InvalidFrameId \/ is_ok r /\ vs_resolve (p_vs s) b = Err NotMapped
  | _ => True
  end.
Fixpoint clean (lg dbg : bool) (nm : nat) (s : prc) (ops : list pop) : Prop :=
  match ops with
  | [] => True
  | op :: ops => let p := prc_step lg dbg nm s op in clean_op s op p.2 /\ clean lg dbg nm p.1 ops
  end.

(** ** Executors *)

(** The [k]-th executor of memory [f] put at [v], numbered from [e]. *)
Definition nth_exec (e : nat) (v : N) (f : pframe) (aff k : nat) : exr :=
  let o := (N.of_nat k * EXEC_SPACE)%N in
  mkEx (e + k) aff (v + o) (v + o + INIT_STACK) (v + o + INIT_STACK + UPCALL_STACK)
    (pf_base f + o + INIT_STACK + UPCALL_STACK + KERNEL_BASE).
(** Ids used so far, end of the executor area, executors created, from the history: memory of
    size z yields z / 49 pages executors; if the kernel runs out of memory while making
    executor k of them, k are made and the area does not grow. *)
Definition ex_step (t : nat * N * list exr) (o : pop * res pret) : nat * N * list exr :=
  let '(e, v, l) := t in
  match o with
  | (PoDisp f aff _, Ok _) =>
      let n := N.to_nat (pf_size f / EXEC_SPACE) in (e + n, (v + pf_size f)%N, l ++ map (nth_exec e v f aff) (seq 0 n))
  | (PoDisp f aff (Some k), Err _) => (e + k, v, l ++ map (nth_exec e v f aff) (seq 0 k))
  | _ => t
  end.
Definition ex_hist (h : list (pop * res pret)) : nat * N * list exr := foldl ex_step (0, EXECUTOR_OFFSET, []) h.
Definition created (h : list (pop * res pret)) : list exr := (ex_hist h).2.
(** The executors given to cores. *)
Definition handed (h : list (pop * res pret)) : list exr :=
  omap (fun o => match o with (PoAssign _ _ _, Ok (PrExec x)) => Some x | _ => None end) h.
(** How many were taken for a region: given to a core, or lost because the core could not be
    recorded. *)
Definition taken (h : list (pop * res pret)) (r : nat) : nat :=
  length (List.filter (fun o => match o with
    | (PoAssign _ r' _, Ok _) => Nat.eqb r' r | (PoAssign _ r' _, Err OutOfMemory) => Nat.eqb r' r | _ => false end) h).
(** The memory of an executor. *)
Definition exec_mem (x : exr) (y : N) : Prop := within (x_stack x) EXEC_SPACE y.

(** Physical memory is used once: what is mapped otherwise does not overlap a registered frame,
    and a frame that is being registered is not mapped. *)
Definition excl_op (h : list (pop * res pret)) (s : prc) (op : pop) : Prop :=
  match op with
  | PoDisp f _ _ | PoMapFrame _ f _ _ | PoMapDevice f _ => forall i g, reg h !! i = Some g -> ~ meets f g
  | PoAddFrame f => forall x p r, (x < 2 ^ 48)%N -> vs_resolve (p_vs s) x = Ok (p, r) -> ~ in_frame f p
  | _ => True
  end.
Fixpoint excl (lg dbg : bool) (nm : nat) (h : list (pop * res pret)) (s : prc) (ops : list pop) : Prop :=
  match ops with
  | [] => True
  | op :: ops => excl_op h s op /\ let p := prc_step lg dbg nm s op in excl lg dbg nm (h ++ [(op, p.2)]) p.1 ops
  end.

(** Hardware thread [g] was given an executor. *)
Definition assigned (h : list (pop * res pret)) (g : N) : Prop :=
  exists r oom x, (PoAssign g r oom, Ok (PrExec x)) ∈ h.
