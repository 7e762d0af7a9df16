(** Model of thread-local storage: of user-level threads (lib/lineup/src/tls2/mod.rs:99-143, tls2/nrk.rs, scheduler.rs:165,
    :473, :513) and of the kernel on every core (kernel/src/arch/x86_64/tls.rs).
    Memory is a function from addresses to bytes.  What the ELF loader passes on (kernel/src/arch/x86_64/process.rs:1310-1323,
    bootloader/src/kernel.rs:275-296) are the numbers of the PT_TLS header as they are.
    Simplifications: alloc_zeroed is its contract (any free block of the layout, [t_legal] of TlsSpec); the fields of the
    control block after its first word start as zero; the pages and registers of the kernel's context switch are left out
    (the saved fs, isr.S:104-110, exec.S:47-53). *)
From Verif Require Import Base InfModel.
Local Open Scope N_scope.

(** The template: its bytes, the size in memory and the alignment. *)
Record tinfo := mkTi { ti_data : list N; ti_total : N; ti_align : N }.

(** size_of of the control block: user and kernel (tls.rs:52-62).  The user one (tls2/mod.rs:66-96): three words, yielder,
    tid, core, four upcalls (upcalls.rs), two lwp pointers, errno. *)
Definition UTCB : N := 104.
Definition KTCB : N := 16.

(** The layout, as (size, alignment).  User: get_tls_info, tls2/nrk.rs:32-56, with Layout::from_size_align_unchecked. *)
Definition user_layout (i : option tinfo) : N * N :=
  match i with Some i => (ti_total i + UTCB, ti_align i) | None => (UTCB, 8) end.
(** Kernel: get_tls_region and new, tls.rs:16-37, :99-131: Layout::extend pads the data to the alignment of the control
    block, which is asserted not to happen. *)
Definition kernel_layout (i : tinfo) : res (N * N) :=
  if negb ((0 <? ti_align i) && (ti_align i =? 2 ^ N.log2 (ti_align i))) then Panic
  else if negb (ti_total i mod 8 =? 0) then Panic
  else if ti_total i =? 0 then Panic
  else Ok (ti_total i + KTCB, N.max (ti_align i) 8).

(** new_tls_area, mod.rs:120-141, and new, tls.rs:133-170, in the block at [base]: zeroed, the control block at the end of
    it with its own address in the first word, the template at the start. *)
Definition tpoke (m : N -> N) (a : N) (l : list N) : N -> N :=
  fun x => if (a <=? x) && (x <? a + N.of_nat (length l)) then nth (N.to_nat (x - a)) l 0 else m x.
Definition tzero (m : N -> N) (a n : N) : N -> N := fun x => if (a <=? x) && (x <? a + n) then 0 else m x.
Definition tls_new (size tcbsz : N) (data : list N) (m : N -> N) (base : N) : (N -> N) * N :=
  let tcb := base + (size - tcbsz) in
  (tpoke (tpoke (tzero m base size) tcb (le 8 tcb)) base data, tcb).

(** ** Threads and cores *)
(** A thread-local variable at an offset of the template, or a byte of the control block. *)
Inductive tvar := VVar (o : N) | VField (k : N).
(** Where the compiled code finds it, from fs (ELF Handling for Thread-Local Storage, variant 2, with the template's
    address aligned): the linker rounds the size of the template up to its alignment. *)
Definition round_up (n a : N) : N := (n + (a - 1)) / a * a.
Definition tv_addr (total align fs : N) (v : tvar) : N :=
  match v with VVar o => fs + o - round_up total align | VField k => fs + k end.

Record tstate := mkTs {
  ts_mem : N -> N;
  ts_tcb : list N;              (* the control block of thread i; of core i in the kernel *)
  ts_fs : nat -> N }.           (* fs of core c; 0: none *)
Definition ts_init (m : N -> N) : tstate := mkTs m [] (fun _ => 0).

Inductive top :=
| OSpawn (base : N)                    (* a thread is created, its block is the one at base *)
| ODispatch (c t : nat)                (* scheduler.rs:473 *)
| OYield (c : nat)                     (* scheduler.rs:513, threads.rs:115 *)
| OStore (c : nat) (v : tvar) (b : N)  (* the thread on core c stores a byte *)
| OLoad (c : nat) (v : tvar)
| OSelf (c : nat)                      (* Environment::thread, mod.rs:321-327: the word at fs:0 *)
| OHeap (a b : N).                     (* a store to other memory *)

Definition tmset (m : N -> N) (a v : N) : N -> N := fun x => if x =? a then v else m x.
Definition trd (m : N -> N) (a : N) (n : nat) : list N := map (fun i => m (a + N.of_nat i)) (seq 0 n).
(** One step, with the value read if any.  [size], [tcbsz], [data], [align]: of the layout. *)
Definition t_step (size tcbsz total align : N) (data : list N) (s : tstate) (o : top) : tstate * option N :=
  match o with
  | OSpawn base =>
      let '(m, tcb) := tls_new size tcbsz data (ts_mem s) base in
      (mkTs m (ts_tcb s ++ [tcb]) (ts_fs s), None)
  | ODispatch c t =>
      (mkTs (ts_mem s) (ts_tcb s) (fun d => if Nat.eqb d c then nth t (ts_tcb s) 0 else ts_fs s d), None)
  | OYield c => (mkTs (ts_mem s) (ts_tcb s) (fun d => if Nat.eqb d c then 0 else ts_fs s d), None)
  | OStore c v b => (mkTs (tmset (ts_mem s) (tv_addr total align (ts_fs s c) v) b) (ts_tcb s) (ts_fs s), None)
  | OLoad c v => (s, Some (ts_mem s (tv_addr total align (ts_fs s c) v)))
  | OSelf c => (s, Some (of_le (trd (ts_mem s) (ts_fs s c) 8)))
  | OHeap a b => (mkTs (tmset (ts_mem s) a b) (ts_tcb s) (ts_fs s), None)
  end.
Fixpoint t_run (size tcbsz total align : N) (data : list N) (s : tstate) (l : list top) : tstate * list (option N) :=
  match l with
  | [] => (s, [])
  | o :: l => let '(s, x) := t_step size tcbsz total align data s o in
              let '(s, xs) := t_run size tcbsz total align data s l in (s, x :: xs)
  end.
(** The program of a user process, with a PT_TLS header or without, and the cores of the kernel. *)
Definition user_run (i : option tinfo) : tstate -> list top -> tstate * list (option N) :=
  match i with
  | Some i => t_run (fst (user_layout (Some i))) UTCB (ti_total i) (ti_align i) (ti_data i)
  | None => t_run (fst (user_layout None)) UTCB 0 1 []
  end.
Definition kernel_run (i : tinfo) (s : tstate) (l : list top) : res (tstate * list (option N)) :=
  match kernel_layout i with
  | Ok (size, _) => Ok (t_run size KTCB (ti_total i) (ti_align i) (ti_data i) s l)
  | Err e => Err e
  | Panic => Panic
  end.
