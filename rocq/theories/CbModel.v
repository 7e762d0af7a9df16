(** Model of starting the other cores: kernel/src/arch/x86_64/coreboot.rs (boot_app_cores, initialize, copy_bootstrap_code,
    setup_bootstrap_code, wakeup_core), start_ap.S, the part of start_app_core (arch/x86_64/mod.rs:162-241) up to the signal that
    the core is up, and the stacks of kernel/src/stack.rs.
    The boot core and the cores it starts are a transition system: every access to the words of the boot page and to the flag
    is a step of its own, and the steps of all cores interleave in any order.
    Not modelled: the global descriptor table of start_ap.S, the features start_app_core enables, persistent memory and the
    second set of replicas (both follow the same pattern), and the trace! output. *)
From Verif Require Import Base.
Local Open Scope N_scope.

(** * Stacks (kernel/src/stack.rs) *)
(** STACK_ALIGNMENT, stack.rs:17. *)
Definition salign : N := 16.
(** [x & !(STACK_ALIGNMENT - 1)]. *)
Definition align_down (x : N) : N := x / salign * salign.
Definition align_up (x : N) : N := align_down (x + salign - 1).

(** A stack: the lowest address and the length (limit and base of the trait). *)
Record stack := Stk { s_limit : N; s_len : N }.
Definition s_base (s : stack) : N := s_limit s + s_len s.

(** OwnedStack::new, stack.rs:121-131. [a] is what alloc returned, 0 if there was no memory. *)
Definition owned_stack (a size : N) : stack := Stk a (align_down size).
(** SliceStack::new, stack.rs:85-97, on a slice at [p] of [n] bytes; [None]: panic. *)
Definition slice_stack (p n : N) : option stack :=
  let off := align_up p - p in
  if n <? off then None else Some (Stk (p + off) (align_down (n - off))).
(** StaticStack, stack.rs:49-72: 32 pages at [p]; [None]: panic. *)
Definition static_stack (p : N) : option stack :=
  let n := 32 * 4096 in
  let off := align_up p - p in
  if n <? off then None else Some (Stk (align_up p) (align_down (n - off))).

(** * The machine *)
(** A hardware thread of the topology (crate atopology): id, number of its APIC, NUMA node if known. *)
Record thr := Thr { t_id : N; t_apic : N; t_node : option N }.

(** What does not change: the threads to boot (all but the boot core's, coreboot.rs:391-393), the number of NUMA nodes
    (coreboot.rs:349), the address of the initial page table, of start_app_core, and of the flag (the same stack slot in
    every round), and how many threads a replica takes (crate node_replication). *)
Record cfg := Cfg { g_todo : list thr; g_nodes : N; g_pml4 : N; g_entry : N; g_flag : N; g_max : N }.

(** The words of the boot page that are filled in, start_ap.S:122-160. *)
Record mbox := Box { m_entry : N; m_arg : N; m_pml4 : N; m_stack : N; m_lock : N }.
(** Their contents in the kernel binary, start_ap.S. *)
Definition poison : mbox :=
  Box 0xbeefbee4beefbee3 0xbeefbeefbeefbe10 0xbeefbeefbeefbee2 0xbeefbeefbeefbee5 0xbeefbeefbeefbeef.

Record regs := Regs { r_cr3 : N; r_rsp : N; r_rdi : N; r_rsi : N; r_rip : N }.

(** A core: off; being reset (INIT); waiting for STARTUP; at step [k] of start_ap.S; in start_app_core; registered with a
    replica; up; panicked; executing in a wrong address space or at a wrong place. *)
Inductive ap :=
| AOff | AReset | AWait | AStep (k : nat) (r : regs) | ARust (r : regs) | AReg (r : regs) (rep tok : N) | AUp (r : regs) (rep tok : N)
| APanic | AWild.

(** AppCoreArgs, coreboot.rs:53-63: thread, node, replica (the number of it). *)
Record arg := Arg { a_thread : N; a_node : N; a_rep : N }.

(** The boot core: at the head of the loop; at step [k] of preparing the boot page; before INIT; before STARTUP; in the waiting
    loop before and after looking at the flag; behind the loop; panicked. *)
Inductive bpc := BNext | BPrep (k : nat) | BInit | BStart | BLook | BTime | BDone | BPanic.

(** What happened: a core called its entry function with these registers; registered; stored the flag; the boot core went on. *)
Inductive ev := EStart (c : N) (r : regs) | EReg (c rep tok : N) | EUp (c : N) | ENext (c : N).

Record st := St {
  b_pc : bpc; b_rest : list thr;
  b_cur : option (thr * N * N);       (* the thread being booted, top of its stack, its argument *)
  box : mbox; flag : bool;
  aps : N -> ap;
  heap : list (N * N);                (* blocks in use: address, length *)
  args : list (N * arg);
  toks : N -> N;                      (* threads registered with a replica *)
  log : list ev }.

Definition set_ap (f : N -> ap) (c : N) (a : ap) : N -> ap := fun x => if x =? c then a else f x.
Definition set_tok (f : N -> N) (c : N) (a : N) : N -> N := fun x => if x =? c then a else f x.

(** At the call of boot_app_cores the boot core is registered with replica 0 (mod.rs:463). [hp]: the heap at that time. *)
Definition init (g : cfg) (hp : list (N * N)) : st :=
  St BNext (g_todo g) None poison false (fun _ => AOff) hp [] (fun x => if x =? 0 then 1 else 0) [].

Definition is_free (a n : N) (h : list (N * N)) : bool :=
  forallb (fun '(b, m) => (a + n <=? b) || (b + m <=? a)) h.

Definition node_of (t : thr) : N := match t_node t with Some n => n | None => 0 end.
(** coreboot.rs:401. *)
Definition stack_size : N := 4096 * 512.

Inductive label :=
| LTake (stk : option N) (ar : N)   (* the boot core takes the next thread; addresses the allocator gives for stack and argument *)
| LNoMem                            (* allocating the page or the argument fails *)
| LBsp                              (* the boot core's next step *)
| LTimeout                          (* more than a second has passed *)
| LHw (c : N)                       (* core [c] is done with its reset *)
| LAp (c : N)                       (* core [c]'s next step *)
| LHeap (a n : N).                  (* some core allocates a block *)

Definition lookup_arg (l : list (N * arg)) (a : N) : option arg :=
  match List.find (fun p => fst p =? a) l with Some p => Some (snd p) | None => None end.

(** coreboot.rs:396-443: memory affinity (set_mem_affinity fails and the indexing of node_caches and replicas panics for a node
    that is none of the [g_nodes]), stack, flag, argument. *)
Definition take (g : cfg) (stk : option N) (ar : N) (s : st) : option st :=
  match b_pc s, b_rest s with
  | BNext, t :: rest =>
      if g_nodes g <=? node_of t then
        Some (St BPanic (b_rest s) (b_cur s) (box s) (flag s) (aps s) (heap s) (args s) (toks s) (log s))
      else
        match lookup_arg (args s) ar with
        | Some _ => None                                     (* the allocator gives an address not in use *)
        | None =>
            let args' := args s ++ [(ar, Arg (t_id t) (node_of t) (node_of t))] in
            match stk with
            | None =>
                let k := owned_stack 0 stack_size in
                Some (St (BPrep 0) rest (Some (t, s_base k, ar)) (box s) false (aps s) (heap s) args' (toks s) (log s))
            | Some a =>
                let k := owned_stack a stack_size in
                if is_free a (s_len k) (heap s) && (a mod salign =? 0) && (0 <? a) then
                  Some (St (BPrep 0) rest (Some (t, s_base k, ar)) (box s) false (aps s) ((a, s_len k) :: heap s) args' (toks s) (log s))
                else None
            end
        end
  | _, _ => None
  end.

(** The steps of the boot core: coreboot.rs:108-124 (0), 182-205 (1-5), 275-286 (BInit, BStart; the loop between them ends at once
    as its condition is false from the beginning), 454-474. *)
Definition bsp (g : cfg) (s : st) : option st :=
  let upd pc bx := Some (St pc (b_rest s) (b_cur s) bx (flag s) (aps s) (heap s) (args s) (toks s) (log s)) in
  let b := box s in
  match b_pc s, b_cur s with
  | BPrep 0, Some _ => upd (BPrep 1) poison
  | BPrep 1, Some _ => upd (BPrep 2) (Box (g_entry g) (m_arg b) (m_pml4 b) (m_stack b) (m_lock b))
  | BPrep 2, Some (_, _, ar) => upd (BPrep 3) (Box (m_entry b) ar (m_pml4 b) (m_stack b) (m_lock b))
  | BPrep 3, Some _ => upd (BPrep 4) (Box (m_entry b) (m_arg b) (g_pml4 g) (m_stack b) (m_lock b))
  | BPrep 4, Some (_, sp, _) => upd (BPrep 5) (Box (m_entry b) (m_arg b) (m_pml4 b) sp (m_lock b))
  | BPrep _, Some _ => upd BInit (Box (m_entry b) (m_arg b) (m_pml4 b) (m_stack b) (g_flag g))
  | BInit, Some (t, _, _) =>
      Some (St BStart (b_rest s) (b_cur s) b (flag s) (set_ap (aps s) (t_apic t) AReset) (heap s) (args s) (toks s) (log s))
  | BStart, Some (t, _, _) =>
      let aps' := match aps s (t_apic t) with
                  | AWait => set_ap (aps s) (t_apic t) (AStep 0 (Regs 0 0 0 0 0))
                  | _ => aps s                                (* a core that does not wait for STARTUP ignores it *)
                  end in
      Some (St BLook (b_rest s) (b_cur s) b (flag s) aps' (heap s) (args s) (toks s) (log s))
  | BLook, Some (t, _, _) =>
      if flag s then
        Some (St BNext (b_rest s) None b (flag s) (aps s) (heap s) (args s) (toks s) (log s ++ [ENext (t_apic t)]))
      else upd BTime b
  | BTime, Some _ => upd BLook b
  | BNext, None => match b_rest s with [] => upd BDone b | _ => None end
  | _, _ => None
  end.

(** The steps of a core: start_ap.S:51-54 (0; the load of cr3 has 32 bits), 56-72 (1, paging), 76-95 (2-6), and start_app_core: mod.rs:197
    (register, unwrap), 227. *)
Definition core (g : cfg) (c : N) (s : st) : option st :=
  let upd a l := Some (St (b_pc s) (b_rest s) (b_cur s) (box s) (flag s) (set_ap (aps s) c a) (heap s) (args s) (toks s) l) in
  let b := box s in
  match aps s c with
  | AStep 0 r => upd (AStep 1 (Regs (m_pml4 b mod 2 ^ 32) (r_rsp r) (r_rdi r) (r_rsi r) (r_rip r))) (log s)
  | AStep 1 r => upd (if r_cr3 r =? g_pml4 g then AStep 2 r else AWild) (log s)
  | AStep 2 r => upd (AStep 3 (Regs (r_cr3 r) (m_stack b) (r_rdi r) (r_rsi r) (r_rip r))) (log s)
  | AStep 3 r => upd (AStep 4 (Regs (r_cr3 r) (r_rsp r) (m_arg b) (r_rsi r) (r_rip r))) (log s)
  | AStep 4 r => upd (AStep 5 (Regs (r_cr3 r) (r_rsp r) (r_rdi r) (m_lock b) (r_rip r))) (log s)
  | AStep 5 r => upd (AStep 6 (Regs (r_cr3 r) (r_rsp r) (r_rdi r) (r_rsi r) (m_entry b))) (log s)
  | AStep _ r => upd (if r_rip r =? g_entry g then ARust r else AWild) (log s ++ [EStart c r])
  | ARust r =>
      match lookup_arg (args s) (r_rdi r) with
      | None => upd AWild (log s)
      | Some a =>
          if toks s (a_rep a) <? g_max g then
            let tok := toks s (a_rep a) + 1 in
            Some (St (b_pc s) (b_rest s) (b_cur s) (box s) (flag s) (set_ap (aps s) c (AReg r (a_rep a) tok)) (heap s) (args s)
                     (set_tok (toks s) (a_rep a) tok) (log s ++ [EReg c (a_rep a) tok]))
          else upd APanic (log s)
      end
  | AReg r rep tok =>
      if r_rsi r =? g_flag g then
        Some (St (b_pc s) (b_rest s) (b_cur s) (box s) true (set_ap (aps s) c (AUp r rep tok)) (heap s) (args s) (toks s)
                 (log s ++ [EUp c]))
      else upd AWild (log s)
  | _ => None
  end.

Definition step (g : cfg) (l : label) (s : st) : option st :=
  match l with
  | LTake stk ar => take g stk ar s
  | LNoMem =>
      match b_pc s, b_rest s with
      | BNext, _ :: _ => Some (St BPanic (b_rest s) (b_cur s) (box s) (flag s) (aps s) (heap s) (args s) (toks s) (log s))
      | _, _ => None
      end
  | LBsp => bsp g s
  | LTimeout =>
      match b_pc s with
      | BTime => Some (St BPanic (b_rest s) (b_cur s) (box s) (flag s) (aps s) (heap s) (args s) (toks s) (log s))
      | _ => None
      end
  | LHw c =>
      match aps s c with
      | AReset => Some (St (b_pc s) (b_rest s) (b_cur s) (box s) (flag s) (set_ap (aps s) c AWait) (heap s) (args s) (toks s) (log s))
      | _ => None
      end
  | LAp c => core g c s
  | LHeap a n =>
      if is_free a n (heap s) then
        Some (St (b_pc s) (b_rest s) (b_cur s) (box s) (flag s) (aps s) ((a, n) :: heap s) (args s) (toks s) (log s))
      else None
  end.

Fixpoint run (g : cfg) (ls : list label) (s : st) : option st :=
  match ls with
  | [] => Some s
  | l :: ls => match step g l s with Some s' => run g ls s' | None => None end
  end.
