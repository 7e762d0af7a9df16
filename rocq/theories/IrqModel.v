(** Model of entering and leaving the kernel on x86-64: kernel/src/arch/x86_64/isr.S, exec.S, the resume code of
    process.rs:290-790, irq.rs (IDT and handle_generic_exception), syscall.rs:493-570, gdt.rs, and the user side of system
    calls and upcalls: lib/kpi/src/syscalls/macros.rs, lib/vibrio/src/upcalls.rs.
    The assembly is a list of instructions, one per line of the source, run by [exec].  Simplified: the stack of the kernel and
    the stack the user code [resume] pushes to are lists of words, apart from other memory; the only memory that assembly
    reaches through a register is the save area, at one address; an instruction that would reach anything else makes [exec]
    fail.  The 512 bytes of fxsave are two numbers, the x87 part and the SSE part (XMM and MXCSR). *)
From Verif Require Import Base.
Local Open Scope N_scope.

(** * Registers and state *)
Inductive reg := RAX | RBX | RCX | RDX | RSI | RDI | RBP | RSP | R8 | R9 | R10 | R11 | R12 | R13 | R14 | R15.
Record regs := mkRegs {
  g_rax : N; g_rbx : N; g_rcx : N; g_rdx : N; g_rsi : N; g_rdi : N; g_rbp : N; g_rsp : N;
  g_r8 : N; g_r9 : N; g_r10 : N; g_r11 : N; g_r12 : N; g_r13 : N; g_r14 : N; g_r15 : N }.
Definition rget (f : regs) (r : reg) : N :=
  match r with
  | RAX => g_rax f | RBX => g_rbx f | RCX => g_rcx f | RDX => g_rdx f
  | RSI => g_rsi f | RDI => g_rdi f | RBP => g_rbp f | RSP => g_rsp f
  | R8 => g_r8 f | R9 => g_r9 f | R10 => g_r10 f | R11 => g_r11 f
  | R12 => g_r12 f | R13 => g_r13 f | R14 => g_r14 f | R15 => g_r15 f
  end.
Definition rset (f : regs) (r : reg) (v : N) : regs :=
  let 'mkRegs v0 v1 v2 v3 v4 v5 v6 v7 v8 v9 v10 v11 v12 v13 v14 v15 := f in
  match r with
  | RAX => mkRegs v v1 v2 v3 v4 v5 v6 v7 v8 v9 v10 v11 v12 v13 v14 v15
  | RBX => mkRegs v0 v v2 v3 v4 v5 v6 v7 v8 v9 v10 v11 v12 v13 v14 v15
  | RCX => mkRegs v0 v1 v v3 v4 v5 v6 v7 v8 v9 v10 v11 v12 v13 v14 v15
  | RDX => mkRegs v0 v1 v2 v v4 v5 v6 v7 v8 v9 v10 v11 v12 v13 v14 v15
  | RSI => mkRegs v0 v1 v2 v3 v v5 v6 v7 v8 v9 v10 v11 v12 v13 v14 v15
  | RDI => mkRegs v0 v1 v2 v3 v4 v v6 v7 v8 v9 v10 v11 v12 v13 v14 v15
  | RBP => mkRegs v0 v1 v2 v3 v4 v5 v v7 v8 v9 v10 v11 v12 v13 v14 v15
  | RSP => mkRegs v0 v1 v2 v3 v4 v5 v6 v v8 v9 v10 v11 v12 v13 v14 v15
  | R8 => mkRegs v0 v1 v2 v3 v4 v5 v6 v7 v v9 v10 v11 v12 v13 v14 v15
  | R9 => mkRegs v0 v1 v2 v3 v4 v5 v6 v7 v8 v v10 v11 v12 v13 v14 v15
  | R10 => mkRegs v0 v1 v2 v3 v4 v5 v6 v7 v8 v9 v v11 v12 v13 v14 v15
  | R11 => mkRegs v0 v1 v2 v3 v4 v5 v6 v7 v8 v9 v10 v v12 v13 v14 v15
  | R12 => mkRegs v0 v1 v2 v3 v4 v5 v6 v7 v8 v9 v10 v11 v v13 v14 v15
  | R13 => mkRegs v0 v1 v2 v3 v4 v5 v6 v7 v8 v9 v10 v11 v12 v v14 v15
  | R14 => mkRegs v0 v1 v2 v3 v4 v5 v6 v7 v8 v9 v10 v11 v12 v13 v v15
  | R15 => mkRegs v0 v1 v2 v3 v4 v5 v6 v7 v8 v9 v10 v11 v12 v13 v14 v
  end.

(** SaveArea, lib/kpi/src/x86_64.rs:205-276: words by number, and fxsave at word 28. *)
Record sarea := mkSa { sa_w : N -> N; sa_fx : N * N }.
Definition sa_set (a : sarea) (k v : N) : sarea := mkSa (fun j => if j =? k then v else sa_w a j) (sa_fx a).
Definition sa_setfx (a : sarea) (x : N * N) : sarea := mkSa (sa_w a) x.

(** A core: registers, the bases of fs and gs, IA32_KERNEL_GSBASE, selectors, the words on the kernel and user stack (top
    first), and the save area its code works on. *)
Record cpu := mkCpu {
  c_g : regs; c_rip : N; c_fl : N; c_fs : N; c_gs : N; c_kgs : N; c_fx : N * N; c_cs : N; c_ss : N;
  c_kst : list N; c_ust : list N; c_sa : sarea }.

Definition c_r (c : cpu) : reg -> N := rget (c_g c).
Definition w_r (f : regs) (c : cpu) : cpu :=
  mkCpu f (c_rip c) (c_fl c) (c_fs c) (c_gs c) (c_kgs c) (c_fx c) (c_cs c) (c_ss c) (c_kst c) (c_ust c) (c_sa c).
Definition w_fs (v : N) (c : cpu) : cpu :=
  mkCpu (c_g c) (c_rip c) (c_fl c) v (c_gs c) (c_kgs c) (c_fx c) (c_cs c) (c_ss c) (c_kst c) (c_ust c) (c_sa c).
Definition w_gs (v k : N) (c : cpu) : cpu :=
  mkCpu (c_g c) (c_rip c) (c_fl c) (c_fs c) v k (c_fx c) (c_cs c) (c_ss c) (c_kst c) (c_ust c) (c_sa c).
Definition w_fx (v : N * N) (c : cpu) : cpu :=
  mkCpu (c_g c) (c_rip c) (c_fl c) (c_fs c) (c_gs c) (c_kgs c) v (c_cs c) (c_ss c) (c_kst c) (c_ust c) (c_sa c).
Definition w_sa (a : sarea) (c : cpu) : cpu :=
  mkCpu (c_g c) (c_rip c) (c_fl c) (c_fs c) (c_gs c) (c_kgs c) (c_fx c) (c_cs c) (c_ss c) (c_kst c) (c_ust c) a.
Definition w_st (k u : list N) (c : cpu) : cpu :=
  mkCpu (c_g c) (c_rip c) (c_fl c) (c_fs c) (c_gs c) (c_kgs c) (c_fx c) (c_cs c) (c_ss c) k u (c_sa c).
Definition setr (r : reg) (v : N) (c : cpu) : cpu := w_r (rset (c_g c) r v) c.

(** The ring is in the low bits of the code selector. *)
Definition ring3 (c : cpu) : bool := N.land (c_cs c) 3 =? 3.
Definition stack (c : cpu) : list N := if ring3 c then c_ust c else c_kst c.
Definition w_stack (l : list N) (c : cpu) : cpu := if ring3 c then w_st (c_kst c) l c else w_st l (c_ust c) c.

(** * Instructions *)
Inductive instr :=
| PushI (v : N)                (* pushq $v *)
| PushR (r : reg)              (* pushq r *)
| PushA (k : N) (b : reg)      (* pushq 8k(b), b the address of the save area *)
| PopR (r : reg)
| LdS (k : nat) (r : reg)        (* movq 8k(%rsp), r *)
| SwapUnless (r : reg) (v : N) (* cmpq $v, r; je after; swapgs *)
| Swapgs
| LdG (k : N) (r : reg)        (* movq %gs:8k, r *)
| StA (r : reg) (k : N) (b : reg)  (* movq r, 8k(b) *)
| LdA (k : N) (b r : reg)      (* movq 8k(b), r *)
| Rdfs (r : reg) | Wrfs (r : reg) | Wrgs (r : reg)
| Fxsave (k : N) (b : reg) | Fxrstor (k : N) (b : reg) | Fninit
| Mov (a b : reg)              (* movq a, b *)
| MovI (v : N) (b : reg)
| Iretq | Sysretq.

(** What addresses mean: the control block of the core, the save area, the kernel's fs base, the system call stack
    (kcb.rs:119-139), and the word that lies above the interrupt stack. *)
Record kenv := mkEnv { e_kcb : N; e_sa : N; e_tls : N; e_stk : N; e_above : N }.

(** Flags: IF is bit 9, IOPL bits 12 and 13, A1 bit 1. *)
Definition F_IF : N := 512.
Definition F_IOPL3 : N := 12288.
Definition F_A1 : N := 2.
(** The x87 state that fninit sets up. *)
Definition X87_INIT : N := 895.
(** iretq (Intel SDM): from ring 3 IOPL stays, IF changes only with IOPL 3; not to a less privileged caller. *)
Definition iret_flags (r3 : bool) (old new : N) : N :=
  if r3 then
    let keep := if N.land old F_IOPL3 =? F_IOPL3 then F_IOPL3 else N.lor F_IOPL3 F_IF in
    N.lor (N.ldiff new keep) (N.land old keep)
  else new.
(** IA32_STAR, syscall.rs:549-556: 8 for syscall, 16 for sysret, which sets CS to 16 + 16 and SS to 16 + 8, in ring 3; the
    mask of flags sysretq takes from r11 is that of the SDM. *)
Definition STAR_RET : N := 16.
Definition SYSRET_MASK : N := 3964887.

Definition step (e : kenv) (i : instr) (c : cpu) : option cpu :=
  let push v c := setr RSP (c_r c RSP - 8) (w_stack (v :: stack c) c) in
  match i with
  | PushI v => Some (push v c)
  | PushR r => Some (push (c_r c r) c)
  | PushA k b => if c_r c b =? e_sa e then Some (push (sa_w (c_sa c) k) c) else None
  | PopR r => match stack c with v :: l => Some (setr r v (setr RSP (c_r c RSP + 8) (w_stack l c))) | [] => None end
  | LdS k r => match nth_error (stack c) k with Some v => Some (setr r v c) | None => None end
  | SwapUnless r v => if c_r c r =? v then Some c else Some (w_gs (c_kgs c) (c_gs c) c)
  | Swapgs => if ring3 c then None else Some (w_gs (c_kgs c) (c_gs c) c)
  | LdG k r =>
      if c_gs c =? e_kcb e
      then match k with
           | 0 => Some (setr r (e_stk e) c) | 1 => Some (setr r (e_sa e) c) | 2 => Some (setr r (e_tls e) c) | _ => None
           end
      else None
  | StA r k b => if c_r c b =? e_sa e then Some (w_sa (sa_set (c_sa c) k (c_r c r)) c) else None
  | LdA k b r => if c_r c b =? e_sa e then Some (setr r (sa_w (c_sa c) k) c) else None
  | Rdfs r => Some (setr r (c_fs c) c)
  | Wrfs r => Some (w_fs (c_r c r) c)
  | Wrgs r => Some (w_gs (c_r c r) (c_kgs c) c)
  | Fxsave k b => if (c_r c b =? e_sa e) && (k =? 28) then Some (w_sa (sa_setfx (c_sa c) (c_fx c)) c) else None
  | Fxrstor k b => if (c_r c b =? e_sa e) && (k =? 28) then Some (w_fx (sa_fx (c_sa c)) c) else None
  | Fninit => Some (w_fx (X87_INIT, snd (c_fx c)) c)
  | Mov a b => Some (setr b (c_r c a) c)
  | MovI v b => Some (setr b v c)
  | Iretq =>
      match stack c with
      | rip :: cs :: fl :: rsp :: ss :: l =>
          if ring3 c && negb (N.land cs 3 =? 3) then None else
          Some (mkCpu (rset (c_g c) RSP rsp) rip (iret_flags (ring3 c) (c_fl c) fl) (c_fs c) (c_gs c) (c_kgs c) (c_fx c) cs ss
                      (if ring3 c then c_kst c else l) (if ring3 c then l else c_ust c) (c_sa c))
      | _ => None
      end
  | Sysretq =>
      if ring3 c then None else
      Some (mkCpu (c_g c) (c_r c RCX) (N.lor (N.land (c_r c R11) SYSRET_MASK) F_A1) (c_fs c) (c_gs c) (c_kgs c) (c_fx c)
                  (N.lor (STAR_RET + 16) 3) (N.lor (STAR_RET + 8) 3) [] (c_ust c) (c_sa c))
  end.
Fixpoint exec (e : kenv) (l : list instr) (c : cpu) : option cpu :=
  match l with
  | [] => Some c
  | i :: l => match step e i c with Some c => exec e l c | None => None end
  end.

(** * The code *)
(** isr_handler, isr.S:14-119, for a vector for which the processor pushes an error code or not. *)
Definition isr_code (ex : N) (err : bool) : list instr :=
  (if err then [] else [PushI 0]) ++
  [PushI ex; PushR RAX; LdS 4%nat RAX; SwapUnless RAX 8; LdG 1 RAX;
   StA RBX 1 RAX; StA RCX 2 RAX; StA RDX 3 RAX; StA RSI 4 RAX; StA RDI 5 RAX; StA RBP 6 RAX;
   StA R8 8 RAX; StA R9 9 RAX; StA R10 10 RAX; StA R11 11 RAX; StA R12 12 RAX; StA R13 13 RAX; StA R14 14 RAX; StA R15 15 RAX;
   PopR R15; StA R15 0 RAX;
   LdS 0%nat R15; StA R15 20 RAX; LdS 1%nat R15; StA R15 21 RAX; LdS 2%nat R15; StA R15 16 RAX; LdS 3%nat R15; StA R15 22 RAX;
   LdS 4%nat R15; StA R15 17 RAX; LdS 5%nat R15; StA R15 7 RAX; LdS 6%nat R15; StA R15 23 RAX;
   Rdfs R15; StA R15 19 RAX; LdG 2 R15; Wrfs R15; Fxsave 28 RAX; PushI 0].

(** syscall_enter, exec.S:14-68, up to the call. *)
Definition syscall_code : list instr :=
  [Swapgs; LdG 1 RAX;
   StA RBX 1 RAX; StA RCX 2 RAX; StA RDX 3 RAX; StA RSI 4 RAX; StA RDI 5 RAX; StA RBP 6 RAX; StA RSP 7 RAX;
   StA R8 8 RAX; StA R9 9 RAX; StA R10 10 RAX; StA R11 11 RAX; StA R12 12 RAX; StA R13 13 RAX; StA R14 14 RAX; StA R15 15 RAX;
   StA RCX 16 RAX; Fxsave 28 RAX; Rdfs R15; StA R15 19 RAX; LdG 2 R15; Wrfs R15; LdG 0 RSP; Mov RSP RBP; Mov R10 RCX].

(** iret_restore, process.rs:514-588 (%rdi has the save area), and Ring0Resumer::resume, :342-420, with selectors. *)
Definition iret_code (cs ss : N) : list instr :=
  [Swapgs; LdA 19 RDI RSI; Wrfs RSI; Fxrstor 28 RDI;
   LdA 0 RDI RAX; LdA 1 RDI RBX; LdA 2 RDI RCX; LdA 3 RDI RDX; LdA 4 RDI RSI; LdA 6 RDI RBP;
   LdA 8 RDI R8; LdA 9 RDI R9; LdA 10 RDI R10; LdA 11 RDI R11; LdA 12 RDI R12; LdA 13 RDI R13; LdA 14 RDI R14; LdA 15 RDI R15;
   PushI ss; PushA 7 RDI; PushA 17 RDI; PushI cs; PushA 16 RDI; LdA 5 RDI RDI; Iretq].
Definition CS_USER : N := 27.
Definition SS_USER : N := 35.

(** restore, process.rs:590-661 (%rdi has the save area, %r11 the flags). *)
Definition sysret_code : list instr :=
  [LdA 0 RDI RAX; LdA 1 RDI RBX; LdA 3 RDI RDX; LdA 6 RDI RBP; LdA 7 RDI RSP;
   LdA 8 RDI R8; LdA 9 RDI R9; LdA 10 RDI R10; LdA 12 RDI R12; LdA 13 RDI R13; LdA 14 RDI R14; LdA 15 RDI R15;
   Swapgs; LdA 19 RDI RSI; Wrfs RSI; Fxrstor 28 RDI; LdA 16 RDI RCX; LdA 4 RDI RSI; LdA 5 RDI RDI; Sysretq].
Definition RESTORE_FLAGS : N := N.lor F_IOPL3 (N.lor F_A1 F_IF).

(** upcall, process.rs:663-709 (%rcx entry, %rdi, %rsi, %rdx arguments, %rax stack, %r11 flags). *)
Definition upcall_code : list instr :=
  [MovI 0 RBX; MovI 0 R8; MovI 0 R9; MovI 0 R10; MovI 0 R12; MovI 0 R13; MovI 0 R14; MovI 0 R15;
   Fninit; Swapgs; Mov RAX RBP; Mov RAX RSP; Sysretq].
(** start, process.rs:711-768. *)
Definition start_code : list instr :=
  [MovI 0 RBX; MovI 0 R8; MovI 0 R9; MovI 0 R10; MovI 0 R12; MovI 0 R13; MovI 0 R14; MovI 0 R15;
   Fninit; Wrgs R15; Wrfs R15; Mov RAX RBP; Mov RAX RSP; Sysretq].

(** resume, lib/vibrio/src/upcalls.rs:105-187 (%rsi has enabled_state), in user mode. *)
Definition resume_code : list instr :=
  [LdA 19 RSI RDI; Wrfs RDI; Fxrstor 28 RSI;
   LdA 0 RSI RAX; LdA 1 RSI RBX; LdA 2 RSI RCX; LdA 3 RSI RDX; LdA 5 RSI RDI; LdA 6 RSI RBP;
   LdA 8 RSI R8; LdA 9 RSI R9; LdA 10 RSI R10; LdA 11 RSI R11; LdA 12 RSI R12; LdA 13 RSI R13; LdA 14 RSI R14; LdA 15 RSI R15;
   PushI SS_USER; PushA 7 RSI; PushA 17 RSI; PushI CS_USER; PushA 16 RSI; LdA 4 RSI RSI; Iretq].

(** * Entry by the processor *)
(** Interrupt or exception (SDM 6.14): through an interrupt gate, with an error code or not; from the kernel too. *)
Definition hw_enter (e : kenv) (err : option N) (c : cpu) : cpu :=
  mkCpu (c_g c) (c_rip c) (N.ldiff (c_fl c) F_IF) (c_fs c) (c_gs c) (c_kgs c) (c_fx c) 8 16
        (match err with Some e => [e] | None => [] end ++ [c_rip c; c_cs c; c_fl c; c_r c RSP; c_ss c; e_above e]) (c_ust c) (c_sa c).
(** syscall: rcx gets the address of the next instruction, r11 the flags; IA32_FMASK (syscall.rs:563-566) clears all but
    IOPL and A1. *)
Definition hw_syscall (next : N) (c : cpu) : cpu :=
  mkCpu (rset (rset (c_g c) RCX next) R11 (c_fl c)) 0 (N.land (c_fl c) (N.lor F_IOPL3 F_A1)) (c_fs c) (c_gs c) (c_kgs c)
        (c_fx c) 8 16 [] (c_ust c) (c_sa c).

(** What compiled kernel code does to the core: any registers, vector registers and stack; it keeps fs and gs and, but for the
    results of system calls, the save area. *)
Record clob := mkClob { k_g : regs; k_fx : N * N; k_fl : N; k_st : list N }.
Definition kernel_code (k : clob) (c : cpu) : cpu :=
  mkCpu (k_g k) 0 (k_fl k) (c_fs c) (c_gs c) (c_kgs c) (k_fx k) (c_cs c) (c_ss c) (k_st k) (c_ust c) (c_sa c).

(** * Handlers *)
(** IdtTable::default, irq.rs:130-200: vectors with isr_handler (pushing an error code or not), with the early handler, or
    none.  Which have an error code: isr.S:176-246. *)
Inductive gate := GIsr (err : bool) | GEarly | GNone.
Definition idt (v : N) : gate :=
  if (v =? 8) || (v =? 18) then GEarly
  else if (10 <=? v) && (v <=? 14) || (v =? 17) || (v =? 30) then GIsr true
  else if (v <=? 9) || (v =? 16) || (v =? 19) || (v =? 20) || (32 <=? v) && (v <=? 47) || (249 <=? v) && (v <=? 252)
  then GIsr false else GNone.

(** VirtualCpu, lib/kpi/src/x86_64.rs:37-66. *)
Record vcpu := mkVc { v_en : sarea; v_pc : N * N; v_up : N; v_dis : bool }.
Definition upcalls_disabled (w : vcpu) (rip : N) : bool := v_dis w || (fst (v_pc w) <=? rip) && (rip <=? snd (v_pc w)).

(** What a core runs: the current executor (Ring3Executor, process.rs:770-800): the vcpu, its address in user space and the
    upcall stack. *)
Record exe := mkExe { x_vc : vcpu; x_addr : N; x_ustack : N }.

(** How the kernel goes on. *)
Inductive way :=
| WIret | WSysret | WRing0
| WUpcall (entry stk ctl vec err : N)
| WSchedule | WShutdown | WPanic.

Definition GDB_IRQ : N := 35.
Definition set_dis (w : vcpu) : vcpu := mkVc (v_en w) (v_pc w) (v_up w) true.
(** The code shared by bkp_handler, irq.rs:466-496, and handle_generic_exception, :695-731. *)
Definition do_upcall (x : exe) (a : sarea) (v err rip : N) : way * exe :=
  let w := x_vc x in
  if upcalls_disabled w rip then (WSysret, mkExe (set_dis w) (x_addr x) (x_ustack x))
  else (WUpcall (v_up w) (x_ustack x) (x_addr x) v err, mkExe (mkVc a (v_pc w) (v_up w) true) (x_addr x) (x_ustack x)).
(** handle_generic_exception, irq.rs:683-831, with its arguments from the stack.  Given from outside: [h_mapped], whether the
    faulting address is mapped when the replica is up to date (pf_handler, :341-373); [h_client], this is a client machine of a
    rack; [h_gdb], a debugger is connected (gdb::event_loop panics without, gdb/mod.rs:94, and returns with).  A core without
    a process goes back to its own work: the scheduler, or for vector 250 the loop of :769-777. *)
Record hin := mkIn { h_mapped : bool; h_client : bool; h_gdb : bool }.
Definition handle (h : hin) (o : option exe) (a : sarea) (v err rip : N) : way * option exe :=
  let debugger := if h_gdb h then WRing0 else WPanic in
  if negb (v <? 256) then (WPanic, o) else
  if (30 <? v) && (v <? 249) && negb (v =? GDB_IRQ) then
    match o with None => (WPanic, o) | Some x => let (w, x) := do_upcall x a v err rip in (w, Some x) end
  else if v =? 13 then (WShutdown, o)
  else if v =? 14 then
    if N.testbit err 2
    then match o with None => (WPanic, o) | Some _ => if h_mapped h then (WIret, o) else (WShutdown, o) end
    else (WShutdown, o)
  else if v =? 1 then match o with Some _ => (WSysret, o) | None => (debugger, o) end
  else if v =? 3 then
    match o with Some x => let (w, x) := do_upcall x a v err rip in (w, Some x) | None => (debugger, o) end
  else if v =? GDB_IRQ then (debugger, o)
  else if (v =? 251) || (v =? 250) || (v =? 252) then match o with Some _ => (WIret, o) | None => (WSchedule, o) end
  else if v =? 249 then
    if h_client h then match o with Some _ => (WIret, o) | None => (WSchedule, o) end else (WPanic, o)
  else (WShutdown, o).

(** Leaving: the arguments of the asm! blocks are in registers. *)
Definition leave (e : kenv) (w : way) (c : cpu) : option cpu :=
  match w with
  | WIret => exec e (iret_code CS_USER SS_USER) (setr RDI (e_sa e) c)
  | WSysret => exec e sysret_code (setr RDI (e_sa e) (setr R11 RESTORE_FLAGS c))
  | WRing0 => exec e (iret_code 8 16) (setr RDI (e_sa e) c)
  | WUpcall entry stk ctl vec err =>
      exec e upcall_code (setr RCX entry (setr RDI ctl (setr RSI vec (setr RDX err (setr RAX stk (setr R11 RESTORE_FLAGS c))))))
  | _ => None
  end.

(** An interrupt, exception or int instruction, from the event to the next instruction of what was resumed. *)
Inductive after := ARun (c : cpu) (o : option exe) | ASchedule | AShutdown | APanic | AStuck.
Definition interrupt (e : kenv) (v : N) (err : option N) (h : hin) (k : clob) (c : cpu) (o : option exe) : after :=
  match idt v with
  | GNone => AStuck
  | GEarly => AShutdown
  | GIsr b =>
      match exec e (isr_code v b) (hw_enter e err c) with
      | None => AStuck
      | Some c =>
          match c_kst c with
          | _ :: v :: err :: rip :: _ =>
              let (w, o) := handle h o (c_sa c) v err rip in
              match w with
              | WSchedule => ASchedule | WShutdown => AShutdown | WPanic => APanic
              | _ => match leave e w (kernel_code k c) with Some c => ARun c o | None => AStuck end
              end
          | _ => AStuck
          end
      end
  end.

(** syscall_handle, syscall.rs:493-546: what the kernel is called with, and what it leaves in the save area. *)
Definition sys_args (c : cpu) : list N := map (c_r c) [RDI; RSI; RDX; RCX; R8; R9].
Definition sys_result (r : N * N + N) (a : sarea) : sarea :=
  match r with
  | inl (a1, a2) => sa_set (sa_set (sa_set a 5 a1) 4 a2) 0 0
  | inr code => sa_set a 0 code
  end.
Definition syscall (e : kenv) (next : N) (handler : list N -> N * N + N) (k : clob) (c : cpu) : option cpu :=
  match exec e syscall_code (hw_syscall next c) with
  | None => None
  | Some c1 =>
      let c2 := kernel_code k c1 in
      leave e WSysret (w_sa (sys_result (handler (sys_args c1)) (c_sa c2)) c2)
  end.

(** The registers a wrapper of lib/kpi/src/syscalls/macros.rs:113-390 with [n] results tells the compiler it may change. *)
Definition wrapper_outs (n : nat) : list reg :=
  [RCX; R11; RAX] ++ (if (2 <=? n)%nat then [RDI] else []) ++ (if (3 <=? n)%nat then [RSI] else []).

(** Starting a program or a core of one: Ring3Resumer::start and upcall with NEW_CORE, process.rs:919-948. *)
Definition start_program (e : kenv) (entry stk : N) (c : cpu) : option cpu :=
  exec e start_code (setr RCX entry (setr RDI 0 (setr RSI 0 (setr RDX 0 (setr RAX stk (setr R11 RESTORE_FLAGS c)))))).
(** kpi::upcall::NEW_CORE, lib/kpi/src/upcall.rs:6. *)
Definition NEW_CORE : N := 153.
Definition start_core (e : kenv) (entry stk ctl core : N) (c : cpu) : option cpu :=
  leave e (WUpcall entry stk ctl NEW_CORE core) c.

(** * The user side of upcalls *)
(** upcall_while_enabled, lib/vibrio/src/upcalls.rs:56-98, for an interrupt; pending_irqs holds four (lineup tls2/mod.rs:273). *)
Definition pend_push (v : N) (q : list N) : option (list N) :=
  if (v =? 43) || (v =? 36) then if (length q <? 4)%nat then Some (q ++ [v]) else None else Some q.
(** The end of the handler: enable_upcalls, then the code of resume, with the address of enabled_state (the first field of
    the vcpu) in %rsi. *)
Definition user_env (x : exe) : kenv := mkEnv 0 (x_addr x) 0 0 0.
Definition enable (x : exe) : exe := mkExe (mkVc (v_en (x_vc x)) (v_pc (x_vc x)) (v_up (x_vc x)) false) (x_addr x) (x_ustack x).
(** [user_exec]: user code that reaches enabled_state instead of the kernel's save area. *)
Definition user_exec (x : exe) (l : list instr) (c : cpu) : option cpu :=
  match exec (user_env x) l (w_sa (v_en (x_vc x)) c) with
  | Some c1 => Some (w_sa (c_sa c) c1)
  | None => None
  end.
Definition resume (x : exe) (c : cpu) : option cpu := user_exec x resume_code (setr RSI (x_addr x) c).
