(** Model of the kernel debugger: kernel/src/arch/x86_64/gdb/ (breakpoints.rs, mod.rs, single_thread_ops.rs) with the debug
    registers and the save area it works on (lib/kpi/src/x86_64.rs).  The protocol of gdbstub and the serial line are not
    modelled: a request of gdb is a call of the functions below. *)
From Verif Require Import Base.
Local Open Scope N_scope.

(** * Breakpoints and watchpoints *)
(** gdbstub's WatchKind; breakpoints.rs:23-39; debugregs::BreakCondition of the x86 crate. *)
Inductive wkind := WRead | WWrite | WRW.
Inductive breq := RHard | RSoft.
Inductive bkind := BBreak | BWatch (k : wkind).
Inductive bcond := CInstr | CWrite | CRW.

(** One of the four places: the entry of hw_break_points (breakpoints.rs:44, mod.rs:226), the debug register (address,
    condition, size and the global enable bit of dr7) and its bit of enabled_bps in the save area
    (lib/kpi/src/x86_64.rs:270-272). *)
Record cell := mkCell {
  c_entry : option (N * bkind * breq);
  c_addr : N; c_cond : bcond; c_len : N; c_on : bool;
  c_bit : bool }.
Definition cell0 : cell := mkCell None 0 CInstr 1 false false.
Definition gdb_init : list cell := [cell0; cell0; cell0; cell0].

(** The loops of breakpoints.rs:64-93, :202-241: the first place without an entry. *)
Fixpoint fill (f : cell -> cell) (l : list cell) : list cell * bool :=
  match l with
  | [] => ([], false)
  | c :: l => match c_entry c with None => (f c :: l, true) | Some _ => let '(l', b) := fill f l in (c :: l', b) end
  end.
(** The loops of :117-132, :257-273: the first entry that matches is dropped, its register disabled. *)
Definition drop (c : cell) : cell := mkCell None (c_addr c) (c_cond c) (c_len c) false false.
Fixpoint drop_first (p : N * bkind * breq -> bool) (l : list cell) : list cell * bool :=
  match l with
  | [] => ([], false)
  | c :: l =>
      if match c_entry c with Some e => p e | None => false end then (drop c :: l, true)
      else let '(l', b) := drop_first p l in (c :: l', b)
  end.

Definition breq_eqb (a b : breq) : bool := match a, b with RHard, RHard | RSoft, RSoft => true | _, _ => false end.
(** add_breakpoint, :47-97. *)
Definition add_breakpoint (req : breq) (addr : N) (l : list cell) : list cell * bool :=
  fill (fun c => mkCell (Some (addr, BBreak, req)) addr CInstr 1 (c_on c) true) l.
(** remove_breakpoint, :99-138. *)
Definition remove_breakpoint (req : breq) (addr : N) (l : list cell) : list cell * bool :=
  drop_first (fun e => match e with (a, BBreak, r) => (a =? addr) && breq_eqb r req | _ => false end) l.
(** watchkind_to_breakcondition, :157-164. *)
Definition cond_of (k : wkind) : bcond := match k with WRead => CRW | WWrite => CWrite | WRW => CRW end.
(** The sizes of :207-216. *)
Definition size_of (len : N) : N :=
  if (len =? 1) || (len =? 2) || (len =? 4) || (len =? 8) then len else 8.
(** add_hw_watchpoint, :190-243. *)
Definition add_watch (addr len : N) (k : wkind) (l : list cell) : list cell * bool :=
  fill (fun c => mkCell (Some (addr, BWatch k, RHard)) addr (cond_of k) (size_of len) (c_on c) true) l.
(** remove_hw_watchpoint, :245-278; neither the length nor the kind is looked at. *)
Definition remove_watch (addr len : N) (k : wkind) (l : list cell) : list cell * bool :=
  drop_first (fun e => match e with (a, BWatch _, r) => (a =? addr) && breq_eqb r RHard | _ => false end) l.

(** The debugger is entered: disable_all_breakpoints, kernel/src/arch/x86_64/debug.rs:122-131, irq.rs:433, :449. *)
Definition gdb_stop (l : list cell) : list cell :=
  map (fun c => mkCell (c_entry c) (c_addr c) (c_cond c) (c_len c) false (c_bit c)) l.
(** And left: Ring0Resumer::resume, process.rs:321-341. *)
Definition gdb_resume (l : list cell) : list cell :=
  map (fun c => mkCell (c_entry c) (c_addr c) (c_cond c) (c_len c) (if c_bit c then true else c_on c) (c_bit c)) l.

(** The requests of gdb, breakpoints.rs:167-190. *)
Inductive point := PBreak (a : N) (r : breq) | PWatch (a len : N) (k : wkind).
Inductive greq := GAdd (p : point) | GDel (p : point).
Definition gdb_req (l : list cell) (r : greq) : list cell * bool :=
  match r with
  | GAdd (PBreak a r) => add_breakpoint r a l
  | GDel (PBreak a r) => remove_breakpoint r a l
  | GAdd (PWatch a len k) => add_watch a len k l
  | GDel (PWatch a len k) => remove_watch a len k l
  end.
Fixpoint gdb_reqs (l : list cell) (rs : list greq) : list cell * list bool :=
  match rs with
  | [] => (l, [])
  | r :: rs => let '(l, b) := gdb_req l r in let '(l, bs) := gdb_reqs l rs in (l, b :: bs)
  end.
(** Stops of the kernel, with the requests made during each. *)
Fixpoint gdb_run (l : list cell) (ss : list (list greq)) : list cell * list (list bool) :=
  match ss with
  | [] => (l, [])
  | rs :: ss =>
      let '(l, b) := gdb_reqs (gdb_stop l) rs in
      let '(l, bs) := gdb_run (gdb_resume l) ss in (l, b :: bs)
  end.

(** The processor (Intel SDM 3B 17.2): what is fetched or accessed, and when a debug register matches.  The low bits of
    the address of a data breakpoint are ignored according to its size. *)
Inductive access := Fetch (x : N) | Data (write : bool) (x n : N).
Definition overlap (a l x n : N) : bool := (a <? x + n) && (x <? a + l).
Definition match_cell (c : cell) (acc : access) : bool :=
  match c_cond c, acc with
  | CInstr, Fetch x => x =? c_addr c
  | CWrite, Data true x n => overlap (c_addr c - c_addr c mod c_len c) (c_len c) x n
  | CRW, Data _ x n => overlap (c_addr c - c_addr c mod c_len c) (c_len c) x n
  | _, _ => false
  end.
Definition trap (c : cell) (acc : access) : bool := c_on c && match_cell c acc.

(** determine_stop_reason for a debug exception, mod.rs:258-341: [b] are the bits B0..B3 of dr6, [bs] the single-step bit.
    None is no reason to report. *)
Inductive reason := HwBreak | SwBreak | Watch (k : wkind) (a : N) | DoneStep.
Fixpoint first_bit (b : list bool) (l : list cell) : option (N * bkind * breq) :=
  match b, l with
  | x :: b, c :: l => if x then c_entry c else first_bit b l
  | _, _ => None
  end.
Definition stop_reason (l : list cell) (b : list bool) (bs : bool) : res (option reason) :=
  match first_bit b l with
  | Some (_, BBreak, RHard) => Ok (Some HwBreak)
  | Some (_, BBreak, RSoft) => Ok (Some SwBreak)
  | Some (va, BWatch k, RHard) => Ok (Some (Watch k va))
  | Some (_, BWatch _, RSoft) => Panic
  | None => if bs then Ok (Some DoneStep) else Ok None
  end.

(** * Memory, single_thread_ops.rs:163-269 *)
(** The current page table by page number: writable and executable. *)
Record prights := mkPr { p_w : bool; p_x : bool }.
Definition PAGE : N := 4096.
Definition VLIMIT : N := 2 ^ 48.        (* VADDR_RANGE, lib/kpi/src/x86_64.rs:20 *)
(** Is the page looked up at this byte? :180, :224. *)
Definition looks (start i : N) : bool := (i =? 0) || ((start + i) mod PAGE =? 0).
(** read_addrs, :163-207. *)
Fixpoint rd (pt : N -> option prights) (mem : N -> N) (start i : N) (n : nat) : option (list N) :=
  match n with
  | O => Some []
  | S n =>
      if looks start i && (match pt ((start + i) / PAGE) with None => true | Some _ => false end) then None
      else match rd pt mem start (i + 1) n with Some r => Some (mem (start + i) :: r) | None => None end
  end.
Definition read_addrs (pt : N -> option prights) (mem : N -> N) (start : N) (n : nat) : option (list N) :=
  if VLIMIT <=? start then None else rd pt mem start 0 n.
(** write_addrs, :209-269: the memory afterwards and whether it reports success. *)
Definition may_write (r : option prights) : bool := match r with Some r => negb (p_x r) && p_w r | None => false end.
Definition mset (mem : N -> N) (a v : N) : N -> N := fun x => if x =? a then v else mem x.
Fixpoint wr (pt : N -> option prights) (mem : N -> N) (start i : N) (d : list N) : (N -> N) * bool :=
  match d with
  | [] => (mem, true)
  | v :: d =>
      if looks start i && ((VLIMIT <=? start) || negb (may_write (pt ((start + i) / PAGE)))) then (mem, false)
      else wr pt (mset mem (start + i) v) start (i + 1) d
  end.
Definition write_addrs (pt : N -> option prights) (mem : N -> N) (start : N) (d : list N) : (N -> N) * bool :=
  wr pt mem start 0 d.

(** * Registers *)
(** SaveArea, lib/kpi/src/x86_64.rs:219-277, without the vector and the reserved words; the x87 control words fcw, fsw,
    ftw, fcs, fip, fds, fdp, fop (FxSave, :96-127) are a list in the order of gdb. *)
Record sarea := mkSa {
  s_gpr : list N; s_rip : N; s_rflags : N; s_cs : N; s_ss : N; s_fs : N; s_gs : N;
  s_fpu : list N; s_st : list N; s_xmm : list N; s_mxcsr : N }.
(** X86_64CoreRegs of gdbstub_arch; ds and es are left out, they are always 0 and ignored. *)
Record gregs := mkGr {
  g_gpr : list N; g_rip : N; g_eflags : N; g_cs : N; g_ss : N; g_fs : N; g_gs : N;
  g_fpu : list N; g_st : list (list N); g_xmm : list N; g_mxcsr : N }.
Fixpoint le_bytes (n : nat) (v : N) : list N :=
  match n with O => [] | S n => v mod 256 :: le_bytes n (v / 256) end.
(** FxSave::st, lib/kpi/src/x86_64.rs:172-190: the first ten of the bytes, most significant first. *)
Definition st_bytes (v : N) : list N := take 10 (reverse (le_bytes 16 v)).
Definition U32 : N := 2 ^ 32.
(** read_registers, single_thread_ops.rs:39-101.  The conversions to 32 bits panic. *)
Definition read_registers (s : sarea) : res gregs :=
  if (s_rflags s <? U32) && (s_cs s <? U32) && (s_ss s <? U32) && (s_gs s <? U32) then
    Ok (mkGr (s_gpr s) (s_rip s) (s_rflags s) (s_cs s) (s_ss s) 0 (s_gs s) (s_fpu s) (map st_bytes (s_st s)) (s_xmm s)
             (s_mxcsr s))
  else Panic.
(** The widths of the x87 control words, lib/kpi/src/x86_64.rs:96-117. *)
Definition fpu_max : list N := [2^16; 2^16; 2^8; 2^16; 2^32; 2^16; 2^32; 2^16].
Fixpoint fits (v m : list N) : bool :=
  match v, m with [], _ => true | x :: v, y :: m => (x <? y) && fits v m | _ :: _, [] => false end.
(** write_registers, :103-161. *)
Definition write_registers (s : sarea) (r : gregs) : res sarea :=
  if fits (g_fpu r) fpu_max then
    Ok (mkSa (g_gpr r) (g_rip r) (g_eflags r) (g_cs r) (g_ss r) (g_fs r) (g_gs r) (g_fpu r) (s_st s) (g_xmm r) (g_mxcsr r))
  else Panic.
(** gdb changes one register: without single register access (support_single_register_access, :271-274) it reads all of
    them, changes one and writes all of them back. *)
Definition change_registers (f : gregs -> gregs) (s : sarea) : res sarea :=
  match read_registers s with Ok r => write_registers s (f r) | Err e => Err e | Panic => Panic end.
