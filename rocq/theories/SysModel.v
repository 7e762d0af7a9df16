(** Model of the system call path: the user-level stubs (lib/kpi/src/syscalls),
    the register convention (lib/kpi/src/syscalls/macros.rs, exec.S), decoding and
    validation in the kernel (kernel/src/syscalls.rs) and the way results travel
    back (kernel/src/arch/x86_64/syscall.rs).  The handlers themselves are an
    arbitrary function of the decoded call. *)
From Verif Require Import Base.

(** 64-bit wrap-around of usize/u64 arithmetic. *)
Definition w64 (x : N) : N := (x mod 2^64)%N.

(** KERNEL_BASE, lib/kpi/src/lib.rs:31. *)
Definition kernel_base : N := 0x400000000000.
(** BASE_PAGE_SIZE, from the x86 crate, used in kernel/src/process.rs:820. *)
Definition page_sz : N := 4096.
(** i32::MAX, kernel/src/process.rs:813. *)
Definition i32_max : N := 2147483647.
(** MAX_PROCESSES = 12, kernel/src/process.rs:54. *)
Definition max_processes : N := 12.
(** MAX_FILES_PER_PROCESS = 4096, kernel/src/fs/mod.rs. *)
Definition max_fds : N := 4096.

(** ** Operation codes: the [#[repr(u64)]] discriminants and the [new] decoders *)

(** SystemCall, lib/kpi/src/lib.rs:271-296. *)
Inductive syscall := SysSystem | SysProcess | SysVSpace | SysFileIO | SysTest.
(** discriminants, lib/kpi/src/lib.rs:277-283 ([as u64]). *)
Definition syscall_num (c : syscall) : N :=
  match c with
  | SysSystem => 1 | SysProcess => 2 | SysVSpace => 3 | SysFileIO => 4 | SysTest => 5
  end.
(** SystemCall::new, lib/kpi/src/lib.rs:285-296. *)
Definition syscall_new (n : N) : option syscall :=
  match n with
  | 1 => Some SysSystem | 2 => Some SysProcess | 3 => Some SysVSpace
  | 4 => Some SysFileIO | 5 => Some SysTest | _ => None
  end%N.

(** ProcessOperation, lib/kpi/src/lib.rs:83-107. *)
Inductive procop :=
| PoExit | PoLog | PoGetVCpuArea | PoAllocateVector | PoSubscribeEvent
| PoGetProcessInfo | PoRequestCore | PoReleaseCore | PoAllocatePhysical | PoReleasePhysical.
(** discriminants, lib/kpi/src/lib.rs:86-107. *)
Definition procop_num (o : procop) : N :=
  match o with
  | PoExit => 1 | PoLog => 2 | PoGetVCpuArea => 3 | PoAllocateVector => 4
  | PoSubscribeEvent => 5 | PoGetProcessInfo => 6 | PoRequestCore => 7
  | PoReleaseCore => 8 | PoAllocatePhysical => 9 | PoReleasePhysical => 10
  end.
(** ProcessOperation::new, lib/kpi/src/lib.rs:110-126. *)
Definition procop_new (n : N) : option procop :=
  match n with
  | 1 => Some PoExit | 2 => Some PoLog | 3 => Some PoGetVCpuArea
  | 4 => Some PoAllocateVector | 5 => Some PoSubscribeEvent
  | 6 => Some PoGetProcessInfo | 7 => Some PoRequestCore | 8 => Some PoReleaseCore
  | 9 => Some PoAllocatePhysical | 10 => Some PoReleasePhysical | _ => None
  end%N.

(** VSpaceOperation, lib/kpi/src/lib.rs:139-158. *)
Inductive vsop :=
| VoMapMem | VoUnmapMem | VoMapDevice | VoMapMemFrame | VoIdentify | VoMapPMem | VoUnmapPMem.
(** discriminants, lib/kpi/src/lib.rs:142-157. *)
Definition vsop_num (o : vsop) : N :=
  match o with
  | VoMapMem => 1 | VoUnmapMem => 2 | VoMapDevice => 3 | VoMapMemFrame => 4
  | VoIdentify => 5 | VoMapPMem => 6 | VoUnmapPMem => 7
  end.
(** VSpaceOperation::new, lib/kpi/src/lib.rs:160-174. *)
Definition vsop_new (n : N) : option vsop :=
  match n with
  | 1 => Some VoMapMem | 2 => Some VoUnmapMem | 3 => Some VoMapDevice
  | 4 => Some VoMapMemFrame | 5 => Some VoIdentify | 6 => Some VoMapPMem
  | 7 => Some VoUnmapPMem | _ => None
  end%N.

(** FileOperation, lib/kpi/src/lib.rs:177-201. *)
Inductive fileop :=
| FoOpen | FoRead | FoReadAt | FoWrite | FoWriteAt | FoClose | FoGetInfo | FoDelete
| FoRename | FoMkDir.
(** discriminants, lib/kpi/src/lib.rs:180-200. *)
Definition fileop_num (o : fileop) : N :=
  match o with
  | FoOpen => 1 | FoRead => 2 | FoReadAt => 3 | FoWrite => 4 | FoWriteAt => 5
  | FoClose => 6 | FoGetInfo => 7 | FoDelete => 8 | FoRename => 9 | FoMkDir => 10
  end.
(** FileOperation::new, lib/kpi/src/lib.rs:203-220. *)
Definition fileop_new (n : N) : option fileop :=
  match n with
  | 1 => Some FoOpen | 2 => Some FoRead | 3 => Some FoReadAt | 4 => Some FoWrite
  | 5 => Some FoWriteAt | 6 => Some FoClose | 7 => Some FoGetInfo | 8 => Some FoDelete
  | 9 => Some FoRename | 10 => Some FoMkDir | _ => None
  end%N.

(** SystemOperation, lib/kpi/src/lib.rs:222-245. *)
Inductive sysop := SoGetHardwareThreads | SoStats | SoGetCoreID.
(** discriminants, lib/kpi/src/lib.rs:225-233. *)
Definition sysop_num (o : sysop) : N :=
  match o with SoGetHardwareThreads => 1 | SoStats => 2 | SoGetCoreID => 3 end.
(** SystemOperation::new, lib/kpi/src/lib.rs:235-245. *)
Definition sysop_new (n : N) : option sysop :=
  match n with
  | 1 => Some SoGetHardwareThreads | 2 => Some SoStats | 3 => Some SoGetCoreID
  | _ => None
  end%N.

(** ** Argument types *)

(** UserSlice, kernel/src/process.rs:801-806. *)
Record uslice := mkUS { us_pid : N; us_base : N; us_len : N }.

(** UVAddr::try_from, kernel/src/process.rs:630-665. *)
Definition uvaddr_try_from (va : N) : res N :=
  if (va <? kernel_base)%N then Ok va else Err NotAUserVAddr.

(** UserSlice::new, kernel/src/process.rs:811-824.  [dbg] says whether debug
    assertions are compiled in; [base] is the content of an UVAddr. *)
Definition us_new (dbg : bool) (pid base len : N) : res uslice :=
  if dbg && negb (pid <? max_processes)%N then Panic
  else if (i32_max <? len)%N then Err UserBufferTooLarge
  else if (base + len <? 2^64)%N && (page_sz <=? base)%N && (base + len <? kernel_base)%N
  then Ok (mkUS pid base len)
  else Err InvalidUserBufferArgs.

(** UserSlice::for_current_proc, kernel/src/process.rs:830-838.  [cur] is the
    outcome of current_pid() (kernel/src/arch/x86_64/process.rs). *)
Definition us_for_current (dbg : bool) (cur : res N) (base len : N) : res uslice :=
  match cur with
  | Ok pid =>
      match uvaddr_try_from base with
      | Ok b => us_new dbg pid b len
      | Err e => Err e
      | Panic => Panic
      end
  | Err e => Err e
  | Panic => Panic
  end.

(** FileDescriptor::try_from, kernel/src/fs/fd.rs:34-45. *)
Definition fd_try_from (v : N) : res N :=
  if (v <? max_fds)%N then Ok v else Err FileDescriptorTooLarge.

(** FileFlags::from(u64) = from_bits_truncate, lib/kpi/src/io.rs:34-60: the union
    of the declared flags is 0x2603. *)
Definition flags_from (v : N) : N := N.land v 0x2603.

(** FileModes::from(u64) = from_bits_truncate, lib/kpi/src/io.rs: mask 7 (S_IRWXU). *)
Definition modes_from (v : N) : N := N.land v 7.

(** u64 -> i64 try_into, kernel/src/syscalls.rs:80 and 85. *)
Definition i64_try_from (v : N) : res Z :=
  if (v <? 2^63)%N then Ok (Z.of_N v) else Err TryFromIntError.

(** A decoded call: one constructor per handler method of FsDispatch (syscalls.rs:20-31),
    ProcessDispatch (107-117), VSpaceDispatch (161-169), SystemDispatch (202-206) and
    TestDispatch (237-239). *)
Inductive kcall :=
| KOpen (path : uslice) (flags modes : N)
| KRead (fd : N) (buf : uslice)
| KWrite (fd : N) (buf : uslice)
| KReadAt (fd : N) (buf : uslice) (off : Z)
| KWriteAt (fd : N) (buf : uslice) (off : Z)
| KClose (fd : N)
| KGetInfo (path : uslice)
| KDelete (path : uslice)
| KRename (old new : uslice)
| KMkDir (path : uslice) (modes : N)
| KExit (code : N)
| KLog (buf : uslice)
| KGetVCpuArea
| KAllocateVector (vector core : N)
| KGetProcessInfo (buf len : N)
| KRequestCore (core entry : N)
| KReleaseCore (core : N)
| KAllocatePhysical (page_size affinity : N)
| KReleasePhysical (fid : N)
| KMapMem (base size : N)
| KMapPMem (base size : N)
| KMapDevice (base size : N)
| KMapFrameId (base fid : N)
| KUnmapMem (base : N)
| KUnmapPMem (base : N)
| KIdentify (addr : N)
| KGetHardwareThreads (buf len : N)
| KStats
| KGetCoreID
| KTest (nargs a1 a2 a3 a4 : N).

Definition rbind {A B} (r : res A) (f : A -> res B) : res B :=
  match r with Ok a => f a | Err e => Err e | Panic => Panic end.
Notation "'let?' x := r 'in' k" := (rbind r (fun x => k))
  (at level 200, x name, r at level 100, k at level 200).

(** FileOperationArgs::validate and the dispatch in fileio,
    kernel/src/syscalls.rs:50-105 and 303-318.  Argument checks happen in the
    order in which Rust evaluates the constructor arguments. *)
Definition decode_file (dbg : bool) (cur : res N) (a1 a2 a3 a4 a5 : N) : res kcall :=
  match fileop_new a1 with
  | None => Err InvalidFileOperation
  | Some FoOpen =>
      let? s := us_for_current dbg cur a2 a3 in Ok (KOpen s (flags_from a4) (modes_from a5))
  | Some FoRead =>
      let? fd := fd_try_from a2 in
      let? s := us_for_current dbg cur a3 a4 in Ok (KRead fd s)
  | Some FoWrite =>
      let? fd := fd_try_from a2 in
      let? s := us_for_current dbg cur a3 a4 in Ok (KWrite fd s)
  | Some FoReadAt =>
      let? fd := fd_try_from a2 in
      let? s := us_for_current dbg cur a3 a4 in
      let? o := i64_try_from a5 in Ok (KReadAt fd s o)
  | Some FoWriteAt =>
      let? fd := fd_try_from a2 in
      let? s := us_for_current dbg cur a3 a4 in
      let? o := i64_try_from a5 in Ok (KWriteAt fd s o)
  | Some FoClose => let? fd := fd_try_from a2 in Ok (KClose fd)
  | Some FoGetInfo => let? s := us_for_current dbg cur a2 a3 in Ok (KGetInfo s)
  | Some FoDelete => let? s := us_for_current dbg cur a2 a3 in Ok (KDelete s)
  | Some FoRename =>
      let? s := us_for_current dbg cur a2 a3 in
      let? t := us_for_current dbg cur a4 a5 in Ok (KRename s t)
  | Some FoMkDir =>
      let? s := us_for_current dbg cur a2 a3 in Ok (KMkDir s (modes_from a4))
  end.

(** ProcessOperationArgs::validate and process, kernel/src/syscalls.rs:132-158, 265-284. *)
Definition decode_process (dbg : bool) (cur : res N) (a1 a2 a3 : N) : res kcall :=
  match procop_new a1 with
  | None => Err InvalidProcessOperation
  | Some PoLog => let? s := us_for_current dbg cur a2 a3 in Ok (KLog s)
  | Some PoGetVCpuArea => Ok KGetVCpuArea
  | Some PoAllocateVector => Ok (KAllocateVector a2 a3)
  | Some PoExit => Ok (KExit a2)
  | Some PoGetProcessInfo => Ok (KGetProcessInfo a2 a3)
  | Some PoRequestCore => Ok (KRequestCore a2 a3)
  | Some PoReleaseCore => Ok (KReleaseCore a2)
  | Some PoAllocatePhysical => Ok (KAllocatePhysical a2 a3)
  | Some PoReleasePhysical => Ok (KReleasePhysical a2)
  | Some PoSubscribeEvent => Err InvalidProcessOperation
  end.

(** VSpaceOperationArgs::validate and vspace, kernel/src/syscalls.rs:182-199, 286-301. *)
Definition decode_vspace (a1 a2 a3 : N) : res kcall :=
  match vsop_new a1 with
  | None => Err InvalidVSpaceOperation
  | Some VoMapMem => Ok (KMapMem a2 a3)
  | Some VoMapPMem => Ok (KMapPMem a2 a3)
  | Some VoMapDevice => Ok (KMapDevice a2 a3)
  | Some VoMapMemFrame => Ok (KMapFrameId a2 a3)
  | Some VoUnmapMem => Ok (KUnmapMem a2)
  | Some VoUnmapPMem => Ok (KUnmapPMem a2)
  | Some VoIdentify => Ok (KIdentify a2)
  end.

(** SystemOperationArgs::validate and system, kernel/src/syscalls.rs:216-229, 254-263. *)
Definition decode_system (a1 a2 a3 : N) : res kcall :=
  match sysop_new a1 with
  | None => Err InvalidSystemOperation
  | Some SoGetHardwareThreads => Ok (KGetHardwareThreads a2 a3)
  | Some SoStats => Ok KStats
  | Some SoGetCoreID => Ok KGetCoreID
  end.

(** SystemCallDispatch::handle, kernel/src/syscalls.rs:241-252. *)
Definition decode (dbg : bool) (cur : res N) (f a1 a2 a3 a4 a5 : N) : res kcall :=
  match syscall_new f with
  | None => Err InvalidSyscallArgument1
  | Some SysSystem => decode_system a1 a2 a3
  | Some SysProcess => decode_process dbg cur a1 a2 a3
  | Some SysVSpace => decode_vspace a1 a2 a3
  | Some SysFileIO => decode_file dbg cur a1 a2 a3 a4 a5
  | Some SysTest => Ok (KTest a1 a2 a3 a4 a5)
  end.

(** Rust [+] and [*] on u64: panic on overflow with debug assertions, wrap without. *)
Definition u64_op (dbg : bool) (x : N) : res N :=
  if (x <? 2^64)%N then Ok x else if dbg then Panic else Ok (w64 x).

(** Error values of the test call, kernel/src/error.rs: InvalidSyscallTestArg2/3/4 are
    represented by [InvalidSyscallArgument1]'s neighbour [NotSupported]; all of them
    become InternalError (error.rs:286). *)
(** TestDispatch::test, kernel/src/syscalls.rs:321-352. *)
Definition test_call (dbg : bool) (nargs a1 a2 a3 a4 : N) : res (N * N) :=
  match nargs with
  | 0 => Ok (1, 2)
  | 1 => let? s := u64_op dbg (a1 + 1) in Ok (a1, s)
  | 2 =>
      if (a1 <? a2) then
        let? r := u64_op dbg (a1 * a2) in let? s := u64_op dbg (r + 1) in Ok (r, s)
      else Err NotSupported
  | 3 =>
      if (a1 <? a2) && (a2 <? a3) then
        let? p := u64_op dbg (a1 * a2) in let? r := u64_op dbg (p * a3) in
        let? s := u64_op dbg (r + 1) in Ok (r, s)
      else Err NotSupported
  | 4 =>
      let? p := u64_op dbg (a1 * a2) in let? q := u64_op dbg (p * a3) in
      let? r := u64_op dbg (q * a4) in
      if (a1 <? a2) && (a2 <? a3) && (a3 <? a4) then
        let? s := u64_op dbg (r + 1) in Ok (r, s)
      else Err NotSupported
  | _ => Err InvalidSyscallArgument1
  end%N.

(** ** Registers and errors *)

(** The six argument registers, lib/kpi/src/syscalls/macros.rs:113-418. *)
Record regs := mkR { rdi : N; rsi : N; rdx : N; r10 : N; r8 : N; r9 : N }.

(** SystemCallError, lib/kpi/src/lib.rs:33-61. *)
Inductive scerr :=
| ScOk | ScNotLogged | ScNotSupported | ScVSpaceAlreadyMapped | ScOutOfMemory
| ScInternalError | ScBadAddress | ScBadFileDescriptor | ScBadFlags | ScPermissionError
| ScOffsetError | ScUnknown.
Global Instance scerr_eq_dec : EqDecision scerr.
Proof. solve_decision. Defined.

(** discriminants ([err as u64]), lib/kpi/src/lib.rs:36-60. *)
Definition scerr_num (e : scerr) : N :=
  match e with
  | ScOk => 0 | ScNotLogged => 1 | ScNotSupported => 2 | ScVSpaceAlreadyMapped => 3
  | ScOutOfMemory => 4 | ScInternalError => 5 | ScBadAddress => 6
  | ScBadFileDescriptor => 7 | ScBadFlags => 8 | ScPermissionError => 9
  | ScOffsetError => 10 | ScUnknown => 11
  end.

(** SystemCallError::from(u64), lib/kpi/src/lib.rs:63-80. *)
Definition scerr_from (n : N) : scerr :=
  match n with
  | 1 => ScNotLogged | 2 => ScNotSupported | 3 => ScVSpaceAlreadyMapped
  | 4 => ScOutOfMemory | 5 => ScInternalError | 6 => ScBadAddress
  | 7 => ScBadFileDescriptor | 8 => ScBadFlags | 9 => ScPermissionError
  | 10 => ScOffsetError | _ => ScUnknown
  end%N.

(** SystemCallError::from(KError), kernel/src/error.rs:273-288. *)
Definition scerr_of_kerror (e : kerror) : scerr :=
  match e with
  | InvalidSyscallArgument1 | InvalidVSpaceOperation | InvalidProcessOperation => ScNotSupported
  | BadAddress => ScBadAddress
  | _ => ScInternalError
  end.

(** syscall_enter (kernel/src/arch/x86_64/exec.S:14-68: %r10 becomes the fourth C
    argument) and syscall_handle (kernel/src/arch/x86_64/syscall.rs:494-546): run the
    handler and leave (rax, rdi, rsi) for the process; on an error only rax is written,
    the other registers keep the values saved on entry (set_syscall_*,
    lib/kpi/src/x86_64.rs:393-409).  [h] stands for all handlers. *)
Definition kernel_entry (dbg : bool) (cur : res N) (h : kcall -> res (N * N)) (r : regs)
  : res (N * N * N) :=
  match (let? k := decode dbg cur (rdi r) (rsi r) (rdx r) (r10 r) (r8 r) (r9 r) in h k) with
  | Ok (x1, x2) => Ok (scerr_num ScOk, x1, x2)
  | Err e => Ok (scerr_num (scerr_of_kerror e), rdi r, rsi r)
  | Panic => Panic
  end.

(** ** User-level stubs *)

(** The calls offered by lib/kpi/src/syscalls/{io,memory,process,system}.rs. *)
Inductive ucall :=
| UIrqAlloc (vec core : N)
| UOpen (ptr len flags modes : N)
| UClose (fd : N)
| URead (fd ptr len : N)
| UWrite (fd ptr len : N)
| UReadAt (fd ptr len : N) (off : Z)
| UWriteAt (fd ptr len : N) (off : Z)
| UGetInfo (ptr len : N)
| UDelete (ptr len : N)
| URename (optr olen nptr nlen : N)
| UMkDir (ptr len modes : N)
| UMap (base bound : N)
| UUnmap (base bound : N)
| UMapPMem (base bound : N)
| UUnmapPMem (base bound : N)
| UMapDevice (base bound : N)
| UMapFrame (fid base : N)
| UIdentify (base : N)
| UAllocBasePage
| UAllocLargePage
| UReleaseFrame (fid : N)
| URequestCore (core entry : N)
| UReleaseCore (core : N)
| UPrint (ptr len : N)
| UVCpu
| UProcessInfo (ptr len : N)
| UExit (code : N)
| UThreads (ptr len : N)
| UStats
| UCoreId.

(** Either the stub fails before entering the kernel or it loads registers. *)
Inductive stub_out := SFail (e : scerr) | SRegs (r : regs).

(** The syscall_n_m functions load the first n argument registers in the order
    rdi, rsi, rdx, r10, r8, r9 (macros.rs:113-418); the others keep whatever
    they held ([g]). *)
Definition load2 (g : regs) (a b : N) : regs := mkR a b (rdx g) (r10 g) (r8 g) (r9 g).
(** syscall_3_*, macros.rs:198-252. *)
Definition load3 (g : regs) (a b c : N) : regs := mkR a b c (r10 g) (r8 g) (r9 g).
(** syscall_4_*, macros.rs:255-312. *)
Definition load4 (g : regs) (a b c d : N) : regs := mkR a b c d (r8 g) (r9 g).
(** syscall_5_*, macros.rs:315-358. *)
Definition load5 (g : regs) (a b c d e : N) : regs := mkR a b c d e (r9 g).

(** [offset as u64] for an i64, lib/kpi/src/syscalls/io.rs:164. *)
Definition i64_as_u64 (z : Z) : N := Z.to_N (z mod 2^64).

(** Fs::fileio, io.rs:98-113. *)
Definition stub_fileio (g : regs) (op : fileop) (fd ptr len : N) : stub_out :=
  if (len =? 0)%N then SFail ScBadFileDescriptor
  else SRegs (load5 g (syscall_num SysFileIO) (fileop_num op) fd ptr len).

(** Fs::fileio_at, io.rs:136-176. *)
Definition stub_fileio_at (g : regs) (op : fileop) (fd ptr len : N) (off : Z) : stub_out :=
  if (len =? 0)%N then SFail ScBadFileDescriptor
  else if (off =? -1)%Z then
    match op with
    | FoReadAt => SFail ScOffsetError
    | _ => stub_fileio g FoWrite fd ptr len
    end
  else SRegs (mkR (syscall_num SysFileIO) (fileop_num op) fd ptr len (i64_as_u64 off)).

(** VSpace::vspace, memory.rs:87-92. *)
Definition stub_vspace (g : regs) (op : vsop) (base bound : N) : stub_out :=
  SRegs (load4 g (syscall_num SysVSpace) (vsop_num op) base bound).

(** The argument side of every stub: io.rs:17-232, memory.rs:18-162,
    process.rs:16-131, system.rs:17-80. *)
Definition stub (g : regs) (u : ucall) : stub_out :=
  match u with
  | UIrqAlloc vec core =>
      SRegs (load4 g (syscall_num SysProcess) (procop_num PoAllocateVector) vec core)
  | UOpen ptr len flags modes =>
      SRegs (mkR (syscall_num SysFileIO) (fileop_num FoOpen) ptr len flags modes)
  | UClose fd => SRegs (load3 g (syscall_num SysFileIO) (fileop_num FoClose) fd)
  | URead fd ptr len => stub_fileio g FoRead fd ptr len
  | UWrite fd ptr len => stub_fileio g FoWrite fd ptr len
  | UReadAt fd ptr len off => stub_fileio_at g FoReadAt fd ptr len off
  | UWriteAt fd ptr len off => stub_fileio_at g FoWriteAt fd ptr len off
  | UGetInfo ptr len => SRegs (load4 g (syscall_num SysFileIO) (fileop_num FoGetInfo) ptr len)
  | UDelete ptr len => SRegs (load4 g (syscall_num SysFileIO) (fileop_num FoDelete) ptr len)
  | URename optr olen nptr nlen =>
      SRegs (mkR (syscall_num SysFileIO) (fileop_num FoRename) optr olen nptr nlen)
  | UMkDir ptr len modes =>
      SRegs (load5 g (syscall_num SysFileIO) (fileop_num FoMkDir) ptr len modes)
  | UMap base bound => stub_vspace g VoMapMem base bound
  | UUnmap base bound => stub_vspace g VoUnmapMem base bound
  | UMapPMem base bound => stub_vspace g VoMapPMem base bound
  | UUnmapPMem base bound => stub_vspace g VoUnmapPMem base bound
  | UMapDevice base bound => stub_vspace g VoMapDevice base bound
  | UMapFrame fid base =>
      SRegs (load4 g (syscall_num SysVSpace) (vsop_num VoMapMemFrame) base fid)
  | UIdentify base => stub_vspace g VoIdentify base 0
  | UAllocBasePage =>
      SRegs (load3 g (syscall_num SysProcess) (procop_num PoAllocatePhysical) 4096)
  | UAllocLargePage =>
      SRegs (load3 g (syscall_num SysProcess) (procop_num PoAllocatePhysical) 2097152)
  | UReleaseFrame fid =>
      SRegs (load3 g (syscall_num SysProcess) (procop_num PoReleasePhysical) fid)
  | URequestCore core entry =>
      SRegs (load4 g (syscall_num SysProcess) (procop_num PoRequestCore) core entry)
  | UReleaseCore core =>
      SRegs (load3 g (syscall_num SysProcess) (procop_num PoReleaseCore) core)
  | UPrint ptr len => SRegs (load4 g (syscall_num SysProcess) (procop_num PoLog) ptr len)
  | UVCpu => SRegs (load2 g (syscall_num SysProcess) (procop_num PoGetVCpuArea))
  | UProcessInfo ptr len =>
      SRegs (load4 g (syscall_num SysProcess) (procop_num PoGetProcessInfo) ptr len)
  | UExit code => SRegs (load3 g (syscall_num SysProcess) (procop_num PoExit) code)
  | UThreads ptr len =>
      SRegs (load4 g (syscall_num SysSystem) (sysop_num SoGetHardwareThreads) ptr len)
  | UStats => SRegs (load2 g (syscall_num SysSystem) (sysop_num SoStats))
  | UCoreId => SRegs (load2 g (syscall_num SysSystem) (sysop_num SoGetCoreID))
  end.

(** What a stub hands to its caller: the two returned words or an error. *)
Inductive uresult := UOk (r1 r2 : N) | UErr (e : scerr) | UPanic.

(** The result side common to the stubs: [if r == 0 { Ok(..) } else { Err(from(r)) }],
    e.g. io.rs:60-64; delete also requires the first word to be 0 (io.rs:207-211).
    Dropped: the sanity assertions on returned words (io.rs:28-29, memory.rs:104). *)
Definition stub_result (u : ucall) (rax ret1 ret2 : N) : uresult :=
  match u with
  | UDelete _ _ =>
      if (rax =? 0)%N && (ret1 =? 0)%N then UOk ret1 ret2 else UErr (scerr_from rax)
  | _ => if (rax =? 0)%N then UOk ret1 ret2 else UErr (scerr_from rax)
  end.

(** One user-level call end to end (not UExit, which does not return).  [UPanic] is a
    kernel panic. *)
Definition ucall_run (dbg : bool) (cur : res N) (h : kcall -> res (N * N)) (g : regs)
    (u : ucall) : uresult :=
  match stub g u with
  | SFail e => UErr e
  | SRegs r =>
      match kernel_entry dbg cur h r with
      | Ok (rax, x1, x2) => stub_result u rax x1 x2
      | _ => UPanic
      end
  end.

(** ** User slices *)

(** Access rights as far as is_accessible looks at them: (is_readable, is_writable),
    kernel/src/memory/vspace.rs:318-326. *)
(** The loop of UserSlice::is_accessible, kernel/src/process.rs:867-881, over
    [(start..end).step_by(4096)]; [fuel] bounds the number of iterations and is
    instantiated with their exact number. [resolve] is AddressSpace::resolve reduced to
    (is_readable, is_writable). *)
Fixpoint check_pages (resolve : N -> res (bool * bool)) (wr : bool) (fuel : nat) (a e : N)
  : res unit :=
  match fuel with
  | O => Ok tt
  | S fuel =>
      if (a <? e)%N then
        let? u := uvaddr_try_from a in
        let? rw := resolve u in
        if wr && negb rw.2 then Err UserPtMissingWriteAccess
        else if negb wr && negb rw.1 then Err UserPtMissingReadAccess
        else check_pages resolve wr fuel (a + page_sz)%N e
      else Ok tt
  end.

(** [base & !(BASE_PAGE_SIZE - 1)], process.rs:867. *)
Definition page_base (a : N) : N := (a - a mod page_sz)%N.

(** UserSlice::is_accessible, kernel/src/process.rs:846-884. [procpid] and [resolve]
    describe the process argument; when current_pid() fails the second check is
    skipped. *)
Definition is_accessible (cur : res N) (procpid : N) (resolve : N -> res (bool * bool))
    (s : uslice) (wr : bool) : res unit :=
  if negb (us_pid s =? procpid)%N then Err PidMismatchInProcessArgument
  else if match cur with Ok p => negb (p =? procpid)%N | _ => false end
  then Err NotInRightAddressSpaceForReading
  else
    let start := page_base (us_base s) in
    let e := (us_base s + us_len s)%N in
    check_pages resolve wr (N.to_nat ((e - start) / page_sz + 1)) start e.

(** UserSlice::with_slice, process.rs:887-900: [f] gets the byte range. *)
Definition with_slice {R} cur procpid resolve (s : uslice) (f : N -> N -> res R) : res R :=
  let? _u := is_accessible cur procpid resolve s false in f (us_base s) (us_len s).

(** UserSlice::with_slice_mut, process.rs:904-955: also checks with [writeable = false]. *)
Definition with_slice_mut {R} cur procpid resolve (s : uslice) (f : N -> N -> res R) : res R :=
  let? _u := is_accessible cur procpid resolve s false in f (us_base s) (us_len s).

(** UserSlice::subslice, process.rs:961-971; [end - start] panics on underflow with
    debug assertions and wraps without. *)
Definition us_subslice (dbg : bool) (s : uslice) (st e : N) : res uslice :=
  if (us_len s <? st)%N || (us_len s <? e)%N then Panic
  else
    match uvaddr_try_from (us_base s + st) with
    | Ok b =>
        if (st <=? e)%N then Ok (mkUS (us_pid s) b (e - st))
        else if dbg then Panic
        else Ok (mkUS (us_pid s) b (e + 2^64 - st))
    | _ => Panic
    end.

(** SliceAccess::write_subslice for UserSlice, process.rs:984-991, up to the call of
    write_slice: the sub-slice it writes to.  [blen] is buffer.len(); the addition
    panics or wraps on overflow. *)
Definition us_write_subslice (dbg : bool) (s : uslice) (blen off : N) : res uslice :=
  let? sum := u64_op dbg (off + blen) in
  if (us_len s <? sum)%N then Err InvalidOffset
  else us_subslice dbg s off sum.

(** ** Global thread ids, lib/kpi/src/system.rs:20-33 *)

(** new_gtid, system.rs:20-23 ([<<] drops bits shifted out). *)
Definition new_gtid (mtid mid : N) : N := N.lor (w64 (N.shiftl mid 32)) mtid.
(** mtid_from_gtid, system.rs:25-28. *)
Definition mtid_from_gtid (g : N) : N := N.shiftr (w64 (N.shiftl g 32)) 32.
(** mid_from_gtid, system.rs:30-33. *)
Definition mid_from_gtid (g : N) : N := N.shiftr g 32.

(** MAX_CORES_PER_MACHINE = 24, MAX_MACHINES = 4, MAX_CORES = 96,
    lib/kpi/src/process.rs:14-22. *)
Definition max_cores_per_machine : N := 24.
Definition max_machines : N := 4.
Definition max_cores : N := 96.

(** core_id_to_index, lib/lineup/src/lib.rs:31-43. *)
Definition core_id_to_index (c : N) : N :=
  if (mid_from_gtid c =? 0)%N then c
  else (max_cores_per_machine * (mid_from_gtid c - 1) + mtid_from_gtid c)%N.
