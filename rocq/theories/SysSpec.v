(** Specification of the system call interface, written with literal numbers: which
    register contents mean which request, and which kernel request each user-level
    function stands for. *)
From Verif Require Import Base SysModel.

(** A buffer a process may pass: above the null page, at most 2 GiB - 1 long and ending
    below the kernel. *)
Definition user_buffer (base len : N) : Prop :=
  (4096 <= base /\ base + len < 70368744177664 /\ len <= 2147483647)%N.

(** [accepts pid f a1 a2 a3 a4 a5 k]: with these register contents process [pid] asks for
    [k].  This is the documented table of operation codes. *)
Inductive accepts (pid : N) : N -> N -> N -> N -> N -> N -> kcall -> Prop :=
| acc_threads a2 a3 a4 a5 : accepts pid 1 1 a2 a3 a4 a5 (KGetHardwareThreads a2 a3)
| acc_stats a2 a3 a4 a5 : accepts pid 1 2 a2 a3 a4 a5 KStats
| acc_coreid a2 a3 a4 a5 : accepts pid 1 3 a2 a3 a4 a5 KGetCoreID
| acc_exit a2 a3 a4 a5 : accepts pid 2 1 a2 a3 a4 a5 (KExit a2)
| acc_log a2 a3 a4 a5 : user_buffer a2 a3 -> accepts pid 2 2 a2 a3 a4 a5 (KLog (mkUS pid a2 a3))
| acc_vcpu a2 a3 a4 a5 : accepts pid 2 3 a2 a3 a4 a5 KGetVCpuArea
| acc_vector a2 a3 a4 a5 : accepts pid 2 4 a2 a3 a4 a5 (KAllocateVector a2 a3)
| acc_pinfo a2 a3 a4 a5 : accepts pid 2 6 a2 a3 a4 a5 (KGetProcessInfo a2 a3)
| acc_reqcore a2 a3 a4 a5 : accepts pid 2 7 a2 a3 a4 a5 (KRequestCore a2 a3)
| acc_relcore a2 a3 a4 a5 : accepts pid 2 8 a2 a3 a4 a5 (KReleaseCore a2)
| acc_allocphys a2 a3 a4 a5 : accepts pid 2 9 a2 a3 a4 a5 (KAllocatePhysical a2 a3)
| acc_relphys a2 a3 a4 a5 : accepts pid 2 10 a2 a3 a4 a5 (KReleasePhysical a2)
| acc_mapmem a2 a3 a4 a5 : accepts pid 3 1 a2 a3 a4 a5 (KMapMem a2 a3)
| acc_unmapmem a2 a3 a4 a5 : accepts pid 3 2 a2 a3 a4 a5 (KUnmapMem a2)
| acc_mapdev a2 a3 a4 a5 : accepts pid 3 3 a2 a3 a4 a5 (KMapDevice a2 a3)
| acc_mapframe a2 a3 a4 a5 : accepts pid 3 4 a2 a3 a4 a5 (KMapFrameId a2 a3)
| acc_identify a2 a3 a4 a5 : accepts pid 3 5 a2 a3 a4 a5 (KIdentify a2)
| acc_mappmem a2 a3 a4 a5 : accepts pid 3 6 a2 a3 a4 a5 (KMapPMem a2 a3)
| acc_unmappmem a2 a3 a4 a5 : accepts pid 3 7 a2 a3 a4 a5 (KUnmapPMem a2)
| acc_open a2 a3 a4 a5 : user_buffer a2 a3 ->
    accepts pid 4 1 a2 a3 a4 a5 (KOpen (mkUS pid a2 a3) (N.land a4 9731) (N.land a5 7))
| acc_read a2 a3 a4 a5 : (a2 < 4096)%N -> user_buffer a3 a4 ->
    accepts pid 4 2 a2 a3 a4 a5 (KRead a2 (mkUS pid a3 a4))
| acc_readat a2 a3 a4 a5 : (a2 < 4096)%N -> user_buffer a3 a4 -> (a5 < 2^63)%N ->
    accepts pid 4 3 a2 a3 a4 a5 (KReadAt a2 (mkUS pid a3 a4) (Z.of_N a5))
| acc_write a2 a3 a4 a5 : (a2 < 4096)%N -> user_buffer a3 a4 ->
    accepts pid 4 4 a2 a3 a4 a5 (KWrite a2 (mkUS pid a3 a4))
| acc_writeat a2 a3 a4 a5 : (a2 < 4096)%N -> user_buffer a3 a4 -> (a5 < 2^63)%N ->
    accepts pid 4 5 a2 a3 a4 a5 (KWriteAt a2 (mkUS pid a3 a4) (Z.of_N a5))
| acc_close a2 a3 a4 a5 : (a2 < 4096)%N -> accepts pid 4 6 a2 a3 a4 a5 (KClose a2)
| acc_getinfo a2 a3 a4 a5 : user_buffer a2 a3 ->
    accepts pid 4 7 a2 a3 a4 a5 (KGetInfo (mkUS pid a2 a3))
| acc_delete a2 a3 a4 a5 : user_buffer a2 a3 ->
    accepts pid 4 8 a2 a3 a4 a5 (KDelete (mkUS pid a2 a3))
| acc_rename a2 a3 a4 a5 : user_buffer a2 a3 -> user_buffer a4 a5 ->
    accepts pid 4 9 a2 a3 a4 a5 (KRename (mkUS pid a2 a3) (mkUS pid a4 a5))
| acc_mkdir a2 a3 a4 a5 : user_buffer a2 a3 ->
    accepts pid 4 10 a2 a3 a4 a5 (KMkDir (mkUS pid a2 a3) (N.land a4 7))
| acc_test a1 a2 a3 a4 a5 : accepts pid 5 a1 a2 a3 a4 a5 (KTest a1 a2 a3 a4 a5).

(** What each user-level function asks the kernel to do.  [wf_ucall]: its arguments have
    the types and ranges the function can be used with. *)
Definition wf_ucall (u : ucall) : Prop :=
  match u with
  | UOpen p l fl m => user_buffer p l /\ N.land fl 9731 = fl /\ N.land m 7 = m
  | UClose fd => (fd < 4096)%N
  | URead fd p l | UWrite fd p l => (fd < 4096 /\ 0 < l)%N /\ user_buffer p l
  | UReadAt fd p l o | UWriteAt fd p l o =>
      (fd < 4096 /\ 0 < l)%N /\ user_buffer p l /\ (0 <= o < 2^63)%Z
  | UGetInfo p l | UDelete p l | UPrint p l => user_buffer p l
  | URename p l q m => user_buffer p l /\ user_buffer q m
  | UMkDir p l m => user_buffer p l /\ N.land m 7 = m
  | _ => True
  end.

(** The kernel request each function denotes. *)
Definition denotes (pid : N) (u : ucall) (k : kcall) : Prop :=
  match u with
  | UIrqAlloc v c => k = KAllocateVector v c
  | UOpen p l fl m => k = KOpen (mkUS pid p l) fl m
  | UClose fd => k = KClose fd
  | URead fd p l => k = KRead fd (mkUS pid p l)
  | UWrite fd p l => k = KWrite fd (mkUS pid p l)
  | UReadAt fd p l o => k = KReadAt fd (mkUS pid p l) o
  | UWriteAt fd p l o => k = KWriteAt fd (mkUS pid p l) o
  | UGetInfo p l => k = KGetInfo (mkUS pid p l)
  | UDelete p l => k = KDelete (mkUS pid p l)
  | URename p l q m => k = KRename (mkUS pid p l) (mkUS pid q m)
  | UMkDir p l m => k = KMkDir (mkUS pid p l) m
  | UMap b s => k = KMapMem b s
  | UUnmap b _ => k = KUnmapMem b
  | UMapPMem b s => k = KMapPMem b s
  | UUnmapPMem b _ => k = KUnmapPMem b
  | UMapDevice b s => k = KMapDevice b s
  | UMapFrame f b => k = KMapFrameId b f
  | UIdentify b => k = KIdentify b
  | UAllocBasePage => exists aff, k = KAllocatePhysical 4096 aff
  | UAllocLargePage => exists aff, k = KAllocatePhysical 2097152 aff
  | UReleaseFrame f => k = KReleasePhysical f
  | URequestCore c e => k = KRequestCore c e
  | UReleaseCore c => k = KReleaseCore c
  | UPrint p l => k = KLog (mkUS pid p l)
  | UVCpu => k = KGetVCpuArea
  | UProcessInfo p l => k = KGetProcessInfo p l
  | UExit c => k = KExit c
  | UThreads p l => k = KGetHardwareThreads p l
  | UStats => k = KStats
  | UCoreId => k = KGetCoreID
  end.

(** The error a process sees for a kernel error. *)
Definition reported (e : kerror) : scerr :=
  match e with
  | InvalidSyscallArgument1 | InvalidVSpaceOperation | InvalidProcessOperation => ScNotSupported
  | BadAddress => ScBadAddress
  | _ => ScInternalError
  end.
