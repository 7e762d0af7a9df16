(** Model of file system calls in a rack: the client stubs and the controller's handlers of
    kernel/src/arch/x86_64/rackscale/fileops/, on top of the RPC model (RpcModel) and of the
    file system of the controller (FsModel).  Executable definitions only. *)
From Verif Require Import Base FileModel RpcModel FsModel.

(** ** Encoding *)

(** The [k] bytes of an unsigned number in memory, least significant first.  abomonation's
    [encode] writes the bytes of a struct; all fields of the requests are 8 bytes long.
    Simplified: the fields are in the order of the declaration (the order in memory is
    rustc's choice, the same on client and controller). *)
Fixpoint enc_le (k : nat) (n : N) : list N :=
  match k with 0 => [] | S k => (n mod 256)%N :: enc_le k (n / 256) end.
Fixpoint num_of (b : list N) : N := match b with [] => 0 | x :: b => (x + 256 * num_of b)%N end.
Definition U64 : N := 2 ^ 64.
Definition le64 (n : N) : list N := enc_le 8 (n mod U64).
(** Field number [i] of a struct of 8-byte fields. *)
Definition field (i : nat) (buf : list N) : N := num_of (take 8 (drop (8 * i) buf)).
(** i64 as bits and back. *)
Definition of_i64 (z : Z) : N := Z.to_N (z mod 2 ^ 64).
Definition to_i64 (n : N) : Z :=
  if decide (n < 2 ^ 63)%N then Z.of_N n else (Z.of_N n - 2 ^ 64)%Z.

(** KError as a number and a payload (kernel/src/error.rs:17-200; the numbers are the
    model's). *)
Definition err_code (e : kerror) : N * N :=
  match e with
  | BadAddress => (1, 0) | CoreAlreadyAllocated => (2, 0) | CoreAllocatedToDifferentProcess => (3, 0)
  | CoreNotAllocated => (4, 0) | OutOfMemory => (5, 0) | ReplicaNotSet => (6, 0) | ProcessNotSet => (7, 0)
  | NotSupported => (8, 0) | OutOfPids => (9, 0) | NoExecutorForCore => (10, 0)
  | InvalidSyscallArgument1 => (11, 0) | InvalidVSpaceOperation => (12, 0) | InvalidProcessOperation => (13, 0)
  | InvalidSystemOperation => (14, 0) | InvalidFileOperation => (15, 0)
  | InvalidLayout => (16, 0) | CacheExhausted => (17, 0) | CacheFull => (18, 0) | CantGrowFurther c => (19, c)
  | NoProcessFoundForPid => (20, 0) | UnableToLoad => (21, 0) | NoExecutorAllocated => (22, 0)
  | ExecutorCacheExhausted => (23, 0) | InvalidGlobalThreadId => (24, 0)
  | NotEnoughMemory => (25, 0) | InvalidFrameId => (26, 0) | TooManyProcesses => (27, 0)
  | TooManyRegisteredFrames => (28, 0) | InvalidFileDescriptor => (29, 0) | InvalidFrame => (30, 0)
  | FrameStillMapped => (31, 0) | AlreadyMapped b => (32, b) | BaseOverflow b => (33, b)
  | NotMapped => (34, 0) | InvalidLength => (35, 0) | InvalidBase => (36, 0) | InvalidFile => (37, 0)
  | InvalidFlags => (38, 0) | InvalidOffset => (39, 0) | PermissionError => (40, 0) | AlreadyPresent => (41, 0)
  | DirectoryError => (42, 0) | OpenFileLimit => (43, 0) | FileDescForPidAlreadyAdded => (44, 0)
  | NoFileDescForPid => (45, 0) | InvalidUserBufferArgs => (46, 0) | NotAUserVAddr => (47, 0)
  | UserPtMissingReadAccess => (48, 0) | UserPtMissingWriteAccess => (49, 0)
  | NotInRightAddressSpaceForReading => (50, 0) | NotInRightAddressSpaceForWriting => (51, 0)
  | NotAValidUtf8String => (52, 0) | PidMismatchInProcessArgument => (53, 0)
  | SliceLengthMismatchForWriting => (54, 0) | UserBufferTooLarge => (55, 0) | TryFromIntError => (56, 0)
  | FileDescriptorTooLarge => (57, 0) | MalformedCmdLine => (58, 0) | InvalidCmdLineOptions => (59, 0)
  | DCMNotEnoughMemory => (60, 0) | RackscaleRPCError => (61, 0) | Base.NoHandlerForRPCType => (62, 0)
  | Base.DuplicateRPCType => (63, 0)
  end%N.
Definition all_errors : list kerror :=
  [ BadAddress; CoreAlreadyAllocated; CoreAllocatedToDifferentProcess; CoreNotAllocated; OutOfMemory;
    ReplicaNotSet; ProcessNotSet; NotSupported; OutOfPids; NoExecutorForCore; InvalidSyscallArgument1;
    InvalidVSpaceOperation; InvalidProcessOperation; InvalidSystemOperation; InvalidFileOperation;
    InvalidLayout; CacheExhausted; CacheFull; CantGrowFurther 0; NoProcessFoundForPid; UnableToLoad;
    NoExecutorAllocated; ExecutorCacheExhausted; InvalidGlobalThreadId; NotEnoughMemory; InvalidFrameId;
    TooManyProcesses; TooManyRegisteredFrames; InvalidFileDescriptor; InvalidFrame; FrameStillMapped;
    AlreadyMapped 0; BaseOverflow 0; NotMapped; InvalidLength; InvalidBase; InvalidFile; InvalidFlags;
    InvalidOffset; PermissionError; AlreadyPresent; DirectoryError; OpenFileLimit;
    FileDescForPidAlreadyAdded; NoFileDescForPid; InvalidUserBufferArgs; NotAUserVAddr;
    UserPtMissingReadAccess; UserPtMissingWriteAccess; NotInRightAddressSpaceForReading;
    NotInRightAddressSpaceForWriting; NotAValidUtf8String; PidMismatchInProcessArgument;
    SliceLengthMismatchForWriting; UserBufferTooLarge; TryFromIntError; FileDescriptorTooLarge;
    MalformedCmdLine; InvalidCmdLineOptions; DCMNotEnoughMemory; RackscaleRPCError;
    Base.NoHandlerForRPCType; Base.DuplicateRPCType ].
Definition err_of_code (c p : N) : option kerror :=
  match all_errors !! N.to_nat (c - 1) with
  | Some (CantGrowFurther _) => Some (CantGrowFurther p)
  | Some (AlreadyMapped _) => Some (AlreadyMapped p)
  | Some (BaseOverflow _) => Some (BaseOverflow p)
  | o => o
  end.

(** A value of type KResult<(u64, u64)> as bytes and back (kernelrpc.rs:93, 116): a tag (0
    for Ok) and two words.  None = not the bytes of such a value. *)
Definition KRES_SIZE : nat := 24.
Definition enc_kres (r : N * N + kerror) : list N :=
  match r with
  | inl (a, b) => le64 0 ++ le64 a ++ le64 b
  | inr e => let '(c, p) := err_code e in le64 c ++ le64 p ++ le64 0
  end.
Definition dec_kres (b : list N) : option (N * N + kerror) :=
  if decide (field 0 b = 0%N) then Some (inl (field 1 b, field 2 b))
  else inr <$> err_of_code (field 0 b) (field 1 b).

(** Strings as bytes. *)
Definition str_bytes (s : string) : list N := map Ascii.N_of_ascii (String.list_ascii_of_string s).
Definition bytes_str (b : list N) : string := String.string_of_list_ascii (map Ascii.ascii_of_N b).

(** core::str::from_utf8: the well-formed byte sequences (Unicode 15, table 3-7). *)
Definition between (lo hi x : N) : bool := (lo <=? x)%N && (x <=? hi)%N.
Definition cont (x : N) : bool := between 0x80 0xBF x.
Fixpoint utf8 (l : list N) : bool :=
  match l with
  | [] => true
  | a :: l1 =>
      if (a <? 0x80)%N then utf8 l1 else
      match l1 with
      | [] => false
      | b :: l2 =>
          if between 0xC2 0xDF a then cont b && utf8 l2 else
          match l2 with
          | [] => false
          | c :: l3 =>
              if between 0xE0 0xEF a then
                between (if (a =? 0xE0)%N then 0xA0 else 0x80) (if (a =? 0xED)%N then 0x9F else 0xBF) b
                && cont c && utf8 l3
              else
              match l3 with
              | [] => false
              | d :: l4 =>
                  between 0xF0 0xF4 a &&
                  between (if (a =? 0xF0)%N then 0x90 else 0x80) (if (a =? 0xF4)%N then 0x8F else 0xBF) b
                  && cont c && cont d && utf8 l4
              end
          end
      end
  end.

(** ** Calls *)

(** The file system calls of a process (syscalls.rs:223-290, [FsDispatch] of the rack-scale
    client); read and write at the cursor have the offset -1 (rw.rs:41, 90). *)
Inductive fcall :=
| COpen (pid : N) (path : string) (flags modes : N)
| CRead (pid : N) (fd : nat) (len : nat) (off : Z)
| CWrite (pid : N) (fd : nat) (d : list N) (off : Z)
| CClose (pid : N) (fd : nat)
| CInfo (pid : N) (path : string)
| CDelete (pid : N) (path : string)
| CRename (pid : N) (old new : string)
| CMkDir (pid : N) (path : string) (modes : N).

(** cnrfs.rs:430-433, 556-566: -1 is "at the cursor", anything else is cast to usize. *)
Definition off_of (z : Z) : option nat :=
  if decide (z = -1)%Z then None else Some (Z.to_nat (z mod 2 ^ 64)).

(** The request to the file system, cnrfs.rs:203-352. *)
Definition req_of (c : fcall) : req :=
  match c with
  | COpen pid path flags modes => ROpen pid path flags modes
  | CRead pid fd len off => RRead pid fd len (off_of off)
  | CWrite pid fd d off => RWrite pid fd d (off_of off)
  | CClose pid fd => RClose pid fd
  | CInfo pid path => RInfo pid path
  | CDelete pid path => RDelete pid path
  | CRename pid old new => RRename pid old new
  | CMkDir pid path modes => RMkDir pid path modes
  end.

(** What the functions of cnrfs.rs:203-352 make of the answer: two words or an error; None =
    panic. *)
Definition kres_of (r : res nresult) : option (N * N + kerror) :=
  match r with
  | Ok (FileOpened fd) => Some (inl (N.of_nat fd mod U64, 0)%N)
  | Ok (FileAccessed n) => Some (inl (N.of_nat n mod U64, 0)%N)
  | Ok (FileRed n _) => Some (inl (N.of_nat n mod U64, 0)%N)
  | Ok (FileInfoR i) => Some (inl (fi_type i mod U64, N.of_nat (fi_size i) mod U64)%N)
  | Ok _ => Some (inl (0, 0)%N)
  | Err e => Some (inr e)
  | Panic => None
  end.

(** ** The controller *)

(** State of the controller that the handlers use: the file system, the numbers of page
    buffers the heap can supply at the following requests, and memory shared with clients. *)
Record rack := mkRack { k_node : node; k_av : list nat; k_mem : N -> N }.

Definition fs_call (st : rack) (r : req) : res nresult * rack :=
  let '(o, n) := step (hd 0 (k_av st)) (k_node st) r in
  (o, mkRack n (tl (k_av st)) (k_mem st)).

Fixpoint mem_write (m : N -> N) (a : N) (d : list N) : N -> N :=
  match d with
  | [] => m
  | x :: d => fun b => if (b =? a)%N then x else mem_write m (a + 1) d b
  end.
Fixpoint mem_read (m : N -> N) (a : N) (k : nat) : list N :=
  match k with 0 => [] | S k => m a :: mem_read m (a + 1) k end.

(** construct_ret, kernelrpc.rs:95-118: the result is written over the beginning of the
    buffer and the length of the message set.  A panic of the handler is a failure that is
    never answered ([inr 0]); so is a buffer too small for the result ([unwrap]). *)
Definition construct_ret (st : rack) (h : rpchdr) (buf : list N) (r : option (N * N + kerror))
  : rack * (rpchdr * list N + nat) :=
  match r with
  | None => (st, inr 0)
  | Some r =>
      if decide (KRES_SIZE <= length buf) then
        (st, inl (mkHdr (r_id h mod 256) (r_type h mod 256) (N.of_nat KRES_SIZE), enc_kres r ++ drop KRES_SIZE buf))
      else (st, inr 0)
  end.

(** get_str_from_payload, fileops/mod.rs:73-82; allocation of the string succeeds. *)
Definition get_str (buf : list N) (start stop : nat) : res string :=
  if decide (start <= stop <= length buf) then
    let b := take (stop - start) (drop start buf) in
    if utf8 b then Ok (bytes_str b) else Err NotAValidUtf8String
  else Panic.

(** A handler that takes one path and calls the file system. *)
Definition with_path (st : rack) (h : rpchdr) (buf : list N) (start : nat) (mk : string -> req)
  : rack * (rpchdr * list N + nat) :=
  match get_str buf start (N.to_nat (r_len h)) with
  | Panic => (st, inr 0)
  | Err e => construct_ret st h buf (Some (inr e))
  | Ok path => let '(r, st') := fs_call st (mk path) in construct_ret st' h buf (kres_of r)
  end.

(** handle_open, open.rs:75-104: OpenReq is pid, flags, modes. *)
Definition handle_open : handler rack := fun st h buf =>
  with_path st h buf 24 (fun p => ROpen (field 0 buf) p (field 1 buf) (field 2 buf)).
(** handle_getinfo, getinfo.rs:55-78. *)
Definition handle_getinfo : handler rack := fun st h buf =>
  with_path st h buf 8 (fun p => RInfo (field 0 buf) p).
(** handle_delete, delete.rs:56-78. *)
Definition handle_delete : handler rack := fun st h buf =>
  with_path st h buf 8 (fun p => RDelete (field 0 buf) p).
(** handle_mkdir, mkdir.rs:62-86: MkDirReq is pid, modes. *)
Definition handle_mkdir : handler rack := fun st h buf =>
  with_path st h buf 16 (fun p => RMkDir (field 0 buf) p (field 1 buf)).
(** handle_close, close.rs:58-71. *)
Definition handle_close : handler rack := fun st h buf =>
  let '(r, st') := fs_call st (RClose (field 0 buf) (N.to_nat (field 1 buf))) in
  construct_ret st' h buf (kres_of r).
(** handle_rename, rename.rs:64-99: RenameReq is pid, oldname_len. *)
Definition handle_rename : handler rack := fun st h buf =>
  let l := N.to_nat (field 1 buf) in
  match get_str buf 16 (16 + l), get_str buf (16 + l) (N.to_nat (r_len h)) with
  | Panic, _ | _, Panic => (st, inr 0)
  | Err e, _ | _, Err e => construct_ret st h buf (Some (inr e))
  | Ok old, Ok new =>
      let '(r, st') := fs_call st (RRename (field 0 buf) old new) in construct_ret st' h buf (kres_of r)
  end.

(** KernelRpc, kernelrpc.rs:13-58 (those of the file system). *)
Definition RPC_OPEN : N := 1.
Definition RPC_READ : N := 2.
Definition RPC_READ_AT : N := 3.
Definition RPC_WRITE : N := 4.
Definition RPC_WRITE_AT : N := 5.
Definition RPC_CLOSE : N := 6.
Definition RPC_GET_INFO : N := 7.
Definition RPC_DELETE : N := 8.
Definition RPC_FILE_RENAME : N := 10.
Definition RPC_MK_DIR : N := 11.

(** handle_read, rw.rs:174-211: RWReq is pid, fd, shared_buf_ptr, len, offset.  The bytes
    go into the shared memory the request names.  Simplified: only the bytes that are
    counted in the result are written. *)
Definition handle_read : handler rack := fun st h buf =>
  let off := if decide (r_type h = RPC_READ_AT) then to_i64 (field 4 buf) else (-1)%Z in
  let '(r, st') := fs_call st (RRead (field 0 buf) (N.to_nat (field 1 buf)) (N.to_nat (field 3 buf)) (off_of off)) in
  let st2 := match r with
             | Ok (FileRed n d) => mkRack (k_node st') (k_av st') (mem_write (k_mem st') (field 2 buf) (take n d))
             | _ => st'
             end in
  construct_ret st2 h buf (kres_of r).

(** handle_write, rw.rs:214-244: [remaining[..req.len]] panics if out of bounds. *)
Definition handle_write : handler rack := fun st h buf =>
  let off := if decide (r_type h = RPC_WRITE) then (-1)%Z else to_i64 (field 4 buf) in
  let len := N.to_nat (field 3 buf) in
  if decide (40 + len <= length buf) then
    let '(r, st') := fs_call st (RWrite (field 0 buf) (N.to_nat (field 1 buf)) (take len (drop 40 buf)) (off_of off)) in
    construct_ret st' h buf (kres_of r)
  else (st, inr 0).

(** register_rpcs, controller.rs:157-186 (the file system's). *)
Definition file_rpcs : list (N * handler rack) :=
  [ (RPC_CLOSE, handle_close); (RPC_DELETE, handle_delete); (RPC_GET_INFO, handle_getinfo);
    (RPC_MK_DIR, handle_mkdir); (RPC_OPEN, handle_open); (RPC_FILE_RENAME, handle_rename);
    (RPC_WRITE, handle_write); (RPC_WRITE_AT, handle_write);
    (RPC_READ, handle_read); (RPC_READ_AT, handle_read) ].
Definition controller (st : rack) : server rack := (server_registers (server_new st) file_rpcs).1.

(** ** The client *)

(** RW_SHMEM_BUF_LEN, rw.rs:25. *)
Definition RW_SHMEM_BUF_LEN : nat := N.to_nat 8192.

(** The type and the slices of the request for a call; [ptr] is the address of the buffer
    the client shares with the controller.  None = assertion failure.  open.rs:43-57,
    rw.rs:44-75, 95-133, close.rs:28-38, getinfo.rs:30-41, delete.rs:32-43,
    rename.rs:39-51, mkdir.rs:37-48.  A read always has the type ReadAt (rw.rs:129; the
    type computed before is not used). *)
Definition stub (ptr : N) (c : fcall) : option (N * list (list N)) :=
  match c with
  | COpen pid path flags modes =>
      Some (RPC_OPEN, [le64 pid ++ le64 flags ++ le64 modes; str_bytes path])
  | CRead pid fd len off =>
      if decide (len <= RW_SHMEM_BUF_LEN) then
        Some (RPC_READ_AT, [le64 pid ++ le64 (N.of_nat fd) ++ le64 ptr ++ le64 (N.of_nat len) ++ le64 (of_i64 off)])
      else None
  | CWrite pid fd d off =>
      Some (if decide (off = -1)%Z then RPC_WRITE else RPC_WRITE_AT,
            [le64 pid ++ le64 (N.of_nat fd) ++ le64 0 ++ le64 (N.of_nat (length d)) ++ le64 (of_i64 off); d])
  | CClose pid fd => Some (RPC_CLOSE, [le64 pid ++ le64 (N.of_nat fd)])
  | CInfo pid path => Some (RPC_GET_INFO, [le64 pid; str_bytes path])
  | CDelete pid path => Some (RPC_DELETE, [le64 pid; str_bytes path])
  | CRename pid old new =>
      Some (RPC_FILE_RENAME, [le64 pid ++ le64 (N.of_nat (length (str_bytes old))); str_bytes old; str_bytes new])
  | CMkDir pid path modes => Some (RPC_MK_DIR, [le64 pid ++ le64 modes; str_bytes path])
  end.

(** What the process gets: two words or an error, and the bytes read. *)
Definition fres : Type := (N * N + kerror) * list N.

(** The end of a call (rw.rs:135-170, open.rs:59-68 and the same in the others): decode the
    result; a read copies the bytes out of the shared buffer, whose slices panic if out of
    bounds.  None = panic. *)
Definition finish (mem : N -> N) (ptr : N) (c : fcall) (d : list N) : option fres :=
  match dec_kres d with
  | None => None
  | Some (inr e) => Some (inr e, [])
  | Some (inl (a, b)) =>
      match c with
      | CRead _ _ len _ =>
          if decide (N.to_nat a <= len /\ N.to_nat a <= RW_SHMEM_BUF_LEN)
          then Some (inl (a, b), mem_read mem ptr (N.to_nat a)) else None
      | _ => Some (inl (a, b), [])
      end
  end.

(** ** Clients and controller together *)

(** A client: its connection and the server thread of the controller for it (controller.rs:28-
    129: one thread for each client), the call it is in, and the address of its shared buffer.
    The state inside the connection's server is not used: it is [g_st].  Simplified: one
    core of a client is in a call at a time (the connection is behind a lock,
    client_state.rs:32; each core has its own buffer). *)
Record rkclient := mkCl { c_sys : rsys rack; c_pend : option fcall; c_buf : N }.
Record rk := mkRk { g_st : rack; g_cl : list rkclient; g_dead : bool }.

Definition with_st (st : rack) (y : rsys rack) : rsys rack :=
  mkRsys (y_c2s y) (y_s2c y) (y_cl y) (y_hdr y)
    (mkServer st (sv_handlers (y_srv y)) (sv_hdr (y_srv y)) (sv_data (y_srv y))) (y_dead y).
Definition set_cl (y : rsys rack) (c : clst) : rsys rack :=
  mkRsys (y_c2s y) (y_s2c y) c (y_hdr y) (y_srv y) (y_dead y).

Definition rk_init (st : rack) (bufs : list N) : rk :=
  mkRk st (map (fun p => mkCl (rsys_init (controller st)) None p) bufs) false.

(** Steps: a process of client [i] makes a call; the controller's thread for client [i] polls
    for a request; the reply arrives at client [i]; the controller registers a process with
    the file system (request_core.rs:97-100). *)
Inductive gact := GCall (i : nat) (c : fcall) | GServe (i : nat) | GRecv (i : nat) | GAddProcess (pid : N).
Inductive gev :=
| GvCall (i : nat) (c : fcall) | GvServe (i : nat) | GvRet (i : nat) (r : fres)
| GvPanic (i : nat) | GvCrash (i : nat) | GvAddProcess (pid : N) | GvAddFailed (pid : N).

Definition set_client (g : rk) (st : rack) (i : nat) (c : rkclient) (dead : bool) : rk :=
  mkRk st (<[i := c]> (g_cl g)) dead.

Definition g_step (g : rk) (a : gact) : option (rk * list gev) :=
  match a with
  | GCall i fc =>
      match g_cl g !! i with
      | None => None
      | Some c =>
          match y_cl (c_sys c) with
          | ClIdle =>
              match stub (c_buf c) fc with
              | None => Some (set_client g (g_st g) i (mkCl (set_cl (c_sys c) ClDead) None (c_buf c)) (g_dead g),
                              [GvCall i fc; GvPanic i])
              | Some (id, din) =>
                  match y_step (with_st (g_st g) (c_sys c)) (YCall id din [replicate KRES_SIZE 0%N]) with
                  | Some (y', [VCall _ _ _]) =>
                      Some (set_client g (g_st g) i (mkCl y' (Some fc) (c_buf c)) (g_dead g), [GvCall i fc])
                  | Some (y', _) =>
                      Some (set_client g (g_st g) i (mkCl y' None (c_buf c)) (g_dead g), [GvCall i fc; GvPanic i])
                  | None => None
                  end
              end
          | _ => None
          end
      end
  | GServe i =>
      match g_cl g !! i with
      | None => None
      | Some c =>
          if g_dead g then None else
          match y_step (with_st (g_st g) (c_sys c)) YTry with
          | None => None
          | Some (y', es) =>
              (* the loop of the controller, controller.rs:125-129: an error is a panic *)
              let '(dead, ev) := match es with
                | [VTry (ROkay true)] => (false, [GvServe i])
                | [VTry (ROkay false)] => (false, [])
                | _ => (true, [GvCrash i])
                end in
              Some (set_client g (sv_st (y_srv y')) i (mkCl y' (c_pend c) (c_buf c)) dead, ev)
          end
      end
  | GRecv i =>
      match g_cl g !! i with
      | None => None
      | Some c =>
          match c_pend c, y_step (with_st (g_st g) (c_sys c)) YRecv with
          | Some fc, Some (y', [VReturn [d]]) =>
              match finish (k_mem (g_st g)) (c_buf c) fc d with
              | Some r => Some (set_client g (g_st g) i (mkCl y' None (c_buf c)) (g_dead g), [GvRet i r])
              | None => Some (set_client g (g_st g) i (mkCl (set_cl y' ClDead) None (c_buf c)) (g_dead g), [GvPanic i])
              end
          | Some fc, Some (y', _) =>
              Some (set_client g (g_st g) i (mkCl y' None (c_buf c)) (g_dead g), [GvPanic i])
          | _, _ => None
          end
      end
  | GAddProcess pid =>
      if g_dead g then None else
      match fs_call (g_st g) (RAddProcess pid) with
      | (Ok _, st') => Some (mkRk st' (g_cl g) false, [GvAddProcess pid])
      | (_, st') => Some (mkRk st' (g_cl g) true, [GvAddFailed pid])     (* expect, request_core.rs:99 *)
      end
  end.

Fixpoint g_run (g : rk) (l : list gact) : option (rk * list gev) :=
  match l with
  | [] => Some (g, [])
  | a :: l =>
      match g_step g a with
      | Some (g1, e1) => match g_run g1 l with Some (g2, e2) => Some (g2, e1 ++ e2) | None => None end
      | None => None
      end
  end.
