(** Model of the in-memory file system: kernel/src/fs/{mnode,mod,fd,cnrfs}.rs and
    lib/kpi/src/io.rs.  Executable definitions only. *)
From Verif Require Import Base FileModel.

(** ** lib/kpi/src/io.rs *)

(** io.rs:36-44 [FileFlags], io.rs:96-101 [FileModes] bit values. *)
Definition O_RDONLY : N := 0x1.
Definition O_WRONLY : N := 0x2.
Definition O_RDWR : N := 0x3.
Definition O_CREAT : N := 0x200.
Definition O_TRUNC : N := 0x400.
Definition O_APPEND : N := 0x2000.
Definition S_IRUSR : N := 0x4.
Definition S_IWUSR : N := 0x2.

(** io.rs:72-90, 121-130: [is_read] etc. are all [(x & C) == C]. *)
Definition has_bits (x c : N) : bool := N.eqb (N.land x c) c.
Definition is_read (f : N) : bool := has_bits f O_RDONLY.
Definition is_write (f : N) : bool := has_bits f O_WRONLY.
Definition is_create (f : N) : bool := has_bits f O_CREAT.
Definition is_truncate (f : N) : bool := has_bits f O_TRUNC.
Definition is_append (f : N) : bool := has_bits f O_APPEND.
Definition is_readable (m : N) : bool := has_bits m S_IRUSR.
Definition is_writable (m : N) : bool := has_bits m S_IWUSR.

(** io.rs:18-23 [FileType]. *)
Inductive ftype := Directory | RegFile.
Global Instance ftype_eq_dec : EqDecision ftype.
Proof. solve_decision. Defined.
Definition ftype_code (t : ftype) : N := match t with Directory => 1 | RegFile => 2 end.

(** io.rs:9-12 [FileInfo]. *)
Record finfo := mkInfo { fi_type : N; fi_size : nat }.

(** ** kernel/src/fs/mnode.rs *)

(** mnode.rs:18-23 [MemNode]. *)
Record memnode := mkNode {
  mn_num : N; mn_name : string; mn_type : ftype; mn_file : option file }.

(** mnode.rs:49-69 [MemNode::new] (allocations succeed). *)
Definition memnode_new (num : N) (name : string) (modes : N) (t : ftype) : memnode :=
  mkNode num name t (match t with Directory => None | RegFile => Some (file_new modes) end).

(** mnode.rs:72-81 [write]: the [unwrap] of a file-less regular node panics. *)
Definition memnode_write (avail : nat) (m : memnode) (d : list N) (off : nat)
    : res nat * memnode :=
  match mn_type m, mn_file m with
  | Directory, _ => (Err PermissionError, m)
  | RegFile, None => (Panic, m)
  | RegFile, Some f =>
    if negb (is_writable (fmodes f)) then (Err PermissionError, m) else
    let '(r, f') := write_file BASE_PAGE_SIZE avail f d off in
    (r, mkNode (mn_num m) (mn_name m) (mn_type m) (Some f'))
  end.

(** mnode.rs:84-118 [read] into a kernel buffer [dst]; returns the count and the
    buffer. *)
Definition memnode_read (m : memnode) (dst : list N) (off : nat) : res (nat * list N) :=
  match mn_type m, mn_file m with
  | Directory, _ => Err PermissionError
  | RegFile, None => Panic
  | RegFile, Some f =>
    if negb (is_readable (fmodes f)) then Err PermissionError else
    let len := length dst in
    let file_size := get_size BASE_PAGE_SIZE (mcache f) in
    if decide (file_size < off) then Ok (0, dst) else
    let bytes_to_read := Nat.min (file_size - off) len in
    let new_offset := off + bytes_to_read in
    if decide (bytes_to_read = 0) then Ok (0, dst) else
    if decide (new_offset <= off \/ file_size < new_offset) then Err InvalidOffset else
    read_file BASE_PAGE_SIZE f dst off new_offset
  end.

(** mnode.rs:131-140 [file_truncate]. *)
Definition memnode_truncate (m : memnode) : res unit * memnode :=
  match mn_type m, mn_file m with
  | Directory, _ => (Err PermissionError, m)
  | RegFile, None => (Panic, m)
  | RegFile, Some f =>
    if negb (is_writable (fmodes f)) then (Err PermissionError, m) else
    (Ok tt, mkNode (mn_num m) (mn_name m) (mn_type m) (Some (file_truncate f)))
  end.

(** ** kernel/src/fs/mod.rs *)

(** mod.rs:66-75 [MlnrFS]: node table, name table, node counter. Locks are not
    modelled here (one operation at a time; see CnrModel for concurrency). *)
Record mlnrfs := mkFs {
  mnodes : gmap N memnode; files : gmap string N; nextmno : N }.

(** mod.rs:77-104: root directory "/" has node number 1, the counter starts at
    MNODE_OFFSET = 2. *)
Definition MNODE_OFFSET : N := 2.
Definition fs_init : mlnrfs :=
  mkFs {[ 1%N := memnode_new 1 "/" 0 Directory ]} {[ "/"%string := 1%N ]} MNODE_OFFSET.

(** Common part of mod.rs:114-135 and 226-243 (create and mkdir differ only in
    the node type). *)
Definition fs_insert_node (fs : mlnrfs) (path : string) (modes : N) (t : ftype)
    : res N * mlnrfs :=
  match files fs !! path with
  | Some _ => (Err AlreadyPresent, fs)
  | None =>
    let num := nextmno fs in
    (Ok num, mkFs (<[num := memnode_new num path modes t]> (mnodes fs))
                  (<[path := num]> (files fs)) (num + 1))
  end.
(** mod.rs:114-135 [create]. *)
Definition fs_create fs path modes := fs_insert_node fs path modes RegFile.
(** mod.rs:226-243 [mkdir]. *)
Definition fs_mkdir fs path modes := fs_insert_node fs path modes Directory.

(** mod.rs:137-142 [write]. *)
Definition fs_write (avail : nat) (fs : mlnrfs) (num : N) (d : list N) (off : nat)
    : res nat * mlnrfs :=
  match mnodes fs !! num with
  | None => (Err InvalidFile, fs)
  | Some m => let '(r, m') := memnode_write avail m d off in
              (r, mkFs (<[num := m']> (mnodes fs)) (files fs) (nextmno fs))
  end.

(** mod.rs:144-154 [read]. *)
Definition fs_read (fs : mlnrfs) (num : N) (dst : list N) (off : nat)
    : res (nat * list N) :=
  match mnodes fs !! num with
  | None => Err InvalidFile
  | Some m => memnode_read m dst off
  end.

(** mod.rs:156-158 [lookup]. *)
Definition fs_lookup (fs : mlnrfs) (path : string) : option N := files fs !! path.

(** mod.rs:160-174 [file_info]: [unreachable!] for an unknown node. *)
Definition fs_file_info (fs : mlnrfs) (num : N) : res finfo :=
  match mnodes fs !! num with
  | None => Panic
  | Some m =>
    match mn_type m, mn_file m with
    | Directory, _ => Ok (mkInfo (ftype_code Directory) 0)
    | RegFile, None => Panic
    | RegFile, Some f => Ok (mkInfo (ftype_code RegFile) (get_size BASE_PAGE_SIZE (mcache f)))
    end
  end.

(** mod.rs:176-191 [delete].  [Arc::strong_count(mnode) == 1] holds whenever no
    other operation is in flight: every clone made by [lookup] is dropped before
    the operation that made it returns. *)
Definition fs_delete (fs : mlnrfs) (path : string) : res unit * mlnrfs :=
  match files fs !! path with
  | None => (Err InvalidFile, fs)
  | Some num => (Ok tt, mkFs (delete num (mnodes fs)) (delete path (files fs)) (nextmno fs))
  end.

(** mod.rs:193-201 [truncate]. *)
Definition fs_truncate (fs : mlnrfs) (path : string) : res unit * mlnrfs :=
  match files fs !! path with
  | None => (Err InvalidFile, fs)
  | Some num =>
    match mnodes fs !! num with
    | None => (Err InvalidFile, fs)
    | Some m => let '(r, m') := memnode_truncate m in
                (r, mkFs (<[num := m']> (mnodes fs)) (files fs) (nextmno fs))
    end
  end.

(** mod.rs:203-222 [rename]. *)
Definition fs_rename (fs : mlnrfs) (old new : string) : res unit * mlnrfs :=
  match files fs !! old with
  | None => (Err InvalidFile, fs)
  | Some _ =>
    let fs1 := match files fs !! new with
               | Some _ => (fs_delete fs new).2
               | None => fs
               end in
    match files fs1 !! old with
    | None => (Err InvalidFile, fs1)
    | Some num =>
      let files1 := delete old (files fs1) in
      let fs2 := mkFs (mnodes fs1) (<[new := num]> files1) (nextmno fs1) in
      match files1 !! new with
      | None => (Ok tt, fs2)
      | Some _ => (Err PermissionError, fs2)
      end
    end
  end.

(** ** kernel/src/fs/fd.rs *)

(** mod.rs:40 [MAX_FILES_PER_PROCESS]. *)
Definition MAX_FILES_PER_PROCESS : nat := N.to_nat 4096.

(** fd.rs:102-106 [FileDescriptorEntry]. *)
Record fdentry := mkFd { fd_mnode : N; fd_flags : N; fd_offset : nat }.
(** fd.rs:101 [Default]. *)
Definition fd_default : fdentry := mkFd 0 0 0.
(** fd.rs:57-68 [FileDescriptorTable]. *)
Notation fdtable := (list (option fdentry)) (only parsing).
Definition fdtable_default : fdtable := replicate MAX_FILES_PER_PROCESS None.

(** fd.rs:72 [iter().position(|fd| fd.is_none())]. *)
Fixpoint first_none (t : fdtable) : option nat :=
  match t with
  | [] => None
  | None :: _ => Some 0
  | Some _ :: t' => S <$> first_none t'
  end.

(** fd.rs:71-78 [allocate_fd]. *)
Definition allocate_fd (t : fdtable) : option (nat * fdtable) :=
  fid ← first_none t; Some (fid, <[fid := Some fd_default]> t).

(** fd.rs:80-92 [deallocate_fd]. *)
Definition deallocate_fd (t : fdtable) (fd : nat) : res nat * fdtable :=
  match t !! fd with
  | Some (Some _) => (Ok fd, <[fd := None]> t)
  | Some None => (Err InvalidFileDescriptor, t)
  | None => (Err InvalidFileDescriptor, t)
  end.

(** fd.rs:94-97 [get_fd] ([table[idx]] is in bounds: a [FileDescriptor] value is
    below MAX_FILES_PER_PROCESS, fd.rs:26-43). *)
Definition get_fd (t : fdtable) (fd : nat) : option fdentry := mjoin (t !! fd).

(** fd.rs:109-112 [update]. *)
Definition fd_update (e : fdentry) (mnode flags : N) : fdentry :=
  mkFd mnode flags (fd_offset e).
(** fd.rs:126-128 [update_offset]. *)
Definition fd_update_offset (e : fdentry) (o : nat) : fdentry :=
  mkFd (fd_mnode e) (fd_flags e) o.

(** fd.rs:32-43 [FileDescriptor::try_from(u64)]. *)
Definition fd_try_from (v : N) : res nat :=
  if decide (v < 4096)%N then Ok (N.to_nat v) else Err FileDescriptorTooLarge.

(** ** kernel/src/fs/cnrfs.rs *)

(** cnrfs.rs:85-93 [MlnrKernelNode]: one replica. *)
Record node := mkNodeSt { pmap : gmap N fdtable; fs : mlnrfs }.
Definition node_init : node := mkNodeSt ∅ fs_init.

(** cnrfs.rs:95-105 [Modify].  The [i64] offset is [None] for -1 (use the
    descriptor's cursor) and [Some o] otherwise: the system call layer only
    produces -1 or a value converted from [u64] with [try_into]
    (arch/x86_64/syscall.rs), i.e. a non-negative one. *)
Inductive modify :=
| ProcessAdd (pid : N)
| FileOpen (pid : N) (name : string) (flags modes : N)
| FileWrite (pid : N) (fd : nat) (mnode : N) (d : list N) (off : option nat)
| FileClose (pid : N) (fd : nat)
| FileDelete (pid : N) (name : string)
| FileRename (pid : N) (old new : string)
| MkDir (pid : N) (name : string) (modes : N).

(** cnrfs.rs:133-144 [Access] (the user buffer of [FileRead] is its initial
    contents). *)
Inductive access :=
| FileRead (pid : N) (fd : nat) (mnode : N) (dst : list N) (off : option nat)
| FileInfo (pid : N) (name : string) (mnode : N)
| FdToMnode (pid : N) (fd : nat)
| FileNameToMnode (pid : N) (name : string)
| Synchronize (log_id : nat).

(** cnrfs.rs:170-183 [MlnrNodeResult]; [FileRed] additionally carries the user
    buffer after the read. *)
Inductive nresult :=
| ProcessAdded (pid : N) | FileOpened (fd : nat) | FileAccessed (n : nat)
| FileRed (n : nat) (buf : list N)
| FileClosed (fd : nat) | FileDeleted | FileInfoR (i : finfo) | FileRenamed
| DirCreated | MappedFileToMnode (m : N) | Synchronized.

Definition set_fd (n : node) (pid : N) (t : fdtable) (fd : nat) (e : fdentry) : node :=
  mkNodeSt (<[pid := <[fd := Some e]> t]> (pmap n)) (fs n).

(** cnrfs.rs:407-486 [dispatch]. A [FileRead] at the cursor stores the new
    cursor through an atomic, i.e. it changes the node although it is a "read"
    operation; hence the returned node. *)
Definition dispatch (n : node) (op : access) : res nresult * node :=
  match op with
  | FileRead pid fd _ dst off =>
    match pmap n !! pid with
    | None => (Err NoProcessFoundForPid, n)
    | Some t =>
      match get_fd t fd with
      | None => (Err PermissionError, n)
      | Some e =>
        if negb (is_read (fd_flags e)) then (Err PermissionError, n) else
        let curr := match off with None => fd_offset e | Some o => o end in
        match fs_read (fs n) (fd_mnode e) dst curr with
        | Ok (len, dst') =>
          (Ok (FileRed len dst'),
           match off with
           | None => set_fd n pid t fd (fd_update_offset e (curr + len))
           | Some _ => n
           end)
        | Err er => (Err er, n)
        | Panic => (Panic, n)
        end
      end
    end
  | FileInfo pid name _ =>
    match pmap n !! pid with
    | None => (Err NoProcessFoundForPid, n)
    | Some _ =>
      match fs_lookup (fs n) name with
      | None => (Err InvalidFile, n)
      | Some m => match fs_file_info (fs n) m with
                  | Ok i => (Ok (FileInfoR i), n)
                  | Err e => (Err e, n)
                  | Panic => (Panic, n)
                  end
      end
    end
  | FdToMnode pid fd =>
    match pmap n !! pid with
    | None => (Err NoProcessFoundForPid, n)
    | Some t => match get_fd t fd with
                | None => (Err PermissionError, n)
                | Some e => (Ok (MappedFileToMnode (fd_mnode e)), n)
                end
    end
  | FileNameToMnode pid name =>
    match pmap n !! pid with
    | None => (Err NoProcessFoundForPid, n)
    | Some _ => match fs_lookup (fs n) name with
                | Some m => (Ok (MappedFileToMnode m), n)
                | None => (Err InvalidFile, n)
                end
    end
  | Synchronize _ => (Ok Synchronized, n)
  end.

(** cnrfs.rs:503-537, the [FileOpen] arm of [dispatch_mut]. *)
Definition dispatch_open (n : node) (pid : N) (name : string) (flags modes : N)
    : res nresult * node :=
  let mnode := fs_lookup (fs n) name in
  if match mnode with None => negb (is_create flags) | Some _ => false end
  then (Err PermissionError, n) else
  match pmap n !! pid with
  | None => (Panic, n)
  | Some t =>
    match allocate_fd t with
    | None => (Err NotSupported, n)
    | Some (fid, t1) =>
      let rollback (fs' : mlnrfs) (e : kerror) :=
        (Err e, mkNodeSt (<[pid := (deallocate_fd t1 fid).2]> (pmap n)) fs') in
      let finish (fs' : mlnrfs) (m : N) :=
        (Ok (FileOpened fid),
         mkNodeSt (<[pid := <[fid := Some (fd_update fd_default m flags)]> t1]> (pmap n)) fs') in
      match mnode with
      | Some m =>
        if is_truncate flags then
          match fs_truncate (fs n) name with
          | (Ok _, fs') => finish fs' m
          | (Err e, fs') => rollback fs' e
          | (Panic, fs') => (Panic, mkNodeSt (pmap n) fs')
          end
        else finish (fs n) m
      | None =>
        match fs_create (fs n) name modes with
        | (Ok m, fs') => finish fs' m
        | (Err e, fs') => rollback fs' e
        | (Panic, fs') => (Panic, mkNodeSt (pmap n) fs')
        end
      end
    end
  end.

(** cnrfs.rs:539-576, the [FileWrite] arm of [dispatch_mut]. *)
Definition dispatch_write (avail : nat) (n : node) (pid : N) (fd : nat)
    (d : list N) (off : option nat) : res nresult * node :=
  match pmap n !! pid with
  | None => (Panic, n)
  | Some t =>
    match get_fd t fd with
    | None => (Err PermissionError, n)
    | Some e =>
      if negb (is_write (fd_flags e)) then (Err PermissionError, n) else
      let curr :=
        match off with
        | Some o => Ok o
        | None =>
          if is_append (fd_flags e) then
            match fs_file_info (fs n) (fd_mnode e) with
            | Ok i => Ok (fi_size i)
            | Err er => Err er
            | Panic => Panic
            end
          else Ok (fd_offset e)
        end in
      match curr with
      | Ok curr =>
        let '(r, fs') := fs_write avail (fs n) (fd_mnode e) d curr in
        let n' := mkNodeSt (pmap n) fs' in
        match r with
        | Ok len =>
          (Ok (FileAccessed len),
           match off with
           | None => set_fd n' pid t fd (fd_update_offset e (curr + len))
           | Some _ => n'
           end)
        | Err er => (Err er, n')
        | Panic => (Panic, n')
        end
      | Err er => (Err er, n)
      | Panic => (Panic, n)
      end
    end
  end.

(** Lift a file-system operation to the node. *)
Definition lift_fs {A} (n : node) (r : res A * mlnrfs) (ok : nresult) : res nresult * node :=
  (match r.1 with Ok _ => Ok ok | Err e => Err e | Panic => Panic end,
   mkNodeSt (pmap n) r.2).

(** cnrfs.rs:488-617 [dispatch_mut]. *)
Definition dispatch_mut (avail : nat) (n : node) (op : modify) : res nresult * node :=
  match op with
  | ProcessAdd pid =>
    match pmap n !! pid with
    | Some _ => (Err FileDescForPidAlreadyAdded, n)
    | None => (Ok (ProcessAdded pid), mkNodeSt (<[pid := fdtable_default]> (pmap n)) (fs n))
    end
  | FileOpen pid name flags modes => dispatch_open n pid name flags modes
  | FileWrite pid fd _ d off => dispatch_write avail n pid fd d off
  | FileClose pid fd =>
    match pmap n !! pid with
    | None => (Panic, n)
    | Some t =>
      match deallocate_fd t fd with
      | (Ok _, t') => (Ok (FileClosed fd), mkNodeSt (<[pid := t']> (pmap n)) (fs n))
      | (Err e, _) => (Err e, n)
      | (Panic, _) => (Panic, n)
      end
    end
  | FileDelete pid name =>
    match pmap n !! pid with
    | None => (Err NoProcessFoundForPid, n)
    | Some _ => lift_fs n (fs_delete (fs n) name) FileDeleted
    end
  | FileRename pid old new =>
    match pmap n !! pid with
    | None => (Err NoProcessFoundForPid, n)
    | Some _ => lift_fs n (fs_rename (fs n) old new) FileRenamed
    end
  | MkDir pid name modes =>
    match pmap n !! pid with
    | None => (Err NoProcessFoundForPid, n)
    | Some _ => lift_fs n (fs_mkdir (fs n) name modes) DirCreated
    end
  end.

(** ** The requests a process can make (cnrfs.rs:186-399 wrappers, called from
    arch/x86_64/syscall.rs).  [None] as an offset is "at the cursor". *)
Inductive req :=
| RAddProcess (pid : N)
| ROpen (pid : N) (name : string) (flags modes : N)
| RWrite (pid : N) (fd : nat) (d : list N) (off : option nat)
| RRead (pid : N) (fd : nat) (n : nat) (off : option nat)
| RClose (pid : N) (fd : nat)
| RInfo (pid : N) (name : string)
| RDelete (pid : N) (name : string)
| RRename (pid : N) (old new : string)
| RMkDir (pid : N) (name : string) (modes : N).

(** What the process gets back. *)
Inductive reply :=
| RpOk | RpFd (fd : nat) | RpCount (n : nat) | RpData (d : list N)
| RpInfo (ftype : N) (size : nat) | RpErr (e : kerror) | RpPanic.

Definition to_reply (r : res nresult) : reply :=
  match r with
  | Ok (FileOpened fd) => RpFd fd
  | Ok (FileAccessed n) => RpCount n
  | Ok (FileRed n buf) => RpData (take n buf)
  | Ok (FileInfoR i) => RpInfo (fi_type i) (fi_size i)
  | Ok _ => RpOk
  | Err e => RpErr e
  | Panic => RpPanic
  end.

(** cnrfs.rs:355-369 [fd_to_mnode] then cnrfs.rs:228-231 / 254-257: any error is
    turned into [InvalidFileDescriptor]. *)
Definition with_mnode (n : node) (pid : N) (fd : nat)
    (k : N -> res nresult * node) : res nresult * node :=
  match dispatch n (FdToMnode pid fd) with
  | (Ok (MappedFileToMnode m), n') => k m
  | (Panic, n') => (Panic, n')
  | (_, n') => (Err InvalidFileDescriptor, n')
  end.

(** One request executed on one replica. cnrfs.rs:186-399. *)
Definition step (avail : nat) (n : node) (r : req) : res nresult * node :=
  match r with
  | RAddProcess pid => dispatch_mut avail n (ProcessAdd pid)
  | ROpen pid name flags modes => dispatch_mut avail n (FileOpen pid name flags modes)
  | RWrite pid fd d off =>
    with_mnode n pid fd (fun m => dispatch_mut avail n (FileWrite pid fd m d off))
  | RRead pid fd len off =>
    with_mnode n pid fd (fun m => dispatch n (FileRead pid fd m (replicate len 0%N) off))
  | RClose pid fd => dispatch_mut avail n (FileClose pid fd)
  | RInfo pid name =>
    match dispatch n (FileNameToMnode pid name) with
    | (Ok (MappedFileToMnode m), n') => dispatch n' (FileInfo pid name m)
    | (r, n') => (r, n')
    end
  | RDelete pid name => dispatch_mut avail n (FileDelete pid name)
  | RRename pid old new => dispatch_mut avail n (FileRename pid old new)
  | RMkDir pid name modes => dispatch_mut avail n (MkDir pid name modes)
  end.

(** A history: requests, each with the number of page buffers the heap can still
    supply when it executes. *)
Fixpoint run (n : node) (l : list (nat * req)) : list reply * node :=
  match l with
  | [] => ([], n)
  | (avail, r) :: l' =>
    let '(o, n1) := step avail n r in
    let '(os, n2) := run n1 l' in (to_reply o :: os, n2)
  end.
