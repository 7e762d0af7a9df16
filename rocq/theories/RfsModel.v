(** Model of the file calls that the library OS makes of its host: lib/vibrio/src/rumprt/fs.rs, and of the wrappers of the file system
    calls that they use, lib/kpi/src/syscalls/io.rs.  The kernel is [FsModel.step]. *)
From Verif Require Import Base FileModel FsModel.

(** The calls, with their arguments as the library OS gives them.  A name is None if it is not UTF-8.  For iovread a buffer is its
    length, for iovwrite its bytes. *)
Inductive hcall :=
| HOpen (name : option string) (mode : Z)
| HClose (fd : Z)
| HInfo (name : option string)
| HRead (fd : Z) (iov : list nat) (off : Z)
| HWrite (fd : Z) (iov : list (list N)) (off : Z)
| HBio
| HSync.

(** What comes back: *fdp; *size and *type; *retv with the bytes in the buffers; *retv; an error number; or the program stops. *)
Inductive hrep := HOk | HFd (fd : Z) | HFile (size : nat) (type : Z) | HGot (d : list N) | HPut (n : nat) | HErr (e : Z) | HAbort.

(** errno.rs:14, 35, 74. *)
Definition ENOENT : Z := 2.
Definition EBADF : Z := 9.
Definition EINVAL : Z := 22.

(** RumpFileFlags, fs.rs:25-33: `mode as u64` and from_bits_truncate keep the low four bits; `contains` is has_bits. *)
Definition rump_mode (mode : Z) : N := Z.to_N (Z.land mode 15).
Definition RUMPUSER_OPEN_RDONLY : N := 0.
Definition RUMPUSER_OPEN_WRONLY : N := 1.
Definition RUMPUSER_OPEN_RDWR : N := 2.
Definition RUMPUSER_OPEN_CREATE : N := 4.

(** The flags of rumpuser_open, fs.rs:39-56.  RUMPUSER_OPEN_EXCL only logs. *)
Definition rump_flags (mode : Z) : N :=
  let m := rump_mode mode in
  let f := 0%N in
  let f := if has_bits m RUMPUSER_OPEN_RDONLY then N.lor f O_RDONLY else f in
  let f := if has_bits m RUMPUSER_OPEN_WRONLY then N.lor f O_WRONLY else f in
  let f := if has_bits m RUMPUSER_OPEN_RDWR then N.lor f O_RDWR else f in
  if has_bits m RUMPUSER_OPEN_CREATE then N.lor f O_CREAT else f.

(** `fd as u64` of a c_int: sign extension. *)
Definition fd_u64 (fd : Z) : N := Z.to_N (fd mod 2 ^ 64).

(** What a call of the kernel gives: the reply and the state; None when the wrapper or the decoding of the arguments
    (kernel/src/syscalls.rs:62-104) refuses the call before the file system sees it. *)
Definition kret : Type := option reply * node.
Definition refuse (n : node) : kret := (None, n).
Definition ksys (avail : nat) (n : node) (r : req) : kret := let '(o, n') := step avail n r in (Some (to_reply o), n').

(** The largest buffer of a system call: UserSlice::new, kernel/src/process.rs:813. *)
Definition max_buf : N := 2147483647.

(** Fs::fileio, io.rs:99-112, for Write (no call here uses Read). *)
Definition fileio_write (avail : nat) (n : node) (pid fd : N) (d : list N) : kret :=
  if decide (length d = 0) then refuse n else
  match fd_try_from fd with
  | Ok f => if (max_buf <? N.of_nat (length d))%N then refuse n else ksys avail n (RWrite pid f d None)
  | _ => refuse n
  end.

(** Fs::write_at, Fs::fileio_at, io.rs:124-167: `offset as u64` is negative again to the kernel's try_into (syscalls.rs:83). *)
Definition write_at (avail : nat) (n : node) (pid fd : N) (d : list N) (off : Z) : kret :=
  if decide (length d = 0) then refuse n else
  if decide (off = -1)%Z then fileio_write avail n pid fd d else
  match fd_try_from fd with
  | Ok f => if (max_buf <? N.of_nat (length d))%N then refuse n
            else if decide (off < 0)%Z then refuse n else ksys avail n (RWrite pid f d (Some (Z.to_nat off)))
  | _ => refuse n
  end.

(** Fs::read_at, Fs::fileio_at, io.rs:114-122, 134-167: no read at the position of the file. *)
Definition read_at (avail : nat) (n : node) (pid fd : N) (len : nat) (off : Z) : kret :=
  if decide (len = 0) then refuse n else
  if decide (off = -1)%Z then refuse n else
  match fd_try_from fd with
  | Ok f => if (max_buf <? N.of_nat len)%N then refuse n
            else if decide (off < 0)%Z then refuse n else ksys avail n (RRead pid f len (Some (Z.to_nat off)))
  | _ => refuse n
  end.

(** Fs::close, io.rs:70-79. *)
Definition close (avail : nat) (n : node) (pid fd : N) : kret :=
  match fd_try_from fd with Ok f => ksys avail n (RClose pid f) | _ => refuse n end.

(** rumpuser_open, fs.rs:36-80, rumpuser_close, :84-89, rumpuser_getfileinfo, :93-121, rumpuser_iovread, :137-158, rumpuser_iovwrite,
    :162-183, rumpuser_bio, :125-135, rumpuser_syncfd, :187-194.  A panic of the kernel is [HAbort] too (and seen in the reply). *)
Definition h_step (avail : nat) (pid : N) (n : node) (c : hcall) : hrep * kret :=
  match c with
  | HOpen None _ => (HErr EINVAL, refuse n)
  | HOpen (Some name) mode =>
      let k := ksys avail n (ROpen pid name (rump_flags mode) (N.lor S_IRUSR S_IWUSR)) in
      (match k.1 with Some (RpFd fd) => HFd (Z.of_nat fd) | Some RpPanic => HAbort | _ => HErr EINVAL end, k)
  | HClose fd =>
      let k := close avail n pid (fd_u64 fd) in
      (match k.1 with Some RpOk => HOk | Some RpPanic => HAbort | _ => HErr EBADF end, k)
  | HInfo None => (HErr EINVAL, refuse n)
  | HInfo (Some name) =>
      let k := ksys avail n (RInfo pid name) in
      (match k.1 with Some (RpInfo t s) => HFile s (Z.of_N t) | Some RpPanic => HAbort | _ => HErr ENOENT end, k)
  | HRead fd [len] off =>
      let k := read_at avail n pid (fd_u64 fd) len off in
      (match k.1 with Some (RpData d) => HGot d | Some RpPanic => HAbort | _ => HErr EINVAL end, k)
  | HWrite fd [d] off =>
      let k := write_at avail n pid (fd_u64 fd) d off in
      (match k.1 with Some (RpCount m) => HPut m | Some RpPanic => HAbort | _ => HErr EINVAL end, k)
  | HRead _ _ _ | HWrite _ _ _ | HBio | HSync => (HAbort, refuse n)
  end.

(** A history: calls of the library OS (process [pid]) among requests of other programs, each with the page buffers the heap can still give. *)
Inductive item := Hyp (c : hcall) | Other (r : req).
Inductive out := OHyp (h : hrep) | OOther (r : reply).

(** The outputs, and the replies of the kernel. *)
Fixpoint h_run (pid : N) (n : node) (l : list (nat * item)) : list out * list reply * node :=
  match l with
  | [] => ([], [], n)
  | (avail, Hyp c) :: l =>
      let '(o, (k, n1)) := h_step avail pid n c in
      let '(os, ks, n2) := h_run pid n1 l in
      (OHyp o :: os, match k with Some k => k :: ks | None => ks end, n2)
  | (avail, Other r) :: l =>
      let '(o, n1) := step avail n r in
      let '(os, ks, n2) := h_run pid n1 l in
      (OOther (to_reply o) :: os, to_reply o :: ks, n2)
  end.
