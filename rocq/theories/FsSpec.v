(** Specification of the file system for C01-C08: names, objects, handles.
    Objects hold a size and a byte function (FileSpec); there are no buffers,
    pages, descriptor tables or logs. *)
From Verif Require Import Base FileSpec.
From Verif Require Import FsModel. (* only for [req], [reply] and the flag bits *)

(** An object: a directory or a regular file with access modes and contents. *)
Inductive aobj := ADir | AReg (modes : N) (c : afile).

(** An open descriptor: which object, how it was opened, cursor position. *)
Record handle := mkH { h_obj : N; h_flags : N; h_pos : nat }.

Record afs := mkA {
  a_procs : gset N;               (* registered processes *)
  a_open : gmap (N * nat) handle; (* (process, descriptor) -> open handle *)
  a_names : gmap string N;        (* path -> object identity *)
  a_objs : gmap N aobj;           (* identity -> object *)
  a_next : N }.                   (* identities below this one were used *)

(** At boot there is one name, the root directory. *)
Definition a_init : afs := mkA ∅ ∅ {[ "/"%string := 1%N ]} {[ 1%N := ADir ]} 2.

(** The least descriptor number, below the per-process limit, that is not open. *)
Definition least_free (a : afs) (pid : N) : option nat :=
  fst <$> list_find (fun fd => a_open a !! (pid, fd) = None) (seq 0 MAX_FILES_PER_PROCESS).

Definition set_open (a : afs) (k : N * nat) (h : handle) : afs :=
  mkA (a_procs a) (<[k := h]> (a_open a)) (a_names a) (a_objs a) (a_next a).
Definition set_obj (a : afs) (id : N) (o : aobj) : afs :=
  mkA (a_procs a) (a_open a) (a_names a) (<[id := o]> (a_objs a)) (a_next a).
Definition add_obj (a : afs) (name : string) (o : aobj) : afs :=
  mkA (a_procs a) (a_open a) (<[name := a_next a]> (a_names a))
      (<[a_next a := o]> (a_objs a)) (a_next a + 1).
Definition move_pos (a : afs) (k : N * nat) (h : handle) (off : option nat) (p : nat) : afs :=
  match off with
  | None => set_open a k (mkH (h_obj h) (h_flags h) p)
  | Some _ => a
  end.

Definition s_open (a : afs) (pid : N) (name : string) (flags modes : N) : reply * afs :=
  match a_names a !! name with
  | None =>
    if is_create flags then
      match least_free a pid with
      | None => (RpErr NotSupported, a)
      | Some fd => (RpFd fd, set_open (add_obj a name (AReg modes a_new)) (pid, fd)
                               (mkH (a_next a) flags 0))
      end
    else (RpErr PermissionError, a)
  | Some id =>
    match least_free a pid with
    | None => (RpErr NotSupported, a)
    | Some fd =>
      let opened a' := (RpFd fd, set_open a' (pid, fd) (mkH id flags 0)) in
      if is_truncate flags then
        match a_objs a !! id with
        | Some (AReg m c) =>
          if is_writable m then opened (set_obj a id (AReg m (a_truncate c)))
          else (RpErr PermissionError, a)
        | Some ADir => (RpErr PermissionError, a)
        | None => (RpErr InvalidFile, a)
        end
      else opened a
    end
  end.

Definition s_write (a : afs) (pid : N) (fd : nat) (d : list N) (off : option nat)
    : reply * afs :=
  match a_open a !! (pid, fd) with
  | None => (RpErr InvalidFileDescriptor, a)
  | Some h =>
    if negb (is_write (h_flags h)) then (RpErr PermissionError, a) else
    match a_objs a !! h_obj h with
    | None => (RpErr InvalidFile, a)
    | Some ADir => (RpErr PermissionError, a)
    | Some (AReg m c) =>
      if negb (is_writable m) then (RpErr PermissionError, a) else
      let pos := match off with
                 | Some o => o
                 | None => if is_append (h_flags h) then asize c else h_pos h
                 end in
      (RpCount (length d),
       move_pos (set_obj a (h_obj h) (AReg m (a_write c pos d))) (pid, fd) h off
                (pos + length d))
    end
  end.

Definition s_read (a : afs) (pid : N) (fd : nat) (n : nat) (off : option nat)
    : reply * afs :=
  match a_open a !! (pid, fd) with
  | None => (RpErr InvalidFileDescriptor, a)
  | Some h =>
    if negb (is_read (h_flags h)) then (RpErr PermissionError, a) else
    match a_objs a !! h_obj h with
    | None => (RpErr InvalidFile, a)
    | Some ADir => (RpErr PermissionError, a)
    | Some (AReg m c) =>
      if negb (is_readable m) then (RpErr PermissionError, a) else
      let pos := match off with Some o => o | None => h_pos h end in
      let data := a_read c pos n in
      (RpData data, move_pos a (pid, fd) h off (pos + length data))
    end
  end.

(** Deleting a name removes the name and its object (open handles stay but their
    object is gone). *)
Definition remove_name (a : afs) (name : string) (id : N) : afs :=
  mkA (a_procs a) (a_open a) (delete name (a_names a)) (delete id (a_objs a)) (a_next a).

Definition s_rename (a : afs) (old new : string) : reply * afs :=
  match a_names a !! old with
  | None => (RpErr InvalidFile, a)
  | Some id =>
    if decide (old = new) then (RpErr InvalidFile, remove_name a old id) else
    let a1 := match a_names a !! new with
              | Some id' => remove_name a new id'
              | None => a
              end in
    (RpOk, mkA (a_procs a1) (a_open a1) (<[new := id]> (delete old (a_names a1)))
               (a_objs a1) (a_next a1))
  end.

Definition s_step (a : afs) (r : req) : reply * afs :=
  match r with
  | RAddProcess pid =>
    if decide (pid ∈ a_procs a) then (RpErr FileDescForPidAlreadyAdded, a)
    else (RpOk, mkA ({[pid]} ∪ a_procs a) (a_open a) (a_names a) (a_objs a) (a_next a))
  | ROpen pid name flags modes => s_open a pid name flags modes
  | RWrite pid fd d off => s_write a pid fd d off
  | RRead pid fd n off => s_read a pid fd n off
  | RClose pid fd =>
    match a_open a !! (pid, fd) with
    | None => (RpErr InvalidFileDescriptor, a)
    | Some _ => (RpOk, mkA (a_procs a) (delete (pid, fd) (a_open a))
                           (a_names a) (a_objs a) (a_next a))
    end
  | RInfo pid name =>
    if decide (pid ∈ a_procs a) then
      match a_names a !! name with
      | None => (RpErr InvalidFile, a)
      | Some id => match a_objs a !! id with
                   | Some ADir => (RpInfo 1 0, a)
                   | Some (AReg _ c) => (RpInfo 2 (asize c), a)
                   | None => (RpErr InvalidFile, a)
                   end
      end
    else (RpErr NoProcessFoundForPid, a)
  | RDelete pid name =>
    if decide (pid ∈ a_procs a) then
      match a_names a !! name with
      | None => (RpErr InvalidFile, a)
      | Some id => (RpOk, remove_name a name id)
      end
    else (RpErr NoProcessFoundForPid, a)
  | RRename pid old new =>
    if decide (pid ∈ a_procs a) then s_rename a old new
    else (RpErr NoProcessFoundForPid, a)
  | RMkDir pid name modes =>
    if decide (pid ∈ a_procs a) then
      match a_names a !! name with
      | Some _ => (RpErr AlreadyPresent, a)
      | None => (RpOk, add_obj a name ADir)
      end
    else (RpErr NoProcessFoundForPid, a)
  end.

Fixpoint s_run (a : afs) (l : list req) : list reply * afs :=
  match l with
  | [] => ([], a)
  | r :: l' =>
    let '(o, a1) := s_step a r in
    let '(os, a2) := s_run a1 l' in (o :: os, a2)
  end.
