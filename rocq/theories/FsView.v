(** Observations on a file-system state used in property statements. *)
From Verif Require Import Base FileModel FsModel.

(** The bytes of regular file number [id] ([None]: no such file). *)
Definition bytes_of (n : node) (id : N) : option (list N) :=
  m ← mnodes (fs n) !! id; f ← mn_file m; Some (concat (mcache f)).

(** The access modes of regular file number [id]. *)
Definition modes_of (n : node) (id : N) : option N :=
  m ← mnodes (fs n) !! id; fmodes <$> mn_file m.

(** Is [id] a live directory? *)
Definition is_dir (n : node) (id : N) : Prop :=
  exists m, mnodes (fs n) !! id = Some m /\ mn_type m = Directory.

(** What [path] names. *)
Definition names (n : node) (path : string) : option N := files (fs n) !! path.

(** What descriptor [fd] of process [pid] refers to: file, flags, cursor. *)
Definition fd_of (n : node) (pid : N) (fd : nat) : option fdentry :=
  t ← pmap n !! pid; mjoin (t !! fd).

Definition registered (n : node) (pid : N) : Prop := is_Some (pmap n !! pid).
