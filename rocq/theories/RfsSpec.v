(** Specification for C76: the file calls of rumpuser(3) on the abstract file system of FsSpec. *)
From Verif Require Import Base FileSpec FsModel FsSpec RfsModel.
Local Open Scope Z_scope.

(** What a caller learns; error numbers are not told apart. *)
Inductive answer := AOk | AFd (fd : Z) | AFile (size : nat) (type : Z) | AGot (d : list N) | APut (n : nat) | AErr.

(** The mode of rumpuser_open: the low two bits say read (0), write (1) or both (2); then create and exclusive. *)
Definition may_read (mode : Z) : option bool := match mode mod 4 with 0 | 2 => Some true | 1 => Some false | _ => None end.
Definition may_write (mode : Z) : bool := negb (mode mod 4 =? 0).
Definition creates (mode : Z) : bool := Z.testbit mode 2.
Definition exclusive (mode : Z) : bool := Z.testbit mode 3.

Definition r_open (a : afs) (pid : N) (name : string) (mode : Z) : answer * afs :=
  match may_read mode, least_free a pid with
  | Some r, Some fd =>
      let h id := mkH id (N.lor (if r then O_RDONLY else 0) (N.lor (if may_write mode then O_WRONLY else 0) (if creates mode then O_CREAT else 0))) 0 in
      match a_names a !! name with
      | Some id => if creates mode && exclusive mode then (AErr, a) else (AFd (Z.of_nat fd), set_open a (pid, fd) (h id))
      | None => if creates mode then (AFd (Z.of_nat fd), set_open (add_obj a name (AReg 6 a_new)) (pid, fd) (h (a_next a))) else (AErr, a)
      end
  | _, _ => (AErr, a)
  end.

Definition handle_of (a : afs) (pid : N) (fd : Z) : option (nat * handle) :=
  if fd <? 0 then None else h ← a_open a !! (pid, Z.to_nat fd); Some (Z.to_nat fd, h).

(** Offset -1: at the position [p], which moves; from 0 on: there, and the position stays. *)
Definition where_ (p : nat) (off : Z) : option nat :=
  if off =? -1 then Some p else if off <? 0 then None else Some (Z.to_nat off).
Definition moved (a : afs) (pid : N) (fd : nat) (h : handle) (off : Z) (p : nat) : afs :=
  if off =? -1 then set_open a (pid, fd) (mkH (h_obj h) (h_flags h) p) else a.

(** The bytes go through the buffers as through one. *)
Definition r_read (a : afs) (pid : N) (fd : Z) (iov : list nat) (off : Z) : answer * afs :=
  match handle_of a pid fd with
  | None => (AErr, a)
  | Some (f, h) =>
      match where_ (h_pos h) off, a_objs a !! h_obj h with
      | Some p, Some (AReg m c) =>
          if is_read (h_flags h) && is_readable m then
            let d := a_read c p (sum_list iov) in (AGot d, moved a pid f h off (p + length d))
          else (AErr, a)
      | _, _ => (AErr, a)
      end
  end.
Definition r_write (a : afs) (pid : N) (fd : Z) (iov : list (list N)) (off : Z) : answer * afs :=
  match handle_of a pid fd with
  | None => (AErr, a)
  | Some (f, h) =>
      match a_objs a !! h_obj h with
      | Some (AReg m c) =>
          (* a handle that another call opened for appending writes at the end *)
          match where_ (if is_append (h_flags h) then asize c else h_pos h) off with
          | Some p =>
              if is_write (h_flags h) && is_writable m then
                let d := concat iov in (APut (length d), moved (set_obj a (h_obj h) (AReg m (a_write c p d))) pid f h off (p + length d))
              else (AErr, a)
          | None => (AErr, a)
          end
      | _ => (AErr, a)
      end
  end.

Definition r_step (pid : N) (a : afs) (c : hcall) : answer * afs :=
  match c with
  | HOpen None _ | HInfo None => (AErr, a)
  | HOpen (Some name) mode => r_open a pid name mode
  | HClose fd =>
      match handle_of a pid fd with
      | None => (AErr, a)
      | Some (f, _) => (AOk, mkA (a_procs a) (delete (pid, f) (a_open a)) (a_names a) (a_objs a) (a_next a))
      end
  | HInfo (Some name) =>
      match a_names a !! name ≫= fun id => a_objs a !! id with
      | Some ADir => (AFile 0 1, a)
      | Some (AReg _ c) => (AFile (asize c) 2, a)
      | None => (AErr, a)
      end
  | HRead fd iov off => r_read a pid fd iov off
  | HWrite fd iov off => r_write a pid fd iov off
  | HBio | HSync => (AOk, a)
  end.

Inductive expected := EHyp (x : answer) | EOther (r : reply).
Fixpoint r_run (pid : N) (a : afs) (l : list item) : list expected * afs :=
  match l with
  | [] => ([], a)
  | Hyp c :: l => let '(x, a1) := r_step pid a c in let '(xs, a2) := r_run pid a1 l in (EHyp x :: xs, a2)
  | Other r :: l => let '(o, a1) := s_step a r in let '(xs, a2) := r_run pid a1 l in (EOther o :: xs, a2)
  end.

(** What an answer of the host tells. *)
Definition tells (o : out) : option expected :=
  match o with
  | OOther r => Some (EOther r)
  | OHyp HOk => Some (EHyp AOk)
  | OHyp (HFd fd) => Some (EHyp (AFd fd))
  | OHyp (HFile s t) => Some (EHyp (AFile s t))
  | OHyp (HGot d) => Some (EHyp (AGot d))
  | OHyp (HPut n) => Some (EHyp (APut n))
  | OHyp (HErr e) => if e =? 0 then None else Some (EHyp AErr)
  | OHyp HAbort => None
  end.

(** The calls for which the host does what rumpuser(3) says. *)
Definition supported (c : hcall) : Prop :=
  match c with
  | HOpen _ mode => 0 <= mode < 2 ^ 31 /\ (mode mod 4 = 0 \/ mode mod 4 = 2) /\ exclusive mode = false
  | HClose fd => - 2 ^ 31 <= fd < 2 ^ 31
  | HInfo _ => True
  | HRead fd iov off => - 2 ^ 31 <= fd < 2 ^ 31 /\ (exists n, iov = [n] /\ 0 < Z.of_nat n <= 2147483647) /\ off <> -1
  | HWrite fd iov off => - 2 ^ 31 <= fd < 2 ^ 31 /\ (exists d, iov = [d] /\ 0 < Z.of_nat (length d) <= 2147483647)
  | HBio | HSync => False
  end.
Definition item_ok (x : item) : Prop := match x with Hyp c => supported c | Other _ => True end.
