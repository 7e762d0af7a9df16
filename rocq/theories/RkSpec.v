(** Specification of file system calls in a rack: one file system, on which every call of a
    client is one atomic local call. *)
From Verif Require Import Base FileModel RpcModel FsModel RkModel.
From stdpp Require Import functions.

(** A call made on the machine that has the file system (the same functions of cnrfs.rs,
    called directly): result, bytes read, new file system; None = it panics. *)
Definition bytes_read (r : res nresult) : list N :=
  match r with Ok (FileRed n d) => take n d | _ => [] end.
Definition local_call (avail : nat) (n : node) (c : fcall) : option fres * node :=
  let '(r, n') := step avail n (req_of c) in
  (match kres_of r with Some k => Some (k, bytes_read r) | None => None end, n').

(** Arguments as their types have them: words of 64 bits, descriptors below the limit, paths
    that are UTF-8. *)
Definition well_typed (c : fcall) : Prop :=
  match c with
  | COpen pid path flags modes => (pid < U64 /\ flags < U64 /\ modes < U64)%N /\ utf8 (str_bytes path) = true
  | CRead pid fd len off => (pid < U64)%N /\ fd < MAX_FILES_PER_PROCESS /\ (N.of_nat len < U64)%N /\
      (- 2 ^ 63 <= off < 2 ^ 63)%Z
  | CWrite pid fd d off => (pid < U64)%N /\ fd < MAX_FILES_PER_PROCESS /\ (- 2 ^ 63 <= off < 2 ^ 63)%Z
  | CClose pid fd => (pid < U64)%N /\ fd < MAX_FILES_PER_PROCESS
  | CInfo pid path | CDelete pid path => (pid < U64)%N /\ utf8 (str_bytes path) = true
  | CRename pid old new => (pid < U64)%N /\ utf8 (str_bytes old) = true /\ utf8 (str_bytes new) = true
  | CMkDir pid path modes => (pid < U64 /\ modes < U64)%N /\ utf8 (str_bytes path) = true
  end.

(** The calls that fit the transport: a message has at most 8188 bytes besides its header; a
    read has at most 8192 bytes. *)
Definition str_len (s : string) : N := N.of_nat (String.length s).
Definition transferable (c : fcall) : Prop :=
  match c with
  | COpen _ path _ _ => 24 + str_len path <= 8188
  | CRead _ _ len _ => N.of_nat len <= 8192
  | CWrite _ _ d _ => 40 + N.of_nat (length d) <= 8188
  | CClose _ _ => True
  | CInfo _ path | CDelete _ path => 8 + str_len path <= 8188
  | CRename _ old new => 16 + str_len old + str_len new <= 8188
  | CMkDir _ path _ => 16 + str_len path <= 8188
  end%N.

(** What a client does: nothing; a call that has not taken effect; a call that has taken
    effect, with its result; about to panic; panicked. *)
Inductive cstat := CsIdle | CsPend (c : fcall) | CsDone (r : fres) | CsBad | CsDead.

(** The file system with the supplies of memory for its operations, the clients, and whether the
    controller has stopped. *)
Definition lstate : Type := node * list nat * (nat -> cstat) * bool.

Inductive l_step : lstate -> gev -> lstate -> Prop :=
| L_call n av f d i c : f i = CsIdle -> transferable c ->
    l_step (n, av, f, d) (GvCall i c) (n, av, <[i := CsPend c]> f, d)
| L_call_large n av f d i c : f i = CsIdle -> ~ transferable c ->
    l_step (n, av, f, d) (GvCall i c) (n, av, <[i := CsBad]> f, d)
| L_panic n av f d i : f i = CsBad ->
    l_step (n, av, f, d) (GvPanic i) (n, av, <[i := CsDead]> f, d)
| L_effect n av f i c r n' : f i = CsPend c -> local_call (hd 0 av) n c = (Some r, n') ->
    l_step (n, av, f, false) (GvServe i) (n', tl av, <[i := CsDone r]> f, false)
| L_crash n av f i c n' : f i = CsPend c -> local_call (hd 0 av) n c = (None, n') ->
    l_step (n, av, f, false) (GvCrash i) (n', tl av, f, true)
| L_return n av f d i r : f i = CsDone r ->
    l_step (n, av, f, d) (GvRet i r) (n, av, <[i := CsIdle]> f, d)
| L_add n av f pid x n' : step (hd 0 av) n (RAddProcess pid) = (Ok x, n') ->
    l_step (n, av, f, false) (GvAddProcess pid) (n', tl av, f, false)
| L_add_twice n av f pid e n' : step (hd 0 av) n (RAddProcess pid) = (Err e, n') ->
    l_step (n, av, f, false) (GvAddFailed pid) (n', tl av, f, true).

Inductive l_steps : lstate -> list gev -> lstate -> Prop :=
| LS_nil a : l_steps a [] a
| LS_cons a e b es c : l_step a e b -> l_steps b es c -> l_steps a (e :: es) c.

(** Shared buffers of 8192 bytes that do not overlap and do not wrap. *)
Definition disjoint_buffers (bufs : list N) : Prop :=
  (forall i p, bufs !! i = Some p -> (p + 8192 <= U64)%N) /\
  forall i j p q, i <> j -> bufs !! i = Some p -> bufs !! j = Some q -> (p + 8192 <= q \/ q + 8192 <= p)%N.

Definition call_typed (a : gact) : Prop := match a with GCall _ c => well_typed c | _ => True end.
