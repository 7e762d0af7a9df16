(** Specification for C75: the start of a rack. *)
From Verif Require Import Base RsuModel.

(** The handler each call is meant for, by its name (rackscale/mod.rs:34-62); no code sends Create and WriteDirect. *)
Definition meant (r : rpc) : option handler :=
  match r with
  | Create | WriteDirect => None
  | Open => Some handle_open | Read | ReadAt => Some handle_read | Write | WriteAt => Some handle_write
  | Close => Some handle_close | GetInfo => Some handle_getinfo | Delete => Some handle_delete | FileRename => Some handle_rename
  | MkDir => Some handle_mkdir | Log => Some handle_log | AllocatePhysical => Some handle_allocate_physical
  | ReleasePhysical => Some handle_release_physical | RequestCore => Some handle_request_core | ReleaseCore => Some handle_release_core
  | GetHardwareThreads => Some handle_get_hardware_threads | GetShmemStructure => Some handle_get_shmem_structure
  | GetShmemFrames => Some handle_get_shmem_frames
  end.

(** What an observer sees of the calls of client [i]. *)
Definition of_client (i : nat) (e : event) : bool :=
  match e with ECall j _ | EHandle j _ _ | ERet j _ _ => Nat.eqb j i | _ => false end.
Fixpoint calls_of (i : nat) (l : list event) : list event :=
  match l with [] => [] | e :: l => if of_client i e then e :: calls_of i l else calls_of i l end.

(** Calls of client [i] one after the other, each handled once, by the handler it is for (which is given), the last maybe not finished. *)
Inductive in_turn (d : rpc -> option handler) (i : nat) : list event -> Prop :=
  | it_nil : in_turn d i []
  | it_sent r : in_turn d i [ECall i r]
  | it_handled r h : d r = Some h -> in_turn d i [ECall i r; EHandle i r h]
  | it_call r h l : d r = Some h -> in_turn d i l -> in_turn d i (ECall i r :: EHandle i r h :: ERet i r h :: l).

(** Every thread and every machine gets to run again and again. *)
Definition fair (T K : nat) (f : nat -> act) : Prop :=
  (forall n, exists m, n <= m /\ f m = APoll) /\
  (forall i n, 1 <= i <= T -> exists m, n <= m /\ f m = ASrv i) /\
  (forall i n, 1 <= i <= K -> exists m r, n <= m /\ f m = ACli i r).
