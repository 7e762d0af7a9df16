(** Model of the start of a rack, and of the dispatch of the clients' calls: kernel/src/arch/x86_64/rackscale/controller.rs. *)
From Verif Require Import Base.

(** KernelRpc, kernel/src/arch/x86_64/rackscale/kernelrpc.rs:16-60. *)
Inductive rpc := Create | Open | Read | ReadAt | Write | WriteAt | Close | GetInfo | Delete | WriteDirect | FileRename | MkDir | Log
  | AllocatePhysical | ReleasePhysical | RequestCore | ReleaseCore | GetHardwareThreads | GetShmemStructure | GetShmemFrames.
Global Instance rpc_eq_dec : EqDecision rpc.
Proof. solve_decision. Defined.

(** The numbers of the messages, kernelrpc.rs:16-60. *)
Definition rpc_id (r : rpc) : N :=
  match r with
  | Create => 0 | Open => 1 | Read => 2 | ReadAt => 3 | Write => 4 | WriteAt => 5 | Close => 6 | GetInfo => 7 | Delete => 8
  | WriteDirect => 9 | FileRename => 10 | MkDir => 11 | Log => 12 | AllocatePhysical => 13 | ReleasePhysical => 14
  | RequestCore => 15 | ReleaseCore => 16 | GetHardwareThreads => 17 | GetShmemStructure => 18 | GetShmemFrames => 19
  end%N.

(** The functions that handle a call, rackscale/mod.rs:34-62. *)
Inductive handler := handle_close | handle_delete | handle_getinfo | handle_mkdir | handle_open | handle_rename | handle_read | handle_write
  | handle_request_core | handle_release_core | handle_allocate_physical | handle_release_physical | handle_log
  | handle_get_hardware_threads | handle_get_shmem_structure | handle_get_shmem_frames.
Global Instance handler_eq_dec : EqDecision handler.
Proof. solve_decision. Defined.

(** HashMap::get of Server::handlers, lib/rpc/src/server.rs:87-88. *)
Fixpoint find_handler (t : list (N * handler)) (id : N) : option handler :=
  match t with
  | [] => None
  | (i, h) :: t' => if N.eqb i id then Some h else find_handler t' id
  end.

(** Server::register, server.rs:37-46; [None]: Err(DuplicateRPCType), on which register_rpcs panics (unwrap). *)
Definition register (t : option (list (N * handler))) (x : rpc * handler) : option (list (N * handler)) :=
  match t with
  | None => None
  | Some t => match find_handler t (rpc_id x.1) with Some _ => None | None => Some (t ++ [(rpc_id x.1, x.2)]) end
  end.

(** register_rpcs, controller.rs:163-234, in the order of the code.  Note line 214: ReleaseCore gets REQUEST_CORE_HANDLER. *)
Definition register_rpcs : option (list (N * handler)) :=
  fold_left register
    [(Close, handle_close); (Delete, handle_delete); (GetInfo, handle_getinfo); (MkDir, handle_mkdir); (Open, handle_open);
     (FileRename, handle_rename); (Write, handle_write); (WriteAt, handle_write); (Read, handle_read); (ReadAt, handle_read);
     (Log, handle_log); (AllocatePhysical, handle_allocate_physical); (ReleasePhysical, handle_release_physical);
     (RequestCore, handle_request_core); (ReleaseCore, handle_request_core); (GetHardwareThreads, handle_get_hardware_threads);
     (GetShmemStructure, handle_get_shmem_structure); (GetShmemFrames, handle_get_shmem_frames)] (Some []).

(** The handler that try_handle finds, server.rs:84-99. *)
Definition dispatch (r : rpc) : option handler :=
  match register_rpcs with Some t => find_handler t (rpc_id r) | None => None end.

(** Where a controller thread is in run(), controller.rs:31-121. *)
Inductive spc :=
  | SNew      (* 32-64: makes the transport and registers the handlers *)
  | SArrive   (* 66: ClientReadyCount.fetch_add *)
  | SReady    (* 69: waits for DCMServerReady *)
  | SAccept   (* 71-73: add_client: waits for the registration, runs register_client, replies *)
  | SArrive2  (* 75: ClientReadyCount.fetch_add *)
  | SAll      (* 78-80: waits for ClientReadyCount == NUM_MACHINES - 1 *)
  | SServe.   (* 116-120: try_handle for ever *)

(** Where the first thread of the controller is in poll_interface(), controller.rs:123-161. *)
Inductive ppc :=
  | PDcm      (* 124-134: waits for the cluster scheduler to connect *)
  | PWait     (* 138-140: waits for ClientReadyCount == NUM_MACHINES - 1 *)
  | PReset    (* 141: ClientReadyCount.store(0) *)
  | PSignal   (* 144-147: prints CONTROLLER READY, DCMServerReady.store(true) *)
  | PLoop.    (* 149-160 *)

(** Where a client machine is: Client::connect and Client::call, lib/rpc/src/client.rs:21-50, called by initialize_client
    (registration.rs:38-92) and, after it returned, by the system calls of rackscale/. *)
Inductive cpc := CNew | CReg | CRun | CWait (r : rpc).

(** Messages to and from the controller.  The content is left out: only the kind of the call, and which handler made the reply. *)
Inductive req := MReg | MCall (r : rpc).
Inductive rep := RReg | RRes (h : handler).

(** What an observer sees, in time order. *)
Inductive event :=
  | EReady                            (* CONTROLLER READY is printed *)
  | EReg (i : nat)                    (* register_client for client i *)
  | ECall (i : nat) (r : rpc)         (* client i sends a call *)
  | EHandle (i : nat) (r : rpc) (h : handler)  (* the controller runs a handler for the call of client i *)
  | ERet (i : nat) (r : rpc) (h : handler).    (* client i gets the reply that the handler made *)

Record st := St {
  s_cnt : nat;                (* ClientReadyCount, controller.rs:27 *)
  s_ready : bool;             (* DCMServerReady, controller.rs:28 *)
  s_poll : ppc;
  s_srv : nat -> spc;         (* the controller thread on core i, which serves client machine i: CORE_ID = MACHINE_ID, lines 32 and 42 *)
  s_cli : nat -> cpc;
  s_req : nat -> option req;  (* the channel of client i to the controller; a client has one call at a time (the lock of rpc_client) *)
  s_rep : nat -> option rep;
  s_log : list event }.

(** At the start of the controller's threads; clients may be anywhere in their boot. *)
Definition st0 : st := St 0 false PDcm (fun _ => SNew) (fun _ => CNew) (fun _ => None) (fun _ => None) [].

Definition upd {A} (f : nat -> A) (i : nat) (x : A) : nat -> A := fun j => if decide (j = i) then x else f j.
Definition say (s : st) (e : event) : st := St (s_cnt s) (s_ready s) (s_poll s) (s_srv s) (s_cli s) (s_req s) (s_rep s) (s_log s ++ [e]).
Definition set_srv (s : st) i p : st := St (s_cnt s) (s_ready s) (s_poll s) (upd (s_srv s) i p) (s_cli s) (s_req s) (s_rep s) (s_log s).
Definition set_cli (s : st) i p : st := St (s_cnt s) (s_ready s) (s_poll s) (s_srv s) (upd (s_cli s) i p) (s_req s) (s_rep s) (s_log s).
Definition set_req (s : st) i m : st := St (s_cnt s) (s_ready s) (s_poll s) (s_srv s) (s_cli s) (upd (s_req s) i m) (s_rep s) (s_log s).
Definition set_rep (s : st) i m : st := St (s_cnt s) (s_ready s) (s_poll s) (s_srv s) (s_cli s) (s_req s) (upd (s_rep s) i m) (s_log s).
Definition set_cnt (s : st) n : st := St n (s_ready s) (s_poll s) (s_srv s) (s_cli s) (s_req s) (s_rep s) (s_log s).
Definition set_poll (s : st) p : st := St (s_cnt s) (s_ready s) p (s_srv s) (s_cli s) (s_req s) (s_rep s) (s_log s).
Definition set_ready (s : st) b : st := St (s_cnt s) b (s_poll s) (s_srv s) (s_cli s) (s_req s) (s_rep s) (s_log s).

(** One step of controller thread [i] (run); [K] is NUM_MACHINES - 1.  A round of a waiting loop that goes on leaves the state as it is.
    Registration is taken to succeed (the expect of line 73 would stop the machine), and is one step. *)
Definition srv_step (K i : nat) (s : st) : st :=
  match s_srv s i with
  | SNew => match register_rpcs with Some _ => set_srv s i SArrive | None => s end
  | SArrive => set_cnt (set_srv s i SReady) (s_cnt s + 1)
  | SReady => if s_ready s then set_srv s i SAccept else s
  | SAccept => match s_req s i with
               | Some MReg => say (set_rep (set_req (set_srv s i SArrive2) i None) i (Some RReg)) (EReg i)
               | _ => s
               end
  | SArrive2 => set_cnt (set_srv s i SAll) (s_cnt s + 1)
  | SAll => if decide (s_cnt s = K) then set_srv s i SServe else s
  | SServe => match s_req s i with
              | Some (MCall r) => match dispatch r with
                                  | Some h => say (set_rep (set_req s i None) i (Some (RRes h))) (EHandle i r h)
                                  | None => set_req s i None   (* "Invalid RPCType, ignoring", server.rs:94-97 *)
                                  end
              | _ => s
              end
  end.

(** One step of the first thread (poll_interface). *)
Definition poll_step (K : nat) (s : st) : st :=
  match s_poll s with
  | PDcm => set_poll s PWait
  | PWait => if decide (s_cnt s = K) then set_poll s PReset else s
  | PReset => set_cnt (set_poll s PSignal) 0
  | PSignal => say (set_ready (set_poll s PLoop) true) EReady
  | PLoop => s
  end.

(** One step of client machine [i]; [r] is the call it wants to make when it is free. *)
Definition cli_step (i : nat) (r : rpc) (s : st) : st :=
  match s_cli s i with
  | CNew => set_req (set_cli s i CReg) i (Some MReg)
  | CReg => match s_rep s i with Some RReg => set_rep (set_cli s i CRun) i None | _ => s end
  | CRun => say (set_req (set_cli s i (CWait r)) i (Some (MCall r))) (ECall i r)
  | CWait q => match s_rep s i with Some (RRes h) => say (set_rep (set_cli s i CRun) i None) (ERet i q h) | _ => s end
  end.

(** Who moves next.  [T] is the number of controller threads that call run() (one per further core of the controller), [K] that of clients. *)
Inductive act := APoll | ASrv (i : nat) | ACli (i : nat) (r : rpc).
Definition step (T K : nat) (a : act) (s : st) : st :=
  match a with
  | APoll => poll_step K s
  | ASrv i => if decide (1 <= i <= T) then srv_step K i s else s
  | ACli i r => if decide (1 <= i <= K) then cli_step i r s else s
  end.
Definition run (T K : nat) (l : list act) : st := fold_left (fun s a => step T K a s) l st0.

(** An endless schedule. *)
Fixpoint trace (T K : nat) (f : nat -> act) (n : nat) : st :=
  match n with 0 => st0 | S n => step T K (f n) (trace T K f n) end.
