(** Model of the controller's bookkeeping of the hardware threads of its clients,
    kernel/src/arch/x86_64/rackscale/controller_state.rs, and of the two handlers that use it
    (processops/request_core.rs, processops/release_core.rs, controller.rs).

    A step is one critical section.  The scheduler's choice of a machine is an input. *)
From Verif Require Import Base TlbModel SysModel NodeModel.

(** MAX_MACHINES, kernel/src/arch/x86_64/mod.rs:72 (MAX_CORES = 192 is in NodeModel). *)
Definition MAX_MACHINES : nat := 16.
Definition THM_MAX_CORES : nat := 192.

(** ThreadMap, controller_state.rs:54-57. *)
Record tmap := mkTm { tm_n : nat; tm_map : cbm }.
(** ThreadMap::new, 60-66. *)
Definition tm_new : tmap := mkTm 0 (mkCbm 0 0).
(** mark_thread_free, 78-81. *)
Definition tm_mark (dbg : bool) (t : tmap) (mtid : nat) : res tmap :=
  if dbg && negb (mtid <? tm_n t) then Panic
  else let? m := cbm_set (tm_map t) (N.of_nat mtid) true in Ok (mkTm (tm_n t) m).
(** The loop of init, 73-75, at index [i] with [k] rounds to go. *)
Fixpoint tm_mark_from (dbg : bool) (k i : nat) (t : tmap) : res tmap :=
  match k with
  | 0 => Ok t
  | S k => let? t' := tm_mark dbg t i in tm_mark_from dbg k (S i) t'
  end.
(** ThreadMap::init, 68-76: the bits already set stay set. *)
Definition tm_init (dbg : bool) (t : tmap) (n : nat) : res tmap :=
  if dbg && negb (n <=? 256) then Panic else tm_mark_from dbg n 0 (mkTm n (tm_map t)).
(** claim_first_free_thread, 83-92. *)
Definition tm_claim (t : tmap) : res (option nat * tmap) :=
  match cbm_next (tm_map t) with
  | Some (mtid, _) =>
    if (mtid <? N.of_nat (tm_n t))%N then
      let? m := cbm_set (tm_map t) mtid false in Ok (Some (N.to_nat mtid), mkTm (tm_n t) m)
    else Ok (None, t)
  | None => Ok (None, t)
  end.

(** CpuThread, lib/kpi/src/system.rs: its global id and its NUMA node (the other ids are only
    copied). *)
Record cput := mkCpuT { ct_id : N; ct_node : N }.

(** ControllerState, 95-103. *)
Record ctl := mkCtl { c_hw : list cput; c_maps : list tmap; c_affs : list (list N) }.
(** CONTROLLER_STATE, 146-162. *)
Definition ctl_new : ctl := mkCtl [] (replicate MAX_MACHINES tm_new) (replicate MAX_MACHINES []).

(** [mid - 1] as an index: underflow panics in a debug build, and out of bounds panics in both. *)
Definition midx (mid : nat) : option nat :=
  match mid with 0 => None | S i => if i <? MAX_MACHINES then Some i else None end.

(** The pushes of 111-114: ArrayVec::push panics when the vector is full. *)
Fixpoint push_threads (affs : list N) (hw : list cput) (ts : list cput) : res (list N * list cput) :=
  match ts with
  | [] => Ok (affs, hw)
  | t :: ts =>
    if length affs <? THM_MAX_CORES then
      if length hw <? MAX_MACHINES * THM_MAX_CORES then push_threads (affs ++ [ct_node t]) (hw ++ [t]) ts else Panic
    else Panic
  end.
(** init_client_state, first critical section, 107-115. *)
Definition ctl_reg_a (s : ctl) (mid : nat) (ts : list cput) : res ctl :=
  match midx mid with
  | None => Panic
  | Some i =>
    match c_affs s !! i with
    | None => Panic
    | Some affs => let? p := push_threads affs (c_hw s) ts in Ok (mkCtl p.2 (c_maps s) (<[i := p.1]> (c_affs s)))
    end
  end.
(** init_client_state, second critical section, 116-117. *)
Definition ctl_reg_b (dbg : bool) (s : ctl) (mid n : nat) : res ctl :=
  match midx mid with
  | None => Panic
  | Some i =>
    match c_maps s !! i with
    | None => Panic
    | Some t => let? t' := tm_init dbg t n in Ok (mkCtl (c_hw s) (<[i := t']> (c_maps s)) (c_affs s))
    end
  end.
(** claim_hardware_thread, 128-140. *)
Definition ctl_claim (s : ctl) (mid : nat) : res (option (N * N) * ctl) :=
  match midx mid with
  | None => Panic
  | Some i =>
    match c_maps s !! i, c_affs s !! i with
    | Some t, Some affs =>
      let? p := tm_claim t in
      let s' := mkCtl (c_hw s) (<[i := p.2]> (c_maps s)) (c_affs s) in
      match p.1 with
      | Some mtid =>
        match affs !! mtid with
        | Some a => Ok (Some (new_gtid (N.of_nat mtid) (N.of_nat mid), a), s')
        | None => Panic
        end
      | None => Ok (None, s')
      end
    | _, _ => Panic
    end
  end.

(** Steps of the controller's threads. *)
Inductive cact := CRegA (mid : nat) (ts : list cput) | CRegB (mid n : nat) | CClaim (mid : nat).
(** A history; the second component lists the results of the claims. *)
Fixpoint ctl_run (dbg : bool) (s : ctl) (l : list cact) : res (ctl * list (nat * option (N * N))) :=
  match l with
  | [] => Ok (s, [])
  | CRegA mid ts :: l => let? s' := ctl_reg_a s mid ts in ctl_run dbg s' l
  | CRegB mid n :: l => let? s' := ctl_reg_b dbg s mid n in ctl_run dbg s' l
  | CClaim mid :: l => let? p := ctl_claim s mid in let? q := ctl_run dbg p.2 l in Ok (q.1, (mid, p.1) :: q.2)
  end.

(** ** The handlers *)

(** The controller with the scheduler's replica (KernelNode). *)
Record rack := mkRack { k_ctl : ctl; k_node : knode }.
(** handle_request_core, request_core.rs:60-106, after decoding: [mid] is the scheduler's
    choice (line 74); a missing free thread panics (76-78). *)
Definition h_request_core (oom : bool) (s : rack) (pid : nat) (entry : N) (mid : nat) : res (res N * rack) :=
  let? p := ctl_claim (k_ctl s) mid in
  match p.1 with
  | None => Panic
  | Some (gtid, _) =>
    let '(kn, r) := kn_step true oom (k_node s) (KAllocCore pid (Some gtid) entry) in
    match r with
    | Ok _ => Ok (Ok gtid, mkRack p.2 kn)
    | Err e => Ok (Err e, mkRack p.2 kn)
    | Panic => Panic
    end
  end.
(** rpc_release_core, release_core.rs:25-61: the core is released in the replica, then the
    controller is called.  controller.rs:213-215 registers the handler of RequestCore for the
    message ReleaseCore, so the message is decoded as a request: [pid'], [entry'] stand for
    what this gives and [mid] for the scheduler's choice. *)
Definition rack_release (oom : bool) (s : rack) (pid : nat) (gtid : N) (pid' : nat) (entry' : N) (mid : nat) : res (res N * rack) :=
  let '(kn, r) := kn_step true oom (k_node s) (NodeModel.KReleaseCore pid gtid) in
  match r with
  | Ok _ => h_request_core oom (mkRack (k_ctl s) kn) pid' entry' mid
  | Err e => Ok (Err e, mkRack (k_ctl s) kn)
  | Panic => Panic
  end.
