(** Model of the controller's requests to the external cluster scheduler (DCM) and of the
    scheduler's notifications.  kernel/src/arch/x86_64/rackscale/dcm/resource_alloc.rs,
    dcm/mod.rs.

    One step is one critical section of the assignment table's lock, or one access to an
    atomic.  Allocation ids are unbounded here (u64 in the code).  The calls to the scheduler
    itself (the RPC that returns the allocation id) and its decisions are inputs. *)
From Verif Require Import Base.

(** An AtomicU64 behind an Arc: its value, and (for the proofs only) the allocation id it was
    created for.  Arcs are indices into the list of all atomics ever created. *)
Record cell := mkCell { c_key : nat; c_val : nat }.

Inductive qpc :=
  | QCalled          (* the allocation id has been received, resource_alloc.rs:78-88 *)
  | QWait            (* in the loop of resource_alloc.rs:124-148, before the load *)
  | QGot (v : nat).  (* a non-zero value was loaded, before the table is locked *)

(** A call of dcm_resource_alloc: q_base is the index of the first of its atomics
    (resource_alloc.rs:91-96), q_recv is received_allocations, q_oc and q_om the two result
    vectors.  q_early (for the proofs only): the indices recorded at registration. *)
Record dreq := mkReq {
  q_id : nat; q_cores : nat; q_mem : nat; q_pc : qpc; q_base : nat;
  q_recv : nat; q_oc : list nat; q_om : list nat; q_early : list nat }.
Definition q_n (r : dreq) : nat := q_cores r + q_mem r.

(** IN_FLIGHT_DCM_ASSIGNMENTS (mod.rs:50-53), the atomics, the calls; d_noted: the
    notifications handled so far (for the statements only). *)
Record dcm := mkDcm { d_tbl : gmap nat nat; d_cells : list cell; d_reqs : list dreq; d_noted : list (nat * nat) }.
Definition dcm_init : dcm := mkDcm ∅ [] [] [].

(** An atomic load. *)
Definition cell_val (cs : list cell) (c : nat) : nat := match cs !! c with Some x => c_val x | None => 0 end.

(** handle_dcm_node_assignment, mod.rs:55-85. *)
Definition dcm_notify (s : dcm) (id mid : nat) : dcm :=
  match d_tbl s !! id with
  | Some c => mkDcm (d_tbl s) (alter (fun x => mkCell (c_key x) mid) c (d_cells s)) (d_reqs s) (d_noted s ++ [(id, mid)])
  | None => mkDcm (<[id := length (d_cells s)]> (d_tbl s)) (d_cells s ++ [mkCell id mid]) (d_reqs s) (d_noted s ++ [(id, mid)])
  end.

(** Pushing an assignment: to the cores' or the memory slices' vector, resource_alloc.rs:112-116
    and 141-145. *)
Definition push_out (r : dreq) (i v : nat) : dreq :=
  if decide (i < q_cores r) then mkReq (q_id r) (q_cores r) (q_mem r) (q_pc r) (q_base r) (q_recv r) (q_oc r ++ [v]) (q_om r) (q_early r)
  else mkReq (q_id r) (q_cores r) (q_mem r) (q_pc r) (q_base r) (q_recv r) (q_oc r) (q_om r ++ [v]) (q_early r).
Definition set_pc (r : dreq) (pc : qpc) : dreq :=
  mkReq (q_id r) (q_cores r) (q_mem r) pc (q_base r) (q_recv r) (q_oc r) (q_om r) (q_early r).
Definition bump_recv (r : dreq) : dreq :=
  mkReq (q_id r) (q_cores r) (q_mem r) (q_pc r) (q_base r) (S (q_recv r)) (q_oc r) (q_om r) (q_early r).
Definition add_early (r : dreq) (i : nat) : dreq :=
  mkReq (q_id r) (q_cores r) (q_mem r) (q_pc r) (q_base r) (q_recv r) (q_oc r) (q_om r) (q_early r ++ [i]).

(** The loop of resource_alloc.rs:106-120, at index [i], [k] rounds to go.  Note the removal
    of [alloc_id + 1], where [alloc_id + i] is meant (line 118). *)
Fixpoint reg_loop (k i : nat) (cs : list cell) (tbl : gmap nat nat) (r : dreq) : gmap nat nat * dreq :=
  match k with
  | 0 => (tbl, r)
  | S k =>
    let tbl' := <[q_id r + i := q_base r + i]> tbl in
    match tbl !! (q_id r + i) with
    | Some c => reg_loop k (S i) cs (delete (q_id r + 1) tbl') (add_early (bump_recv (push_out r i (cell_val cs c))) i)
    | None => reg_loop k (S i) cs tbl' r
    end
  end.

Inductive dact :=
  | ABegin (id cores mem : nat)   (* a call gets its allocation id; resource_alloc.rs:55-96 *)
  | ARegister (q : nat)           (* resource_alloc.rs:104-121, one critical section *)
  | APoll (q : nat)               (* a step of the loop of resource_alloc.rs:124-148 *)
  | ANotify (id mid : nat).       (* a notification is handled *)

(** New atomics of a call, resource_alloc.rs:91-96. *)
Fixpoint new_cells (id n : nat) : list cell :=
  match n with 0 => [] | S n => mkCell id 0 :: new_cells (S id) n end.

Definition dcm_step (s : dcm) (a : dact) : dcm :=
  match a with
  | ABegin id cores mem =>
    mkDcm (d_tbl s) (d_cells s ++ new_cells id (cores + mem))
      (d_reqs s ++ [mkReq id cores mem QCalled (length (d_cells s)) 0 [] [] []]) (d_noted s)
  | ARegister q =>
    match d_reqs s !! q with
    | Some r =>
      match q_pc r with
      | QCalled =>
        let '(tbl, r') := reg_loop (q_n r) 0 (d_cells s) (d_tbl s) r in
        mkDcm tbl (d_cells s) (<[q := set_pc r' QWait]> (d_reqs s)) (d_noted s)
      | _ => s
      end
    | None => s
    end
  | APoll q =>
    match d_reqs s !! q with
    | Some r =>
      match q_pc r with
      | QCalled => s
      | QWait =>
        if decide (q_recv r < q_n r) then
          match cell_val (d_cells s) (q_base r + q_recv r) with
          | 0 => s
          | v => mkDcm (d_tbl s) (d_cells s) (<[q := set_pc r (QGot v)]> (d_reqs s)) (d_noted s)
          end
        else s
      | QGot v =>
        mkDcm (delete (q_recv r + q_id r) (d_tbl s)) (d_cells s)
          (<[q := set_pc (bump_recv (push_out r (q_recv r) v)) QWait]> (d_reqs s)) (d_noted s)
      end
    | None => s
    end
  | ANotify id mid => dcm_notify s id mid
  end.
Fixpoint dcm_run (s : dcm) (l : list dact) : dcm :=
  match l with [] => s | a :: l => dcm_run (dcm_step s a) l end.
