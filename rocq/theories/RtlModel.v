(** Model of the TLB shootdown protocol between the machines of a rack, kernel/src/arch/x86_64/tlb.rs with the
    rackscale feature: remote_shootdown (:418-490), remote_enqueue and remote_dequeue (:201-229), shootdown
    (:311-393), dequeue and enqueue (:175-199), and the interrupt handlers irq.rs:739-751, 772-803.
    Cores are pairs (machine, core of that machine).  Simplifications: which local cores an interrupt reaches is
    the subject of C30, here any core that runs no kernel code can take a local interrupt at any time; work
    other than shootdowns is left out of the local queues; the address range is left out (all objects of a call
    carry the same); memory is sequentially consistent; interrupts are off in kernel code. *)
From Verif Require Import Base.

Notation core := (nat * nat)%type.
(** What a shootdown object was made for: a core, or a machine with the cores of its handle. *)
Inductive target := TCore (g : core) | TMach (m : nat) (cores : list nat).

(** What follows a local shootdown: acknowledging a remote object (remote_dequeue, tlb.rs:219-229), or the
    waiting loop of the remote_shootdown that contains it (:477-488). *)
Inductive kont :=
| KAck (id : nat)
| KRem (rids : list nat) (start : nat) (handles : list (list nat)).
(** What a core is executing, innermost first; none: its process. [start] is the number of objects that existed
    when the call began (ghost).
    [FFlush id]: in process() after the acknowledgement (:154-172).
    [FSend bell todo rids ..]: the loop :437-475, [bell]: about to ring a machine's doorbell.
    [FWait b rids ..]: the loop :482-488; 0: about to test and dequeue, 1: about to remote_dequeue, 2: to drain.
    [FEnq k todo ids goal ..]: the loop :345-367; [FLoc k b ids ..]: the loop :384-390. *)
Inductive frame :=
| FFlush (id : nat)
| FEnq (k : kont) (todo ids : list nat) (goal : list nat) (start : nat)
| FLoc (k : kont) (b : bool) (ids : list nat) (goal : list nat) (start : nat)
| FSend (bell : option nat) (todo : list nat) (rids : list nat) (start : nat) (handles : list (list nat))
| FWait (b : nat) (rids : list nat) (start : nat) (handles : list (list nat)).

Record rst := mkR {
  r_rq : nat -> list (nat * list nat);      (* RACKSCALE_CLIENT_WORKQUEUES, tlb.rs:48-101: object and handle *)
  r_lq : core -> list nat;                  (* IPI_WORKQUEUE, tlb.rs:105-119 *)
  r_pend : nat -> bool;                     (* the doorbell's vector is pending at the machine's core 0 *)
  r_ack : list nat;
  r_st : core -> list frame;
  r_flushed : list (core * nat);            (* history *)
  r_tgt : list target;                      (* every object made so far *)
  r_done : list (core * list (list nat) * nat);  (* history: finished calls (core, handles, start) *)
  r_crash : bool }.
Definition w_rq (s : rst) x := mkR x (r_lq s) (r_pend s) (r_ack s) (r_st s) (r_flushed s) (r_tgt s) (r_done s) (r_crash s).
Definition w_lq (s : rst) x := mkR (r_rq s) x (r_pend s) (r_ack s) (r_st s) (r_flushed s) (r_tgt s) (r_done s) (r_crash s).
Definition w_pend (s : rst) x := mkR (r_rq s) (r_lq s) x (r_ack s) (r_st s) (r_flushed s) (r_tgt s) (r_done s) (r_crash s).
Definition w_ack (s : rst) x := mkR (r_rq s) (r_lq s) (r_pend s) x (r_st s) (r_flushed s) (r_tgt s) (r_done s) (r_crash s).
Definition w_st (s : rst) x := mkR (r_rq s) (r_lq s) (r_pend s) (r_ack s) x (r_flushed s) (r_tgt s) (r_done s) (r_crash s).
Definition w_flushed (s : rst) x := mkR (r_rq s) (r_lq s) (r_pend s) (r_ack s) (r_st s) x (r_tgt s) (r_done s) (r_crash s).
Definition w_tgt (s : rst) x := mkR (r_rq s) (r_lq s) (r_pend s) (r_ack s) (r_st s) (r_flushed s) x (r_done s) (r_crash s).
Definition w_done (s : rst) x := mkR (r_rq s) (r_lq s) (r_pend s) (r_ack s) (r_st s) (r_flushed s) (r_tgt s) x (r_crash s).
Definition w_crash (s : rst) := mkR (r_rq s) (r_lq s) (r_pend s) (r_ack s) (r_st s) (r_flushed s) (r_tgt s) (r_done s) true.

Definition r_init : rst := mkR (fun _ => []) (fun _ => []) (fun _ => false) [] (fun _ => []) [] [] [] false.

Definition set_core {A} (f : core -> A) (g : core) (x : A) : core -> A := fun h => if Nat.eqb (fst h) (fst g) && Nat.eqb (snd h) (snd g) then x else f h.
Definition set_mach {A} (f : nat -> A) (m : nat) (x : A) : nat -> A := fun h => if Nat.eqb h m then x else f h.
Definition w_top (s : rst) (g : core) (st : list frame) : rst := w_st s (set_core (r_st s) g st).

(** dequeue, tlb.rs:188-199, with [rest] the rest of what the core has to do. *)
Definition r_dequeue (s : rst) (g : core) (rest : list frame) : rst :=
  match r_lq s g with
  | [] => w_top s g rest
  | id :: q => w_top (w_ack (w_lq s (set_core (r_lq s) g q)) (id :: r_ack s)) g (FFlush id :: rest)
  end.
(** remote_dequeue, tlb.rs:217-229; machine 0 has no queue. *)
Definition r_remote_dequeue (s : rst) (g : core) (rest : list frame) : rst :=
  if Nat.eqb (fst g) 0 then w_crash s else
  match r_rq s (fst g) with
  | [] => w_top s g rest
  | (id, cores) :: q =>
      w_top (w_rq s (set_mach (r_rq s) (fst g) q)) g (FEnq (KAck id) cores [] cores (length (r_tgt s)) :: rest)
  end.

(** One step of the kernel code core [g] executes. [cap]: capacity of the local queues; [rcap]:
    REMOTE_WORKQUEUE_CAPACITY (tlb.rs:45); [n]: cores per machine; [nm]: machines. *)
Definition r_step (cap rcap n nm : nat) (s : rst) (g : core) : option rst :=
  let m := fst g in
  match r_st s g with
  | [] => None
  | FFlush id :: st => Some (w_top (w_flushed s ((g, id) :: r_flushed s)) g st)          (* :158-171 *)
  | FEnq k (c :: todo) ids goal start :: st =>
      if Nat.eqb c (snd g) then Some (w_top s g (FEnq k todo ids goal start :: st))      (* :346 *)
      else if negb (Nat.ltb c n) then Some (w_crash s)                                   (* :347, :182 *)
      else if Nat.ltb (length (r_lq s (m, c))) cap then
        let id := length (r_tgt s) in
        let s1 := w_lq (w_tgt s (r_tgt s ++ [TCore (m, c)])) (set_core (r_lq s) (m, c) (r_lq s (m, c) ++ [id])) in
        Some (w_top s1 g (FEnq k todo (ids ++ [id]) goal start :: st))                   (* :360-365 *)
      else Some (w_crash s)                                                              (* :182-185 *)
  | FEnq k [] ids goal start :: st =>                                                    (* :379-381 *)
      let id := length (r_tgt s) in
      let s1 := w_flushed (w_ack (w_tgt s (r_tgt s ++ [TCore g])) (id :: r_ack s)) ((g, id) :: r_flushed s) in
      Some (w_top s1 g (FLoc k false ids goal start :: st))
  | FLoc k false [] goal start :: st =>
      match k with
      | KAck id => Some (w_top (w_ack s (id :: r_ack s)) g st)                           (* :225 *)
      | KRem rids start' handles => Some (w_top s g (FWait 0 rids start' handles :: st))
      end
  | FLoc k false ids goal start :: st => Some (r_dequeue s g (FLoc k true ids goal start :: st))
  | FLoc k true ids goal start :: st =>
      Some (w_top s g (FLoc k false (base.filter (fun x => x ∉ r_ack s) ids) goal start :: st))
  | FSend (Some i) todo rids start handles :: st =>                                      (* :472-473 *)
      Some (w_top (w_pend s (set_mach (r_pend s) i true)) g (FSend None todo rids start handles :: st))
  | FSend None (i :: todo) rids start handles :: st =>
      match handles !! i with
      | None => Some (w_crash s)
      | Some cores =>
          if Nat.eqb i m || Nat.eqb (length cores) 0 then
            Some (w_top s g (FSend None todo rids start handles :: st))                  (* :439 *)
          else if negb (Nat.ltb i nm) then Some (w_crash s)                              (* :211 *)
          else if Nat.ltb (length (r_rq s i)) rcap then
            let id := length (r_tgt s) in
            let s1 := w_rq (w_tgt s (r_tgt s ++ [TMach i cores])) (set_mach (r_rq s) i (r_rq s i ++ [(id, cores)])) in
            Some (w_top s1 g (FSend (Some i) todo (rids ++ [id]) start handles :: st))   (* :450-464 *)
          else Some (w_crash s)                                                          (* :213 *)
      end
  | FSend None [] rids start handles :: st =>                                            (* :477 *)
      match handles !! m with
      | None => Some (w_crash s)
      | Some cores => Some (w_top s g (FEnq (KRem rids start handles) cores [] cores start :: st))
      end
  | FWait 0 [] start handles :: st => Some (w_top (w_done s ((g, handles, start) :: r_done s)) g st)
  | FWait 0 rids start handles :: st => Some (r_dequeue s g (FWait 1 rids start handles :: st))
  | FWait 1 rids start handles :: st => Some (r_remote_dequeue s g (FWait 2 rids start handles :: st))
  | FWait _ rids start handles :: st =>
      Some (w_top s g (FWait 0 (base.filter (fun x => x ∉ r_ack s) rids) start handles :: st))
  end.

(** Scheduling choices: a core executes its kernel code, a core calls remote_shootdown (:418-436), a core takes
    a local interrupt (irq.rs:739-742), core 0 of a machine takes the interrupt of the doorbell
    (irq.rs:772-789; the vector is routed to core 0, kernel/src/arch/x86_64/mod.rs:436-440). *)
Inductive rlabel := RStep (g : core) | RCall (g : core) (handles : list (list nat)) | RIrq (g : core) | RMsi (m : nat).
Definition r_label (cap rcap n nm : nat) (s : rst) (l : rlabel) : option rst :=
  if r_crash s then None else
  match l with
  | RStep g => r_step cap rcap n nm s g
  | RCall g handles =>
      match r_st s g with
      | [] => match handles !! fst g with
              | None => Some (w_crash s)                                                 (* :428 *)
              | Some _ => Some (w_top s g [FSend None (seq 1 (length handles - 1)) [] (length (r_tgt s)) handles])
              end
      | _ => None
      end
  | RIrq g => match r_st s g with [] => Some (r_dequeue s g []) | _ => None end
  | RMsi m =>
      match r_st s (m, 0), r_pend s m with
      | [], true => Some (r_remote_dequeue (w_pend s (set_mach (r_pend s) m false)) (m, 0) [])
      | _, _ => None
      end
  end.
(** Runs; a choice that is not enabled is skipped. *)
Fixpoint r_run (cap rcap n nm : nat) (s : rst) (tr : list rlabel) : rst :=
  match tr with
  | [] => s
  | l :: tr => r_run cap rcap n nm (default s (r_label cap rcap n nm s l)) tr
  end.
