(** Model of core sets (kernel/src/memory/vspace.rs) and of the TLB shootdown protocol
    (kernel/src/arch/x86_64/tlb.rs). *)
From Verif Require Import Base.
From stdpp Require Import functions.
From stdpp Require Import list.

(** ** CoreBitMap *)

(** CoreBitMap, vspace.rs:55-59: two u128. *)
Record cbm := mkCbm { cb_low : N; cb_high : N }.

(** BitField::set_bit on u128 (bit_field crate): asserts that the index is below 128. *)
Definition u128_set_bit (x : N) (bit : N) (v : bool) : res N :=
  if (bit <? 128)%N then Ok (if v then N.setbit x bit else N.clearbit x bit) else Panic.

(** CoreBitMap::set_bit, vspace.rs:64-71. *)
Definition cbm_set (m : cbm) (bit : N) (v : bool) : res cbm :=
  if (bit <=? 127)%N then
    match u128_set_bit (cb_low m) bit v with
    | Ok l => Ok (mkCbm l (cb_high m)) | Err e => Err e | Panic => Panic end
  else
    match u128_set_bit (cb_high m) (bit - 128) v with
    | Ok h => Ok (mkCbm (cb_low m) h) | Err e => Err e | Panic => Panic end.

(** CoreBitMap::is_empty, vspace.rs:74-76. *)
Definition cbm_is_empty (m : cbm) : bool := (cb_low m =? 0)%N && (cb_high m =? 0)%N.

(** u128::trailing_zeros for a non-zero value. *)
Fixpoint ctz_pos (p : positive) : N :=
  match p with xO q => N.succ (ctz_pos q) | _ => 0%N end.
Definition ctz (x : N) : N := match x with N0 => 128%N | Npos p => ctz_pos p end.

(** u128::wrapping_neg. *)
Definition wneg128 (x : N) : N := ((2^128 - x) mod 2^128)%N.

(** CoreBitMapIter::next, vspace.rs:81-100 (the debug assertion holds by the first
    test). *)
Definition cbm_next (m : cbm) : option (N * cbm) :=
  if (cb_low m =? 0)%N && (cb_high m =? 0)%N then None
  else if (0 <? cb_low m)%N then
    let lsb := N.land (cb_low m) (wneg128 (cb_low m)) in
    Some (ctz (cb_low m), mkCbm (N.lxor (cb_low m) lsb) (cb_high m))
  else
    let lsb := N.land (cb_high m) (wneg128 (cb_high m)) in
    Some ((128 + ctz (cb_high m))%N, mkCbm (cb_low m) (N.lxor (cb_high m) lsb)).

(** Iterating until [None] (for loops over [cores()], tlb.rs:345); [fuel] bounds the
    number of items. *)
Fixpoint cbm_iter (fuel : nat) (m : cbm) : list N :=
  match fuel with
  | O => []
  | S fuel => match cbm_next m with Some (i, m') => i :: cbm_iter fuel m' | None => [] end
  end.

(** ** TLB shootdown *)

(** Cluster number and address within the cluster of an x2APIC id; the x86 crate's
    x2apic_logical_cluster_id and x2apic_logical_cluster_address (id bits 19:4 and 3:0,
    see the comment in tlb.rs:35-38; the crate itself is not part of the repository). *)
Definition cluster_of (apic : N) : N := (apic / 16 mod 2^16)%N.
Definition addr_of (apic : N) : N := (apic mod 16)%N.

(** The initial array of tlb.rs:318-335: element k is k << 16. *)
Definition ldr_init : list N := map (fun k => N.shiftl (N.of_nat k) 16) (seq 0 16).

(** cluster_destination[cluster].set_bit(addr), tlb.rs:358; None = index out of bounds
    (panic). *)
Definition ldr_add (ldrs : list N) (apic : N) : option (list N) :=
  v ← ldrs !! N.to_nat (cluster_of apic);
  Some (<[N.to_nat (cluster_of apic) := N.setbit v (addr_of apic)]> ldrs).

(** The test [cluster_ldr.get_bits(0..=3) != 0], tlb.rs:373. *)
Definition ldr_sent (v : N) : bool := negb (N.land v 15 =? 0)%N.

(** Does a multicast to [v] in logical x2APIC mode reach the core with this id?
    (Intel SDM, quoted in tlb.rs:31-38.) *)
Definition ldr_reaches (v apic : N) : bool :=
  (N.shiftr v 16 =? cluster_of apic)%N && N.testbit v (addr_of apic).

(** WorkItem, tlb.rs:121-125; a shootdown object is named by a number. *)
Inductive item := IShoot (id : nat) | IAdv.

(** Where a core is.
    [PUser]: not in the shootdown code (running the process or idle).
    [PEnq todo cl ids all]: loop of tlb.rs:345-367, [cl] = cluster_destination,
    [ids] = shootdowns.
    [PIpi vs ids all]: loop of tlb.rs:370-377.
    [PWait b ids all]: loop of tlb.rs:384-390; [b = false]: about to test
    is_empty() and dequeue, [b = true]: about to drain.
    [all] records every shootdown object created by this call (ghost). *)
Inductive phase :=
| PUser
| PEnq (todo : list nat) (cl : list N) (ids all : list nat)
| PIpi (vs : list N) (ids all : list nat)
| PWait (b : bool) (ids all : list nat).

(** Shootdown::process in two steps (tlb.rs:154-172): it acknowledges first; [HFlush id]
    is the state between the acknowledgement and the end of the flush. *)
Inductive hnd := HNone | HFlush (id : nat).

Record tst := mkT {
  t_q : nat -> list item;          (* IPI_WORKQUEUE, tlb.rs:105-119 *)
  t_ack : list nat;                (* objects whose ack flag is set *)
  t_pend : nat -> bool;            (* TLB_WORK_PENDING pending at the local APIC: one bit per vector *)
  t_ph : nat -> phase;
  t_h : nat -> hnd;
  t_flushed : list (nat * nat);    (* history: (core, object) flushes completed *)
  t_tgt : list nat;                (* object -> core it was made for; length = next name *)
  t_done : list (nat * list nat * list nat);  (* history: finished calls (core, targets, objects) *)
  t_goal : nat -> list nat;        (* targets of the call a core is executing (ghost) *)
  t_crash : bool }.

Definition set_q (s : tst) q := mkT q (t_ack s) (t_pend s) (t_ph s) (t_h s) (t_flushed s) (t_tgt s) (t_done s) (t_goal s) (t_crash s).
Definition set_ack (s : tst) x := mkT (t_q s) x (t_pend s) (t_ph s) (t_h s) (t_flushed s) (t_tgt s) (t_done s) (t_goal s) (t_crash s).
Definition set_pend (s : tst) x := mkT (t_q s) (t_ack s) x (t_ph s) (t_h s) (t_flushed s) (t_tgt s) (t_done s) (t_goal s) (t_crash s).
Definition set_ph (s : tst) x := mkT (t_q s) (t_ack s) (t_pend s) x (t_h s) (t_flushed s) (t_tgt s) (t_done s) (t_goal s) (t_crash s).
Definition set_h (s : tst) x := mkT (t_q s) (t_ack s) (t_pend s) (t_ph s) x (t_flushed s) (t_tgt s) (t_done s) (t_goal s) (t_crash s).
Definition set_flushed (s : tst) x := mkT (t_q s) (t_ack s) (t_pend s) (t_ph s) (t_h s) x (t_tgt s) (t_done s) (t_goal s) (t_crash s).
Definition set_tgt (s : tst) x := mkT (t_q s) (t_ack s) (t_pend s) (t_ph s) (t_h s) (t_flushed s) x (t_done s) (t_goal s) (t_crash s).
Definition set_done (s : tst) x := mkT (t_q s) (t_ack s) (t_pend s) (t_ph s) (t_h s) (t_flushed s) (t_tgt s) x (t_goal s) (t_crash s).
Definition set_goal (s : tst) x := mkT (t_q s) (t_ack s) (t_pend s) (t_ph s) (t_h s) (t_flushed s) (t_tgt s) (t_done s) x (t_crash s).
Definition set_crash (s : tst) := mkT (t_q s) (t_ack s) (t_pend s) (t_ph s) (t_h s) (t_flushed s) (t_tgt s) (t_done s) (t_goal s) true.

Definition t_init : tst :=
  mkT (fun _ => []) [] (fun _ => false) (fun _ => PUser) (fun _ => HNone) [] [] [] (fun _ => []) false.

Definition upd {A} (f : nat -> A) (i : nat) (x : A) : nat -> A :=
  fun j => if Nat.eqb j i then x else f j.

(** enqueue, tlb.rs:175-186: without the rackscale feature a full queue drops the item,
    with it the kernel panics. *)
Definition t_enqueue (rs : bool) (cap : nat) (s : tst) (j : nat) (it : item) : tst :=
  if Nat.ltb (length (t_q s j)) cap then set_q s (upd (t_q s) j (t_q s j ++ [it]))
  else if rs then set_crash s else s.

(** dequeue, tlb.rs:188-199: pops one item; for a shootdown process() starts with the
    acknowledgement. AdvanceReplica synchronises a log, which has no effect here. *)
Definition t_dequeue (s : tst) (j : nat) : tst :=
  match t_q s j with
  | [] => s
  | IAdv :: q => set_q s (upd (t_q s) j q)
  | IShoot id :: q =>
      set_h (set_ack (set_q s (upd (t_q s) j q)) (id :: t_ack s)) (upd (t_h s) j (HFlush id))
  end.

(** One step of the call shootdown() on core [i] (tlb.rs:311-393).  [apic] gives the
    APIC ids of the [n] cores, MACHINE_TOPOLOGY.threads[_].apic_id(). *)
Definition t_step (rs : bool) (cap n : nat) (apic : nat -> N) (s : tst) (i : nat) : option tst :=
  match t_h s i with
  | HFlush id =>
      (* rest of process(): flush, tlb.rs:158-171 *)
      Some (set_h (set_flushed s ((i, id) :: t_flushed s)) (upd (t_h s) i HNone))
  | HNone =>
  match t_ph s i with
  | PUser => None
  | PEnq (c :: todo) cl ids all =>
      if Nat.eqb c i then Some (set_ph s (upd (t_ph s) i (PEnq todo cl ids all)))
      else if negb (Nat.ltb c n) then Some (set_crash s)
      else match ldr_add cl (apic c) with
           | None => Some (set_crash s)
           | Some cl' =>
               let id := length (t_tgt s) in
               let s1 := set_tgt s (t_tgt s ++ [c]) in
               let s2 := t_enqueue rs cap s1 c (IShoot id) in
               Some (set_ph s2 (upd (t_ph s2) i (PEnq todo cl' (ids ++ [id]) (all ++ [id]))))
           end
  | PEnq [] cl ids all => Some (set_ph s (upd (t_ph s) i (PIpi cl ids all)))
  | PIpi (v :: vs) ids all =>
      let s1 := if ldr_sent v then
                  set_pend s (fun j => t_pend s j || (Nat.ltb j n && ldr_reaches v (apic j)))
                else s in
      Some (set_ph s1 (upd (t_ph s1) i (PIpi vs ids all)))
  | PIpi [] ids all =>
      (* own shootdown, tlb.rs:379-381: acknowledge and flush at once *)
      let id := length (t_tgt s) in
      let s1 := set_flushed (set_ack (set_tgt s (t_tgt s ++ [i])) (id :: t_ack s)) ((i, id) :: t_flushed s) in
      Some (set_ph s1 (upd (t_ph s1) i (PWait false ids (all ++ [id]))))
  | PWait false [] all =>
      Some (set_ph (set_done s ((i, t_goal s i, all) :: t_done s)) (upd (t_ph s) i PUser))
  | PWait false ids all =>
      let s1 := t_dequeue s i in
      Some (set_ph s1 (upd (t_ph s1) i (PWait true ids all)))
  | PWait true ids all =>
      Some (set_ph s (upd (t_ph s) i
              (PWait false (base.filter (fun x => x ∉ t_ack s) ids) all)))
  end
  end.

(** Scheduling choices: a core makes a step of its own code, a core starts a shootdown
    for the cores of a handle, a pending interrupt is taken (irq.rs:739-751; interrupts
    are off while a core runs kernel code), another subsystem queues an AdvanceReplica
    item and raises its own interrupt (tlb.rs:497-502), which also pops one item
    (irq.rs:752-754). *)
Inductive tlabel :=
| LStep (i : nat) | LStart (i : nat) (cores : list nat) | LIrq (j : nat)
| LAdv (j : nat) | LGc (j : nat).

Definition t_label (rs : bool) (cap n : nat) (apic : nat -> N) (s : tst) (l : tlabel) : option tst :=
  if t_crash s then None else
  match l with
  | LStep i => t_step rs cap n apic s i
  | LStart i cores =>
      match t_ph s i, t_h s i with
      | PUser, HNone =>
          Some (set_goal (set_ph s (upd (t_ph s) i (PEnq cores ldr_init [] [])))
                  (upd (t_goal s) i cores))
      | _, _ => None
      end
  | LIrq j =>
      match t_ph s j, t_h s j, t_pend s j with
      | PUser, HNone, true => Some (t_dequeue (set_pend s (upd (t_pend s) j false)) j)
      | _, _, _ => None
      end
  | LAdv j => Some (t_enqueue rs cap s j IAdv)
  | LGc j =>
      match t_ph s j, t_h s j with
      | PUser, HNone => Some (t_dequeue s j)
      | _, _ => None
      end
  end.

(** Runs; a choice that is not enabled is skipped. *)
Fixpoint t_run (rs : bool) (cap n : nat) (apic : nat -> N) (s : tst) (tr : list tlabel) : tst :=
  match tr with
  | [] => s
  | l :: tr => t_run rs cap n apic (default s (t_label rs cap n apic s l)) tr
  end.

(** The interrupts shootdown() sends for the cores [cs] (tlb.rs:345-377), as a function:
    the multicast destinations, None if it panics. *)
Fixpoint ldr_fold (apic : nat -> N) (cs : list nat) (cl : list N) : option (list N) :=
  match cs with
  | [] => Some cl
  | c :: cs => cl' ← ldr_add cl (apic c); ldr_fold apic cs cl'
  end.
Definition shootdown_ipis (apic : nat -> N) (cs : list nat) : option (list N) :=
  cl ← ldr_fold apic cs ldr_init; Some (base.filter (fun v => ldr_sent v = true) cl).
