(** Model of the bounded multi-producer multi-consumer queue, kernel/src/mpmc.rs.  Every
    atomic operation and every access to a slot's value is one step; steps of different
    threads interleave arbitrarily.  Simplifications: memory is sequentially consistent;
    positions are unbounded numbers (the code's 64-bit counters wrap after 2^64 items). *)
From Verif Require Import Base.

(** The rounding of the capacity, mpmc.rs:46-55. *)
Definition round_capacity (c : nat) : nat :=
  if (c <? 2) || negb (Nat.land c (c - 1) =? 0) then
    if c <? 2 then 2 else 2 ^ Nat.log2_up c      (* next_power_of_two *)
  else c.

(** Where a thread is in push (mpmc.rs:74-104) or pop (:106-134). *)
Inductive qpc (V : Type) :=
| QIdle
| PuLoad (v : V)              (** :76 and :98: load enqueue_pos *)
| PuSeq (v : V) (pos : nat)   (** :79: load the slot's sequence number *)
| PuCas (v : V) (pos : nat)   (** :83-85: compare_exchange_weak(pos, pos + 1) *)
| PuWrite (v : V) (pos : nat) (** :89: write the value *)
| PuStore (pos : nat)         (** :90: store the sequence number *)
| PoLoad                      (** :108 and :131: load dequeue_pos *)
| PoSeq (pos : nat)           (** :111 *)
| PoCas (pos : nat)           (** :114-117 *)
| PoTake (pos : nat)          (** :121: take the value *)
| PoStore (pos : nat) (r : option V)   (** :122: store the sequence number *)
| QPanic.                     (** index out of bounds *)
Arguments QIdle {V}. Arguments PuLoad {V}. Arguments PuSeq {V}. Arguments PuCas {V}.
Arguments PuWrite {V}. Arguments PuStore {V}. Arguments PoLoad {V}. Arguments PoSeq {V}.
Arguments PoCas {V}. Arguments PoTake {V}. Arguments PoStore {V}. Arguments QPanic {V}.

(** State, mpmc.rs:30-35, and the threads.  The slots' sequence numbers and values are kept
    in two lists. *)
Record mq (V : Type) := mkMq {
  q_mask : nat; q_seq : list nat; q_val : list (option V); q_enq : nat; q_deq : nat;
  q_th : list (qpc V) }.
Arguments mkMq {V}. Arguments q_mask {V}. Arguments q_seq {V}. Arguments q_val {V}.
Arguments q_enq {V}. Arguments q_deq {V}. Arguments q_th {V}.

(** with_capacity, mpmc.rs:45-72 (failing allocations are not modelled), and [n] threads. *)
Definition mq_init (V : Type) (c n : nat) : mq V :=
  let cap := round_capacity c in
  mkMq (cap - 1) (seq 0 cap) (replicate cap None) 0 0 (replicate n QIdle).

(** Calls and results: push gives Ok(()) or Err(value), pop gives Some(value) or None. *)
Inductive qcall (V : Type) := CPush (v : V) | CPop.
Inductive qresult (V : Type) := ROk | RFull (v : V) | RItem (v : V) | REmpty.
Arguments CPush {V}. Arguments CPop {V}. Arguments ROk {V}. Arguments RFull {V}.
Arguments RItem {V}. Arguments REmpty {V}.

(** What can be seen of an execution: calls, returns, and the successful
    compare-exchange of a thread (a mark that has no effect on the program). *)
Inductive qev (V : Type) := ECall (i : nat) (c : qcall V) | EClaim (i : nat) | ERet (i : nat) (r : qresult V).
Arguments ECall {V}. Arguments EClaim {V}. Arguments ERet {V}.

(** What a thread does next: call, take a step, or have a compare_exchange_weak fail
    spuriously. *)
Inductive qact (V : Type) := QCall (c : qcall V) | QStep | QSpurious.
Arguments QCall {V}. Arguments QStep {V}. Arguments QSpurious {V}.

(** One step of thread [i] at [pc]: sequence numbers, values, enqueue and dequeue position,
    new place, and event. *)
Definition q_exec {V} (s : mq V) (i : nat) (pc : qpc V) (a : qact V)
  : option (list nat * list (option V) * nat * nat * qpc V * list (qev V)) :=
  let 'mkMq mask sq vs enq deq _ := s in
  let stay pc' := Some (sq, vs, enq, deq, pc', []) in
  match pc, a with
  | QIdle, QCall (CPush v) => Some (sq, vs, enq, deq, PuLoad v, [ECall i (CPush v)])
  | QIdle, QCall CPop => Some (sq, vs, enq, deq, PoLoad, [ECall i CPop])
  | PuLoad v, QStep => stay (PuSeq v enq)
  | PuSeq v pos, QStep =>
      match sq !! Nat.land pos mask with
      | None => stay QPanic
      | Some x =>
          let diff := (Z.of_nat x - Z.of_nat pos)%Z in
          if (diff =? 0)%Z then stay (PuCas v pos)
          else if (diff <? 0)%Z then Some (sq, vs, enq, deq, QIdle, [ERet i (RFull v)])
          else stay (PuLoad v)
      end
  | PuCas v pos, QStep =>
      if enq =? pos then Some (sq, vs, pos + 1, deq, PuWrite v pos, [EClaim i])
      else stay (PuSeq v enq)
  | PuCas v pos, QSpurious => stay (PuSeq v enq)
  | PuWrite v pos, QStep =>
      Some (sq, <[Nat.land pos mask := Some v]> vs, enq, deq, PuStore pos, [])
  | PuStore pos, QStep =>
      Some (<[Nat.land pos mask := pos + 1]> sq, vs, enq, deq, QIdle, [ERet i ROk])
  | PoLoad, QStep => stay (PoSeq deq)
  | PoSeq pos, QStep =>
      match sq !! Nat.land pos mask with
      | None => stay QPanic
      | Some x =>
          let diff := (Z.of_nat x - Z.of_nat (pos + 1))%Z in
          if (diff =? 0)%Z then stay (PoCas pos)
          else if (diff <? 0)%Z then Some (sq, vs, enq, deq, QIdle, [ERet i REmpty])
          else stay PoLoad
      end
  | PoCas pos, QStep =>
      if deq =? pos then Some (sq, vs, enq, pos + 1, PoTake pos, [EClaim i])
      else stay (PoSeq deq)
  | PoCas pos, QSpurious => stay (PoSeq deq)
  | PoTake pos, QStep =>
      match vs !! Nat.land pos mask with
      | None => stay QPanic
      | Some r => Some (sq, <[Nat.land pos mask := None]> vs, enq, deq, PoStore pos r, [])
      end
  | PoStore pos r, QStep =>
      Some (<[Nat.land pos mask := pos + mask + 1]> sq, vs, enq, deq, QIdle,
            [ERet i match r with Some v => RItem v | None => REmpty end])
  | _, _ => None
  end.

Definition q_step {V} (s : mq V) (i : nat) (a : qact V) : option (mq V * list (qev V)) :=
  match q_th s !! i with
  | Some pc =>
      match q_exec s i pc a with
      | Some (sq, vs, enq, deq, pc', e) =>
          Some (mkMq (q_mask s) sq vs enq deq (<[i := pc']> (q_th s)), e)
      | None => None
      end
  | None => None
  end.

(** An execution and what can be seen of it. *)
Fixpoint q_run {V} (s : mq V) (l : list (nat * qact V)) : option (mq V * list (qev V)) :=
  match l with
  | [] => Some (s, [])
  | (i, a) :: l =>
      match q_step s i a with
      | Some (s1, e1) =>
          match q_run s1 l with Some (s2, e2) => Some (s2, e1 ++ e2) | None => None end
      | None => None
      end
  end.
