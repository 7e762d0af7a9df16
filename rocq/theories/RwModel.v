(** Model of the kernel's distributed reader-writer lock, kernel/src/fs/rwlock.rs.
    Every atomic operation of the code is one step; steps of different threads interleave
    arbitrarily.  Simplifications: memory is sequentially consistent (on x86-64, the only
    target with MAX_CORES cores, the compare-exchange and fetch_add before the loads that
    matter are full barriers); reader counters are unbounded numbers. *)
From Verif Require Import Base.

(** MAX_READER_THREADS = MAX_CORES, rwlock.rs:22; arch/x86_64/mod.rs:71. *)
Definition MAX_READER_THREADS : nat := 192.

(** Where a thread is. *)
Inductive rwpc :=
| RwIdle
| WCas             (** rwlock.rs:115-125: compare_exchange_weak(false, true) *)
| WScan (k : nat)  (** rwlock.rs:129-136: the test of the k-th of the n counters is next *)
| WHeld            (** the write guard exists *)
| RSpin            (** rwlock.rs:160-164: volatile read of wlock *)
| RInc             (** rwlock.rs:170: fetch_add(1) *)
| RCheck           (** rwlock.rs:171: load of wlock *)
| RDec             (** rwlock.rs:175: fetch_sub(1), then again from the start *)
| RHeld            (** the read guard exists *)
| WPanic           (** write_unlock panicked, rwlock.rs:187 *)
| RwPanic.         (** a reader panicked: index out of bounds or rwlock.rs:195 *)
#[export] Instance rwpc_eq_dec : EqDecision rwpc.
Proof. solve_decision. Defined.

(** wlock and rlock, rwlock.rs:37-49, and the threads: the index [tid] a thread uses
    (rwlock.rs:146) and where it is.  Nothing requires different threads to use different
    indices. *)
Record rwst := mkRw { rw_w : bool; rw_r : list nat; rw_th : list (nat * rwpc) }.

(** RwLock::new, rwlock.rs:97-104, with threads that have not called anything yet. *)
Definition rw_init (tids : list nat) : rwst :=
  mkRw false (replicate MAX_READER_THREADS 0) (map (fun t => (t, RwIdle)) tids).

(** What a thread does next: start an operation, take a step in the running one, or have a
    compare_exchange_weak fail although the value is the expected one. *)
Inductive rwact := ARead | AWrite | AStep | ASpurious.

(** One step of a thread with index [tid] at [pc]; [n] is CORES_PER_NUMA_NODE
    (rwlock.rs:112), the number of counters a writer waits for.  Result: wlock, rlock, the
    new place; None: no such step. *)
Definition rw_exec (n : nat) (w : bool) (r : list nat) (tid : nat) (pc : rwpc) (a : rwact)
  : option (bool * list nat * rwpc) :=
  match pc, a with
  | RwIdle, ARead => Some (w, r, RSpin)                                  (* :143-158 *)
  | RwIdle, AWrite => Some (w, r, WCas)                                  (* :111-114 *)
  | WCas, AStep => if w then Some (w, r, WCas) else Some (true, r, WScan 0)
  | WCas, ASpurious => Some (w, r, WCas)
  | WScan k, AStep =>
      if k <? n `min` length r                                           (* take(n).all(..) *)
      then match r !! k with
           | Some 0 => Some (w, r, WScan (S k))
           | _ => Some (w, r, WScan 0)                                   (* spin_loop, again *)
           end
      else Some (w, r, WHeld)
  | WHeld, AStep => if w then Some (false, r, RwIdle) else Some (w, r, WPanic)  (* :181-189 *)
  | WHeld, ASpurious => Some (w, r, WPanic)
  | RSpin, AStep => Some (w, r, if w then RSpin else RInc)
  | RInc, AStep =>
      match r !! tid with
      | Some c => Some (w, <[tid := S c]> r, RCheck)
      | None => Some (w, r, RwPanic)                                     (* index out of bounds *)
      end
  | RCheck, AStep => Some (w, r, if w then RDec else RHeld)
  | RDec, AStep =>
      match r !! tid with
      | Some c => Some (w, <[tid := Nat.pred c]> r, RSpin)
      | None => Some (w, r, RwPanic)
      end
  | RHeld, AStep =>                                                      (* :192-197 *)
      match r !! tid with
      | Some (S c) => Some (w, <[tid := c]> r, RwIdle)
      | _ => Some (w, r, RwPanic)
      end
  | _, _ => None
  end.

Definition rw_step (n : nat) (s : rwst) (i : nat) (a : rwact) : option rwst :=
  match rw_th s !! i with
  | Some (tid, pc) =>
      match rw_exec n (rw_w s) (rw_r s) tid pc a with
      | Some (w, r, pc') => Some (mkRw w r (<[i := (tid, pc')]> (rw_th s)))
      | None => None
      end
  | None => None
  end.

(** An execution: which thread does what, in order. *)
Fixpoint rw_run (n : nat) (s : rwst) (l : list (nat * rwact)) : option rwst :=
  match l with
  | [] => Some s
  | (i, a) :: l => match rw_step n s i a with Some s' => rw_run n s' l | None => None end
  end.
