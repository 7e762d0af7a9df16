(** Model of the user-level mutex, lib/lineup/src/mutex.rs (MutexInner, lines 89-275).
    Every atomic operation of the code (on the counter, on the wait list, on the owner cell,
    and the request to the scheduler) is one step; steps of different threads interleave
    arbitrarily.  A thread's id (Environment::tid()) is its position in the list of threads.
    Simplifications: memory is sequentially consistent; the counter is an unbounded number
    (it overflows only with 2^64 threads); the upcalls (deschedule, schedule) and lwp_ptr,
    which only mirror blocking and [owner] to the application, are left out.  The scheduler
    is reduced to the set of threads made runnable and not yet resumed: make_runnable(t)
    adds t (scheduler.rs:268-285, YieldRequest::Runnable), make_unrunnable(self) blocks the
    caller until it finds itself there (scheduler.rs:286-303; a thread made runnable before
    it blocks is queued behind itself and runs again, as the comment at mutex.rs:172-178
    says). *)
From Verif Require Import Base.

(** MAX_CORES, lib/kpi/src/process.rs:15: the capacity of the wait list, mutex.rs:56. *)
Definition MTX_WAITLIST : nat := 96.

(** The two flags, mutex.rs:33-47. *)
Record mflags := mkMF { mf_spin : bool; mf_kmutex : bool }.
Definition new_spin_kmutex := mkMF true true.   (** mutex.rs:33-35 *)
Definition new_kmutex := mkMF false true.       (** mutex.rs:37-39 *)
Definition new_spin := mkMF true false.         (** mutex.rs:41-43 *)
Definition new_plain := mkMF false false.       (** Mutex::new, mutex.rs:45-47 *)

(** Where a thread is. *)
Inductive mpc :=
| MIdle            (** outside of the mutex operations *)
| ME0              (** enter, mutex.rs:157: fetch_add(1) is next *)
| ME1              (** mutex.rs:170: waitlist.push(tid) is next *)
| ME2              (** mutex.rs:179: make_unrunnable(tid) called: blocked *)
| MN0              (** enter_nowrap, mutex.rs:199: load of the counter is next *)
| MN1              (** mutex.rs:216-222: compare_exchange(0, 1) is next *)
| MOwn             (** mutex.rs:186 and 228: owner := tid is next, then enter returns *)
| MT0              (** try_enter, mutex.rs:112-115: the assertion is next *)
| MT1              (** mutex.rs:117: load of the counter is next *)
| MT2 (c : nat)    (** mutex.rs:118-138: the loop, with the loaded value [c] *)
| MTOwn            (** mutex.rs:141: owner := tid is next, then try_enter returns true *)
| MX0              (** exit, mutex.rs:236: owner := None is next *)
| MX1              (** mutex.rs:239: fetch_sub(1) is next *)
| MX2              (** mutex.rs:249-270: waits for an element of the wait list and takes it *)
| MX3 (j : nat)    (** mutex.rs:262: make_runnable(j) is next *)
| MFull            (** the assertion of mutex.rs:170 failed: the wait list is full *)
| MPanic.          (** another assertion failed or exit panicked *)
#[export] Instance mpc_eq_dec : EqDecision mpc.
Proof. solve_decision. Defined.

(** What happened, for the statements: an enter or a successful try_enter returned, a
    try_enter returned false, exit was called, a thread was put on the wait list, a thread was
    handed the mutex by an exit. *)
Inductive mev :=
| EvAcq (i : nat) | EvTryFalse (i : nat) | EvRel (i : nat) | EvQueue (i : nat) | EvGrant (i : nat).

(** The mutex (counter, owner, waitlist; mutex.rs:90-107), the threads made runnable, the
    threads, and the events so far. *)
Record mst := mkM { m_c : nat; m_own : option nat; m_q : list nat; m_run : list nat;
                    m_th : list mpc; m_tr : list mev }.

Definition m_init (n : nat) : mst := mkM 0 None [] [] (replicate n MIdle) [].

(** What a thread does next: call an operation or take a step in the running one. *)
Inductive mact := AEnter | AEnterNowrap | ATryEnter | AExit | AGo.

(** Takes [i] out of the runnable list; None if it is not there. *)
Fixpoint run_take (i : nat) (l : list nat) : option (list nat) :=
  match l with
  | [] => None
  | x :: l => if decide (x = i) then Some l else option_map (cons x) (run_take i l)
  end.

Definition mset (s : mst) (i : nat) (pc : mpc) : list mpc := <[i := pc]> (m_th s).

(** One step of thread [i], which is at [pc]. *)
Definition m_exec (f : mflags) (s : mst) (i : nat) (pc : mpc) (a : mact) : option mst :=
  let go c o q r pc' ev := Some (mkM c o q r (mset s i pc') (m_tr s ++ ev)) in
  let c := m_c s in let o := m_own s in let q := m_q s in let r := m_run s in
  match pc, a with
  | MIdle, AEnter =>                                                  (* :148-156 *)
      if mf_spin f then go c o q r MN0 []
      else if mf_kmutex f then go c o q r ME0 [] else go c o q r MPanic []
  | MIdle, AEnterNowrap => go c o q r MN0 []
  | MIdle, ATryEnter => go c o q r MT0 []
  | MIdle, AExit => go c o q r MX0 [EvRel i]
  | ME0, AGo => go (S c) o q r (if decide (c = 0) then MOwn else ME1) []
  | ME1, AGo =>
      if decide (length q < MTX_WAITLIST) then go c o (q ++ [i]) r ME2 [EvQueue i]
      else go c o q r MFull []
  | ME2, AGo =>
      match run_take i r with Some r' => go c o q r' MOwn [] | None => None end
  | MN0, AGo => go c o q r (if decide (c = 0) then MN1 else MN0) []
  | MN1, AGo => if decide (c = 0) then go 1 o q r MOwn [] else go c o q r MN0 []
  | MOwn, AGo => go c (Some i) q r MIdle [EvAcq i]
  | MT0, AGo => go c o q r (if decide (o = Some i) then MPanic else MT1) []
  | MT1, AGo => go c o q r (MT2 c) []
  | MT2 v, AGo =>
      if decide (v <> 0) then go c o q r MIdle [EvTryFalse i]
      else if decide (c = 0) then go 1 o q r MTOwn [] else go c o q r (MT2 v) []
  | MTOwn, AGo => go c (Some i) q r MIdle [EvAcq i]
  | MX0, AGo => go c None q r MX1 []
  | MX1, AGo =>
      match c with
      | 0 => go c o q r MPanic []                (* v < 1; the counter has wrapped by then *)
      | 1 => go 0 o q r MIdle []
      | S c' => go c' o q r MX2 []
      end
  | MX2, AGo =>
      match q with
      | [] => go c o q r MX2 []                  (* spin_loop *)
      | j :: q' => go c o q' r (MX3 j) []
      end
  | MX3 j, AGo => go c o q (r ++ [j]) MIdle [EvGrant j]
  | _, _ => None
  end.

Definition m_step (f : mflags) (s : mst) (i : nat) (a : mact) : option mst :=
  match m_th s !! i with Some pc => m_exec f s i pc a | None => None end.

(** An execution: which thread does what, in order. *)
Fixpoint m_run_sched (f : mflags) (s : mst) (l : list (nat * mact)) : option mst :=
  match l with
  | [] => Some s
  | (i, a) :: l => match m_step f s i a with Some s' => m_run_sched f s' l | None => None end
  end.
