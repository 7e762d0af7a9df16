(** Model of the user-level semaphore, lib/lineup/src/semaphore.rs (SemaphoreInner,
    lines 35-72), with the parts of the condition variable that it uses,
    lib/lineup/src/condvar.rs (CondVarInner::wait, 137-155, and signal, 202-228).
    Steps of different threads interleave arbitrarily.  A thread's id is its position in the
    list of threads.
    Simplifications: memory is sequentially consistent; count is an unbounded integer; the
    mutex is represented by what C34 establishes: at most one thread holds it, enter and
    enter_nowrap wait while it is held.  The upcalls, which mirror blocking to the
    application, and the debug assertion of signal about the mutex's owner pointer
    (condvar.rs:206-214) are left out.  As in MtxModel, the scheduler is the set of threads
    made runnable and not yet resumed. *)
From Verif Require Import Base CntLib.

Inductive spc :=
| SIdle
(* up, semaphore.rs:55-62 *)
| SU0            (** mutex.enter() is next *)
| SU1            (** count += 1, and the test of its value *)
| SU2            (** cv.signal(): waiters.pop(), condvar.rs:216 *)
| SU3 (j : nat)  (** make_runnable(j), condvar.rs:226 *)
| SU4            (** mutex.exit() *)
(* down, semaphore.rs:64-71 *)
| SD0            (** mutex.enter() is next *)
| SD1            (** the test count <= 0 *)
| SD2            (** cv.wait: waiters.push(tid), condvar.rs:146 *)
| SD3            (** mtx.exit(), condvar.rs:112 *)
| SD4            (** make_unrunnable(tid), condvar.rs:150: blocked *)
| SD5            (** mtx.enter_nowrap(), condvar.rs:121 *)
| SD6            (** the debug assertion at condvar.rs:153-154 *)
| SD7            (** count -= count *)
| SD8            (** mutex.exit() *)
| SPanic.        (** the debug assertion failed *)
#[export] Instance spc_eq_dec : EqDecision spc.
Proof. solve_decision. Defined.

(** What happened: which thread called or completed what. *)
Inductive sev := SvCallUp (i : nat) | SvUp (i : nat) | SvCallDown (i : nat) | SvDown (i : nat).

(** The semaphore (who holds its mutex; count; the waiters of its condition variable), the
    threads made runnable, the threads, and the events so far. *)
Record sst := mkS { s_mtx : option nat; s_cnt : Z; s_wt : list nat; s_wk : list nat;
                    s_th : list spc; s_tr : list sev }.

(** Semaphore::new(count), semaphore.rs:47-53. *)
Definition s_init (c : Z) (n : nat) : sst := mkS None c [] [] (replicate n SIdle) [].

Inductive sact := SUp | SDown | SGo.

(** Vec::pop: takes the last element. *)
Definition vpop (l : list nat) : option (nat * list nat) :=
  match reverse l with [] => None | j :: r => Some (j, reverse r) end.

Fixpoint wk_take (i : nat) (l : list nat) : option (list nat) :=
  match l with
  | [] => None
  | x :: l => if decide (x = i) then Some l else option_map (cons x) (wk_take i l)
  end.

(** One step of thread [i], which is at [pc]. *)
Definition s_exec (s : sst) (i : nat) (pc : spc) (a : sact) : option sst :=
  let 'mkS m c wt wk th tr := s in
  let go m c wt wk pc' ev := Some (mkS m c wt wk (<[i := pc']> th) (tr ++ ev)) in
  match pc, a with
  | SIdle, SUp => go m c wt wk SU0 [SvCallUp i]
  | SIdle, SDown => go m c wt wk SD0 [SvCallDown i]
  | SU0, SGo => match m with None => go (Some i) c wt wk SU1 [] | _ => None end
  | SU1, SGo => go m (c + 1)%Z wt wk (if decide (c + 1 > 0)%Z then SU2 else SU4) []
  | SU2, SGo => match vpop wt with
                | Some (j, wt') => go m c wt' wk (SU3 j) []
                | None => go m c wt wk SU4 []
                end
  | SU3 j, SGo => go m c wt (wk ++ [j]) SU4 []
  | SU4, SGo => go None c wt wk SIdle [SvUp i]
  | SD0, SGo => match m with None => go (Some i) c wt wk SD1 [] | _ => None end
  | SD1, SGo => go m c wt wk (if decide (c <= 0)%Z then SD2 else SD7) []
  | SD2, SGo => go m c (wt ++ [i]) wk SD3 []
  | SD3, SGo => go None c wt wk SD4 []
  | SD4, SGo => match wk_take i wk with Some wk' => go m c wt wk' SD5 [] | None => None end
  | SD5, SGo => match m with None => go (Some i) c wt wk SD6 [] | _ => None end
  | SD6, SGo => go m c wt wk (if decide (i ∈ wt) then SPanic else SD7) []
  | SD7, SGo => go m (c - c)%Z wt wk SD8 []
  | SD8, SGo => go None c wt wk SIdle [SvDown i]
  | _, _ => None
  end.

Definition s_step (s : sst) (i : nat) (a : sact) : option sst :=
  match s_th s !! i with Some pc => s_exec s i pc a | None => None end.

Fixpoint s_run (s : sst) (l : list (nat * sact)) : option sst :=
  match l with
  | [] => Some s
  | (i, a) :: l => match s_step s i a with Some s' => s_run s' l | None => None end
  end.

(** Observations: the numbers of completed operations. *)
Definition ups (tr : list sev) : nat := cnt (fun e => match e with SvUp _ => true | _ => false end) tr.
Definition downs (tr : list sev) : nat := cnt (fun e => match e with SvDown _ => true | _ => false end) tr.
