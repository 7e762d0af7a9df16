(** Model of the user-level condition variable, lib/lineup/src/condvar.rs, on which pthread_cond of C programs and the
    rump kernel's condition variables rest.
    The mutex is reduced to its holder (C34): enter_nowrap takes it when it is free.  The scheduler
    (lib/lineup/src/scheduler.rs) appears as the number of times a thread stands in the run queue of its core and
    whether it stands in the list of timers; a thread that has suspended continues when its core takes one of its
    entries out of the run queue (:448-455).
    The list of waiters is a plain Vec behind an UnsafeCell: an operation on it reads it and writes it back.  Two that
    overlap are a data race; here the one that writes last wins.  The newest waiter is at the head of the model's list.
    Simplifications: atomics are sequentially consistent; the upcalls (deschedule, schedule) and time are left out, a
    timer may go off at any time; threads are not created or destroyed. *)
From Verif Require Import Base.

Inductive cpc :=
| CIdle                                    (* outside of the condition variable *)
| CElse                                    (* blocked for something else: a lock, a sleep, a join *)
| CPushW (snap : list nat) (timed : bool)  (* wait: about to write waiters.push(tid), :146, :169, :185 *)
| CWExit (timed : bool)                    (* about to leave the mutex, :149, :170, :186 *)
| CWBlock (timed : bool)                   (* about to suspend, :150, :171, :190 *)
| CWBlocked (timed : bool)
| CWEnter (timed : bool)                   (* resumed, about to enter the mutex again, :151, :172, :191 *)
| CRem0 (timed : bool)                     (* about to read for remove_item, :153, :174, :192 *)
| CRemW (snap : list nat) (timed : bool)   (* about to write it *)
| CSigW (snap : list nat)                  (* signal: about to write waiters.pop(), :216 *)
| CBcW (snap : list nat)                   (* broadcast: about to write waiters.clear(), :246 *)
| CMakeA (l : list nat)                    (* make_runnable: about to take the first from the timers, scheduler.rs:277, :314 *)
| CMakeB (x : nat) (l : list nat).         (* about to put it into the run queue, :283, :315 *)

(** History, newest first: calls of wait, signal and broadcast, the end of a wait, the end of another wait. *)
Inductive cev := EWait (t : nat) | ESignal (u : nat) | EBroadcast (u : nat) | ERet (t : nat) | EElse (t : nat).

Record cst := mkCV {
  v_mtx : option nat;             (* holder of the mutex *)
  v_w : list nat;                 (* waiters, newest first *)
  v_pc : nat -> cpc;
  v_rq : nat -> nat;              (* entries in the run queue *)
  v_tl : nat -> bool;             (* in the list of timers *)
  v_dbg : bool;                   (* dbg_mutex is set *)
  v_ev : list cev;
  v_crash : bool }.               (* a debug assertion has failed *)
Definition cupd {A} (f : nat -> A) (i : nat) (x : A) : nat -> A := fun j => if Nat.eqb j i then x else f j.
Definition cv_init : cst := mkCV None [] (fun _ => CIdle) (fun _ => 0) (fun _ => false) false [] false.

(** remove_item, condvar.rs:18-24: the first in the order of the Vec, the last of the model's list. *)
Fixpoint rem1 (x : nat) (l : list nat) : list nat :=
  match l with [] => [] | y :: l => if Nat.eqb y x then l else y :: rem1 x l end.
Definition remove_item (x : nat) (l : list nat) : list nat := reverse (rem1 x (reverse l)).

Inductive clab :=
| ZLock (t : nat)                 (* the mutex is entered, mutex.rs:110-231 *)
| ZUnlock (t : nat)               (* and left by its holder, mutex.rs:233-275 *)
| ZWait (t : nat) (timed : bool)  (* the holder calls wait, wait_nowrap or timed_wait and reads the list *)
| ZSignal (u : nat)               (* a thread calls signal and reads the list *)
| ZBroadcast (u : nat)
| ZElse (t : nat)                 (* a thread blocks for something else *)
| ZStep (t : nat)                 (* the next step of a call *)
| ZRun (t : nat)                  (* its core takes [t] out of the run queue *)
| ZTimer (t : nat).               (* check_wakeups, scheduler.rs:400-408 *)

(** The debug assertion of signal and broadcast, :206-214, :235-243. *)
Definition owner_ok (s : cst) (u : nat) : bool :=
  negb (v_dbg s) || match v_mtx s with None => true | Some h => Nat.eqb h u end.

(** One step of the thread [t] in a call: wait (:137-155), wait_nowrap (:157-176), timed_wait (:179-199), signal
    (:202-228), broadcast (:231-258). *)
Definition cv_thread (s : cst) (t : nat) : option cst :=
  let to m w pc := Some (mkCV m w (cupd (v_pc s) t pc) (v_rq s) (v_tl s) (v_dbg s) (v_ev s) (v_crash s)) in
  match v_pc s t with
  | CPushW snap tm => to (v_mtx s) (t :: snap) (CWExit tm)
  | CWExit tm => to None (v_w s) (CWBlock tm)
  | CWBlock tm =>
      Some (mkCV (v_mtx s) (v_w s) (cupd (v_pc s) t (CWBlocked tm)) (v_rq s)
                 (if tm then cupd (v_tl s) t true else v_tl s) (v_dbg s) (v_ev s) (v_crash s))
  | CWEnter tm => match v_mtx s with None => to (Some t) (v_w s) (CRem0 tm) | Some _ => None end
  | CRem0 tm => to (v_mtx s) (v_w s) (CRemW (v_w s) tm)
  | CRemW snap tm =>
      Some (mkCV (v_mtx s) (remove_item t snap) (cupd (v_pc s) t CIdle) (v_rq s) (v_tl s) (v_dbg s) (ERet t :: v_ev s)
                 (v_crash s || (negb tm && existsb (Nat.eqb t) snap)))
  | CSigW snap => match snap with [] => to (v_mtx s) (v_w s) CIdle | x :: l => to (v_mtx s) l (CMakeA [x]) end
  | CBcW snap => to (v_mtx s) [] (match snap with [] => CIdle | _ => CMakeA (reverse snap) end)
  | CMakeA [] => to (v_mtx s) (v_w s) CIdle
  | CMakeA (x :: l) =>
      Some (mkCV (v_mtx s) (v_w s) (cupd (v_pc s) t (CMakeB x l)) (v_rq s) (cupd (v_tl s) x false) (v_dbg s) (v_ev s)
                 (v_crash s))
  | CMakeB x l =>
      Some (mkCV (v_mtx s) (v_w s) (cupd (v_pc s) t (match l with [] => CIdle | _ => CMakeA l end))
                 (cupd (v_rq s) x (S (v_rq s x))) (v_tl s) (v_dbg s) (v_ev s) (v_crash s))
  | _ => None
  end.

(** What may happen in a state. *)
Definition cv_label (s : cst) (l : clab) : option cst :=
  let call m t pc dbg e c := Some (mkCV m (v_w s) (cupd (v_pc s) t pc) (v_rq s) (v_tl s) dbg e c) in
  match l with
  | ZLock t =>
      match v_pc s t, v_mtx s with CIdle, None => call (Some t) t CIdle (v_dbg s) (v_ev s) (v_crash s) | _, _ => None end
  | ZUnlock t =>
      match v_pc s t, v_mtx s with
      | CIdle, Some h => if Nat.eqb h t then call None t CIdle (v_dbg s) (v_ev s) (v_crash s) else None
      | _, _ => None
      end
  | ZWait t tm =>
      match v_pc s t, v_mtx s with
      | CIdle, Some h =>
          if Nat.eqb h t then call (v_mtx s) t (CPushW (v_w s) tm) true (EWait t :: v_ev s) (v_crash s) else None
      | _, _ => None
      end
  | ZSignal u =>
      match v_pc s u with
      | CIdle => call (v_mtx s) u (CSigW (v_w s)) (v_dbg s) (ESignal u :: v_ev s) (v_crash s || negb (owner_ok s u))
      | _ => None
      end
  | ZBroadcast u =>
      match v_pc s u with
      | CIdle => call (v_mtx s) u (CBcW (v_w s)) (v_dbg s) (EBroadcast u :: v_ev s) (v_crash s || negb (owner_ok s u))
      | _ => None
      end
  | ZElse t => match v_pc s t with CIdle => call (v_mtx s) t CElse (v_dbg s) (v_ev s) (v_crash s) | _ => None end
  | ZStep t => cv_thread s t
  | ZRun t =>
      match v_rq s t with
      | O => None
      | S n =>
          let to pc e := Some (mkCV (v_mtx s) (v_w s) (cupd (v_pc s) t pc) (cupd (v_rq s) t n) (v_tl s) (v_dbg s) e (v_crash s)) in
          match v_pc s t with
          | CWBlocked tm => to (CWEnter tm) (v_ev s)
          | CElse => to CIdle (EElse t :: v_ev s)
          | _ => None
          end
      end
  | ZTimer t =>
      if v_tl s t then
        Some (mkCV (v_mtx s) (v_w s) (v_pc s) (cupd (v_rq s) t (S (v_rq s t))) (cupd (v_tl s) t false) (v_dbg s) (v_ev s)
                   (v_crash s))
      else None
  end.
(** A run; labels that are not possible change nothing. *)
Fixpoint cv_run (s : cst) (tr : list clab) : cst :=
  match tr with [] => s | l :: tr => cv_run (default s (cv_label s l)) tr end.
