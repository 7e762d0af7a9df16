(** Model of how threads of a C program wait for and wake each other: _lwp_park, _lwp_unpark, _lwp_unpark_all,
    _lwp_exit and the creation of threads, lib/vibrio/src/rumprt/prt/mod.rs.  libpthread builds its locks and
    condition variables from these.  The scheduler below (lib/lineup/src/scheduler.rs, C37) appears as the number
    of times a thread stands in the run queue of its core: make_runnable (:268-285) adds one, whatever the thread
    is doing; a thread that has blocked continues when its core takes one out (:440-470).
    Simplifications: the thread of lwp t is called t, and thread 0 is the first thread of the scheduler;
    atomics are sequentially consistent; time and the errno of a call are left out. *)
From Verif Require Import Base.

(** RL_MASK_PARKED, RL_MASK_UNPARK, RL_MASK_PARK, prt/mod.rs:26-28. *)
Definition MPARKED : N := 1.
Definition MUNPARK : N := 1.
Definition MPARK : N := 2.

(** What follows an unpark: the end of the call, or the rest of a park call. *)
Inductive lkont := KDone | KPark (timed : bool).
(** Why a thread is blocked: in _lwp_park (:379), in _lwp_exit (:250), or anywhere else: a lock, a sleep, a join. *)
Inductive lblk := BPark | BExit | BElse.
Inductive lpc :=
| LIdle                                             (* outside of these functions *)
| LUn (ts : list nat) (k : lkont)                   (* about to unpark the lwps ts, :424 *)
| LMake (t : nat) (ts : list nat) (k : lkont)       (* about to wake lwp t, :427 *)
| LPark0 (timed : bool)                             (* about to swap, :334 *)
| LParkA                                            (* found the mark of an unpark, :338 *)
| LParkB                                            (* about to block, :379 *)
| LParkR                                            (* resumed, :382 *)
| LBlocked (b : lblk)
| LAssign (v : nat).                                (* has started the thread of lwp v, :208 *)
(** History: an unpark of an lwp took effect; an lwp returned from park. *)
Inductive lev := EUnpark (t : nat) | ERet (t : nat).

Record lst := mkL {
  l_ex : nat -> bool;             (* LWP_HT, :40-42: the lwps there are *)
  l_st : nat -> N;                (* rl_pstatus *)
  l_thr : nat -> nat;             (* rl_thread *)
  l_pc : nat -> lpc;
  l_rq : nat -> nat;              (* entries in the run queues *)
  l_ev : list lev;                (* newest first *)
  l_crash : bool }.
Definition lupd {A} (f : nat -> A) (i : nat) (x : A) : nat -> A := fun j => if Nat.eqb j i then x else f j.
Definition wl_st (s : lst) t x := mkL (l_ex s) (lupd (l_st s) t x) (l_thr s) (l_pc s) (l_rq s) (l_ev s) (l_crash s).
Definition wl_pc (s : lst) t x := mkL (l_ex s) (l_st s) (l_thr s) (lupd (l_pc s) t x) (l_rq s) (l_ev s) (l_crash s).
Definition wl_rq (s : lst) t x := mkL (l_ex s) (l_st s) (l_thr s) (l_pc s) (lupd (l_rq s) t x) (l_ev s) (l_crash s).
Definition wl_ev (s : lst) e := mkL (l_ex s) (l_st s) (l_thr s) (l_pc s) (l_rq s) (e :: l_ev s) (l_crash s).
Definition wl_crash (s : lst) := mkL (l_ex s) (l_st s) (l_thr s) (l_pc s) (l_rq s) (l_ev s) true.

(** rumprun_lwp_init, :475-506: the main thread is lwp 1. *)
Definition l_init : lst :=
  mkL (fun t => Nat.eqb t 1) (fun _ => MPARK) (fun t => t) (fun _ => LIdle) (fun _ => 0) [] false.

(** A step of the code of lwp [u]. *)
Definition l_step (s : lst) (u : nat) : option lst :=
  match l_pc s u with
  | LUn [] KDone => Some (wl_pc s u LIdle)
  | LUn [] (KPark b) => Some (wl_pc s u (LPark0 b))                                    (* :329-331 *)
  | LUn (t :: ts) k =>                                                                 (* :414-437 *)
      if negb (l_ex s t) then Some (wl_crash s)                                        (* :126 *)
      else let s1 := wl_ev (wl_st s t MUNPARK) (EUnpark t) in
           if N.eqb (l_st s t) MPARKED then Some (wl_pc s1 u (LMake t ts k)) else Some (wl_pc s1 u (LUn ts k))
  | LMake t ts k => let th := l_thr s t in Some (wl_pc (wl_rq s th (S (l_rq s th))) u (LUn ts k))
  | LPark0 b =>
      let s1 := wl_st s u MPARKED in
      if N.eqb (l_st s u) MUNPARK then Some (wl_pc s1 u LParkA)
      else if b then Some (wl_crash s1)                                                (* :344 *)
      else Some (wl_pc s1 u LParkB)
  | LParkA => Some (wl_pc (wl_ev (wl_st s u MPARK) (ERet u)) u LIdle)                  (* :338-340 *)
  | LParkB => Some (wl_pc s u (LBlocked BPark))
  | LParkR => Some (wl_pc (wl_ev (wl_st s u MPARK) (ERet u)) u LIdle)                  (* :382 *)
  | LAssign v => Some (mkL (l_ex s) (l_st s) (lupd (l_thr s) v v) (lupd (l_pc s) u LIdle) (l_rq s) (l_ev s) (l_crash s))
  | LIdle | LBlocked _ => None
  end.

(** Scheduling choices: [u] executes a step; calls _lwp_unpark_all of [ts] (:441-468; one element: _lwp_unpark);
    calls _lwp_park, perhaps with a time and an lwp to unpark (:311-385); calls _lwp_exit (:242-253); blocks
    elsewhere; creates lwp [v] (:132-216, up to the start of its thread); the scheduler dispatches [u]. *)
Inductive llab :=
| ZStep (u : nat)
| ZUnpark (u : nat) (ts : list nat)
| ZPark (u : nat) (timed : bool) (o : option nat)
| ZExit (u : nat)
| ZBlock (u : nat)
| ZSpawn (u v : nat)
| ZDisp (u : nat).
Definition l_idle (s : lst) (u : nat) : bool := l_ex s u && match l_pc s u with LIdle => true | _ => false end.
Definition l_label (s : lst) (l : llab) : option lst :=
  if l_crash s then None else
  match l with
  | ZStep u => if l_ex s u then l_step s u else None
  | ZUnpark u ts => if l_idle s u then Some (wl_pc s u (LUn ts KDone)) else None
  | ZPark u b o => if l_idle s u then
        Some (wl_pc s u (LUn (match o with Some t => [t] | None => [] end) (KPark b))) else None
  | ZExit u => if l_idle s u then Some (wl_pc s u (LBlocked BExit)) else None
  | ZBlock u => if l_idle s u then Some (wl_pc s u (LBlocked BElse)) else None
  | ZSpawn u v => if l_idle s u && negb (l_ex s v) && negb (Nat.eqb v 0) then
        Some (mkL (lupd (l_ex s) v true) (lupd (l_st s) v MPARK) (lupd (l_thr s) v 0) (lupd (l_pc s) u (LAssign v))
                  (l_rq s) (l_ev s) (l_crash s)) else None
  | ZDisp u =>
      match l_pc s u, l_rq s u with
      | LBlocked BPark, S k => Some (wl_pc (wl_rq s u k) u LParkR)
      | LBlocked BExit, S k => Some (wl_crash s)                                       (* :251, unreachable!() *)
      | LBlocked BElse, S k => Some (wl_pc (wl_rq s u k) u LIdle)
      | _, _ => None
      end
  end.
(** Runs; a choice that is not enabled is skipped. *)
Fixpoint l_run (s : lst) (tr : list llab) : lst :=
  match tr with [] => s | l :: tr => l_run (default s (l_label s l)) tr end.
