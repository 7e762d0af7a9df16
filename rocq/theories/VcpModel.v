(** Model of how the blocking primitives of lib/lineup and of lib/vibrio/src/rumprt give up and get back the virtual CPU of the library
    OS: the upcalls of lib/vibrio/src/rumprt/mod.rs:119-143, called by lib/lineup/src/mutex.rs, condvar.rs and
    lib/vibrio/src/rumprt/threads.rs; the functions of lib/vibrio/src/rumprt/locking.rs are calls of these.
    The library OS at the other end of the upcalls is reduced to a number of virtual CPUs and one recursive lock (its "big lock"), as
    rumpuser(3) describes it: hyp_backend_unschedule drops the big lock, stores how often it was held, and drops the virtual CPU;
    hyp_backend_schedule waits for a virtual CPU and for the big lock.  That it takes both in one step is a simplification, and so is
    that any virtual CPU will do.
    The scheduler is reduced to the number of entries of a thread in the run queue; time to a choice of the environment. *)
From Verif Require Import Base.

(** Mutex::new_with_flags, mutex.rs:49-60: a mutex has two flags that never change. *)
Record flags := Fl { f_spin : bool; f_km : bool }.

(** The calls: rumpuser_mutex_enter, _enter_nowrap, _tryenter, _exit, rumpuser_cv_wait, _wait_nowrap, _timedwait, _signal, _broadcast
    (locking.rs:36-66, 170-236), rumpuser_clock_sleep (threads.rs:125-159). *)
Inductive call :=
| CEnter (m : nat) | CEnterNowrap (m : nat) | CTry (m : nat) | CExit (m : nat)
| CWait (c m : nat) | CWaitNowrap (c m : nat) | CTimed (c m : nat) | CSignal (c : nat) | CBroadcast (c : nat)
| CSleep.

(** How a wait on a condition variable was called. *)
Inductive wk := WWrap | WTimed | WNowrap.

(** What comes after the mutex was taken in the loop of enter_nowrap: the call returns; a wait returns; a wait still has to get its
    virtual CPU, with [n] locks. *)
Inductive nk := NRet | NCv (c : nat) | NSched (c n : nat).
(** What comes after the mutex was released: the call returns; or the wait blocks. *)
Inductive xk := XRet | XBlock (c n : nat) (k : wk).

(** Where a thread is; [n] is the local rid. *)
Inductive pcs :=
| Run                                (* outside of these calls *)
| E1 (m : nat)                       (* mutex.rs:161, before the upcall deschedule *)
| E2 (m n : nat)                     (* mutex.rs:170, before waitlist.push *)
| E3 (m n : nat)                     (* mutex.rs:179, make_unrunnable: waits for an entry in the run queue *)
| E4 (m n : nat)                     (* mutex.rs:180, before the upcall schedule *)
| N1 (m : nat) (k : nk)              (* mutex.rs:191-231, the loop of enter_nowrap *)
| X1 (m : nat) (k : xk)              (* mutex.rs:247-271, the loop of exit: waits for the wait list *)
| W1 (c m : nat) (k : wk)            (* condvar.rs:111, before the upcall deschedule *)
| W2 (c m n : nat) (k : wk)          (* condvar.rs:112, before mtx.exit *)
| W3 (c m n : nat) (k : wk)          (* condvar.rs:150, 171, 190: blocked *)
| W4 (c m n : nat)                   (* condvar.rs:129, before the upcall schedule, mutex after it *)
| W6 (c n : nat)                     (* condvar.rs:133, before the upcall schedule, mutex taken *)
| S1 | S2 (n : nat) | S3 (n : nat).  (* threads.rs:135, 154, 156 *)

(** A thread; [t_call]: the call it is in, with the number of times it held the big lock and whether it had a virtual CPU when it called. *)
Record thr := Thr { t_pc : pcs; t_cpu : bool; t_rdy : nat; t_call : option (call * nat * bool) }.

Inductive bug := BadUpcall | AssertFail | ExitFree.

(** What a call that returned looked like: who, which, the times the big lock was held and the virtual CPU, before and after. *)
Record ret := Ret { r_thr : nat; r_call : call; r_locks0 : nat; r_cpu0 : bool; r_locks1 : nat; r_cpu1 : bool; r_ok : bool }.

Record st := St { g_free : nat; g_big : option (nat * nat); g_thr : nat -> thr; g_cnt : nat -> nat; g_wait : nat -> list nat;
                  g_cv : nat -> list nat; g_log : list ret; g_bug : option bug }.

Definition fset {A} (f : nat -> A) (i : nat) (x : A) : nat -> A := fun j => if Nat.eqb j i then x else f j.

Definition with_thr (s : st) (f : nat -> thr) : st := St (g_free s) (g_big s) f (g_cnt s) (g_wait s) (g_cv s) (g_log s) (g_bug s).
Definition with_cnt (s : st) (f : nat -> nat) : st := St (g_free s) (g_big s) (g_thr s) f (g_wait s) (g_cv s) (g_log s) (g_bug s).
Definition with_wait (s : st) (f : nat -> list nat) : st := St (g_free s) (g_big s) (g_thr s) (g_cnt s) f (g_cv s) (g_log s) (g_bug s).
Definition with_cv (s : st) (f : nat -> list nat) : st := St (g_free s) (g_big s) (g_thr s) (g_cnt s) (g_wait s) f (g_log s) (g_bug s).
Definition with_bug (s : st) (b : bug) : st := St (g_free s) (g_big s) (g_thr s) (g_cnt s) (g_wait s) (g_cv s) (g_log s) (Some b).

Definition set_pc (s : st) (t : nat) (p : pcs) : st :=
  let x := g_thr s t in with_thr s (fset (g_thr s) t (Thr p (t_cpu x) (t_rdy x) (t_call x))).
(** make_runnable: one more entry in the run queue; make_unrunnable takes one (scheduler.rs). *)
Definition add_rdy (s : st) (t : nat) : st :=
  let x := g_thr s t in with_thr s (fset (g_thr s) t (Thr (t_pc x) (t_cpu x) (S (t_rdy x)) (t_call x))).
Definition sub_rdy (s : st) (t : nat) : st :=
  let x := g_thr s t in with_thr s (fset (g_thr s) t (Thr (t_pc x) (t_cpu x) (pred (t_rdy x)) (t_call x))).
Definition add_rdys (s : st) (l : list nat) : st := fold_left add_rdy l s.

(** How often thread [t] holds the big lock. *)
Definition locks (s : st) (t : nat) : nat := match g_big s with Some (h, k) => if Nat.eqb h t then k else 0 | None => 0 end.

(** rumpkern_unsched, mod.rs:119-133, and what hyp_backend_unschedule does; [k n] goes on with the number of locks. *)
Definition unsched (s : st) (t : nat) (k : nat -> st -> option st) : option st :=
  let x := g_thr s t in
  if t_cpu x then
    k (locks s t)
      (St (S (g_free s)) (match g_big s with Some (h, l) => if Nat.eqb h t then None else Some (h, l) | None => None end)
          (fset (g_thr s) t (Thr (t_pc x) false (t_rdy x) (t_call x))) (g_cnt s) (g_wait s) (g_cv s) (g_log s) (g_bug s))
  else Some (with_bug s BadUpcall).

(** rumpkern_sched, mod.rs:135-143, and what hyp_backend_schedule does: None while it waits. *)
Definition sched (s : st) (t n : nat) (k : st -> option st) : option st :=
  let x := g_thr s t in
  if t_cpu x then Some (with_bug s BadUpcall) else
  match g_free s with
  | 0 => None
  | S f =>
      let go b := k (St f b (fset (g_thr s) t (Thr (t_pc x) true (t_rdy x) (t_call x))) (g_cnt s) (g_wait s) (g_cv s) (g_log s) (g_bug s)) in
      match n with 0 => go (g_big s) | S _ => match g_big s with None => go (Some (t, n)) | Some _ => None end end
  end.

(** The call returns with [ok]. *)
Definition finish (s : st) (t : nat) (ok : bool) : st :=
  let x := g_thr s t in
  match t_call x with
  | Some (c, n, b) =>
      St (g_free s) (g_big s) (fset (g_thr s) t (Thr Run (t_cpu x) (t_rdy x) None)) (g_cnt s) (g_wait s) (g_cv s)
         (g_log s ++ [Ret t c n b (locks s t) (t_cpu x) ok]) (g_bug s)
  | None => s
  end.

(** MutexInner::exit, mutex.rs:233-272, its fetch_sub; the loop is [X1]. *)
Definition mexit (s : st) (t m : nat) (k : xk) (after : st -> st) : st :=
  match g_cnt s m with
  | 0 => with_bug s ExitFree
  | 1 => after (with_cnt s (fset (g_cnt s) m 0))
  | S n => set_pc (with_cnt s (fset (g_cnt s) m n)) t (X1 m k)
  end.

(** remove_item, condvar.rs:18-24: the first one. *)
Fixpoint remove_item (t : nat) (l : list nat) : list nat :=
  match l with [] => [] | x :: l => if Nat.eqb x t then l else x :: remove_item t l end.
Definition unwait (s : st) (t c : nat) : st := with_cv s (fset (g_cv s) c (remove_item t (g_cv s c))).

Section Step.
  Context (fl : nat -> flags).

  (** The first step of a call. *)
  Definition start (t : nat) (c : call) (s : st) : st :=
    match c with
    | CEnter m =>                                               (* mutex.rs:147-188 *)
        if f_spin (fl m) then set_pc s t (N1 m NRet)
        else if negb (f_km (fl m)) then with_bug s AssertFail
        else
          let n := g_cnt s m in
          let s := with_cnt s (fset (g_cnt s) m (S n)) in
          match n with 0 => finish s t true | S _ => set_pc s t (E1 m) end
    | CEnterNowrap m => set_pc s t (N1 m NRet)
    | CTry m =>                                                 (* mutex.rs:110-145, as one step: C34 has its steps *)
        match g_cnt s m with 0 => finish (with_cnt s (fset (g_cnt s) m 1)) t true | S _ => finish s t false end
    | CExit m => mexit s t m XRet (fun s => finish s t true)
    | CWait c m => set_pc (with_cv s (fset (g_cv s) c (g_cv s c ++ [t]))) t (W1 c m WWrap)       (* condvar.rs:137-155 *)
    | CTimed c m => set_pc (with_cv s (fset (g_cv s) c (g_cv s c ++ [t]))) t (W1 c m WTimed)     (* condvar.rs:179-199 *)
    | CWaitNowrap c m => set_pc (with_cv s (fset (g_cv s) c (g_cv s c ++ [t]))) t (W2 c m 0 WNowrap)  (* condvar.rs:157-174 *)
    | CSignal c =>                                              (* condvar.rs:202-229: the last of the vector *)
        match reverse (g_cv s c) with
        | [] => finish s t true
        | w :: l => finish (add_rdy (with_cv s (fset (g_cv s) c (reverse l))) w) t true
        end
    | CBroadcast c => finish (add_rdys (with_cv s (fset (g_cv s) c [])) (g_cv s c)) t true       (* condvar.rs:231-258 *)
    | CSleep => set_pc s t S1                                   (* threads.rs:125-159 *)
    end.

  (** The wait was woken up: cv_schedule_enter, condvar.rs:125-135, cv_mutex_enter, :115-123; wait_nowrap, :171-172. *)
  Definition woken (t c m n : nat) (k : wk) (s : st) : st :=
    match k with
    | WNowrap => set_pc s t (N1 m (NCv c))
    | _ =>
        if f_spin (fl m) && f_km (fl m) then set_pc s t (W4 c m n)
        else if negb (f_spin (fl m)) && negb (f_km (fl m)) then with_bug s AssertFail
        else set_pc s t (N1 m (NSched c n))
    end.

  (** What a thread can do. [Ask c]: the library OS makes call [c]; a blocking call is made by a thread with a virtual CPU, a
      nowrap call by any.  [Lock], [Unlock]: the library OS takes and drops its big lock; [Get], [Put]: its virtual CPU.  [Go]: the
      next step of the call.  [Timer]: the timer of a sleeping thread ran out. *)
  Inductive act := Ask (c : call) | Lock | Unlock | Get | Put | Go | Timer.

  Definition wraps (c : call) : bool :=
    match c with CEnterNowrap _ | CWaitNowrap _ _ | CTry _ | CExit _ | CSignal _ | CBroadcast _ => false | _ => true end.

  Definition vstep (t : nat) (a : act) (s : st) : option st :=
    match g_bug s with Some _ => None | None =>
    let x := g_thr s t in
    match t_pc x, a with
    | Run, Ask c =>
        if wraps c && negb (t_cpu x) then None
        else Some (start t c (with_thr s (fset (g_thr s) t (Thr Run (t_cpu x) (t_rdy x) (Some (c, locks s t, t_cpu x))))))
    | Run, Lock =>
        if t_cpu x then
          match g_big s with
          | None => Some (St (g_free s) (Some (t, 1)) (g_thr s) (g_cnt s) (g_wait s) (g_cv s) (g_log s) None)
          | Some (h, k) => if Nat.eqb h t then Some (St (g_free s) (Some (t, S k)) (g_thr s) (g_cnt s) (g_wait s) (g_cv s) (g_log s) None) else None
          end
        else None
    | Run, Unlock =>
        match g_big s with
        | Some (h, k) =>
            if Nat.eqb h t
            then Some (St (g_free s) (match k with 0 | 1 => None | S k => Some (h, k) end) (g_thr s) (g_cnt s) (g_wait s) (g_cv s) (g_log s) None)
            else None
        | None => None
        end
    | Run, Get => if t_cpu x then None else sched s t 0 Some
    | Run, Put => if t_cpu x then match locks s t with 0 => unsched s t (fun _ s => Some s) | _ => None end else None
    | E1 m, Go => unsched s t (fun n s => Some (set_pc s t (E2 m n)))
    | E2 m n, Go => Some (set_pc (with_wait s (fset (g_wait s) m (g_wait s m ++ [t]))) t (E3 m n))
    | E3 m n, Go => match t_rdy x with 0 => None | S _ => Some (set_pc (sub_rdy s t) t (E4 m n)) end
    | E4 m n, Go => sched s t n (fun s => Some (finish s t true))
    | N1 m k, Go =>
        match g_cnt s m with
        | 0 => let s := with_cnt s (fset (g_cnt s) m 1) in
               Some match k with
                    | NRet => finish s t true
                    | NCv c => finish (unwait s t c) t true
                    | NSched c n => set_pc s t (W6 c n)
                    end
        | S _ => Some s       (* relinquish, and look again *)
        end
    | X1 m k, Go =>
        match g_wait s m with
        | [] => Some s        (* spin_loop *)
        | w :: l => let s := add_rdy (with_wait s (fset (g_wait s) m l)) w in
                    Some match k with XRet => finish s t true | XBlock c n k => set_pc s t (W3 c m n k) end
        end
    | W1 c m k, Go => unsched s t (fun n s => Some (set_pc s t (W2 c m n k)))
    | W2 c m n k, Go => Some (mexit s t m (XBlock c n k) (fun s => set_pc s t (W3 c m n k)))
    | W3 c m n k, Go =>
        match k, t_rdy x with
        | WTimed, _ | _, 0 => None
        | _, S _ => Some (woken t c m n k (sub_rdy s t))
        end
    | W3 c m n WTimed, Timer => Some (woken t c m n WTimed s)
    | W4 c m n, Go => sched s t n (fun s => Some (set_pc s t (N1 m (NCv c))))
    | W6 c n, Go => sched s t n (fun s => Some (finish (unwait s t c) t true))
    | S1, Go => unsched s t (fun n s => Some (set_pc s t (S2 n)))
    | S2 n, Timer => Some (set_pc s t (S3 n))
    | S3 n, Go => sched s t n (fun s => Some (finish s t true))
    | _, _ => None
    end end.

  Fixpoint vrun (l : list (nat * act)) (s : st) : option st :=
    match l with [] => Some s | (t, a) :: l => match vstep t a s with Some s => vrun l s | None => None end end.
End Step.

(** [ncpu] virtual CPUs, all free; no thread is in a call. *)
Definition st0 (ncpu : nat) : st := St ncpu None (fun _ => Thr Run false 0 None) (fun _ => 0) (fun _ => []) (fun _ => []) [] None.
