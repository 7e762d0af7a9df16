(** Model of the user-level reader-writer lock, lib/lineup/src/rwlock.rs (RwLockInner,
    lines 79-257).  Every atomic operation and every call of an operation of the two inner
    mutexes is one step; steps of different threads interleave arbitrarily.
    Simplifications: memory is sequentially consistent; the number of readers is an
    unbounded integer (UrwProps shows that it stays between 0 and the number of threads, so
    it does not wrap); the inner mutexes are represented by what C34 establishes about
    them: acquisitions and releases alternate, whoever releases; enter waits while the
    mutex is held; try_enter fails while it is held and may also fail while it is being
    handed to a waiting thread; it panics if the recorded owner is the caller
    (mutex.rs:112-115); exit panics if the mutex is not held (mutex.rs:240-243). *)
From Verif Require Import Base.

(** RwLockStatus, rwlock.rs:69-77. *)
Inductive lktype := LFree | LWriteable | LReadable.
#[export] Instance lktype_eq_dec : EqDecision lktype.
Proof. solve_decision. Defined.

(** Where a thread is. *)
Inductive upc :=
| UIdle | UR | UW                    (** outside; holds the lock for reading, for writing *)
(* enter(Write), rwlock.rs:118-126 and 138 *)
| UEW0   (** wait.enter() *)
| UEW1   (** access.enter() *)
| UEW2   (** lock_type := Writeable *)
| UEW3   (** wait.exit() *)
(* enter(Read), rwlock.rs:118 and 127-138 *)
| UER0   (** wait.enter() *)
| UER1   (** readers.fetch_add(1) *)
| UER2   (** access.enter() *)
| UER3   (** lock_type := Readable *)
| UER4   (** wait.exit() *)
(* try_enter(Write), rwlock.rs:145-160 *)
| UTW0   (** wait.try_enter() *)
| UTW1   (** access.try_enter() *)
| UTW2   (** lock_type := Writeable *)
| UTW3   (** wait.exit(), returns true *)
| UTW4   (** wait.exit(), returns false *)
(* try_enter(Read), rwlock.rs:145-146 and 161-206 *)
| UTR0   (** wait.try_enter() *)
| UTR1   (** load of readers *)
| UTR2 (r : Z) (** the loop, with [r] the value read: access.try_enter() or compare_exchange *)
| UTR3   (** readers := 1 *)
| UTR4   (** lock_type := Readable *)
| UTR5   (** wait.exit(), returns true *)
| UTR6   (** wait.exit(), returns false *)
(* exit, rwlock.rs:209-227; [w]: what the caller holds (not visible to the code) *)
| UX0 (w : bool) (** load of lock_type *)
| UX1   (** readers.fetch_sub(1) *)
| UX2   (** lock_type := Free *)
| UX3   (** access.exit() *)
(* downgrade, rwlock.rs:229-237 *)
| UD0   (** lock_type := Readable *)
| UD1   (** readers.fetch_add(1) *)
| UD2   (** access.exit() *)
(* try_upgrade, rwlock.rs:239-257 *)
| UU0   (** readers.compare_exchange(1, 0) *)
| UU1   (** lock_type := Writeable *)
| UTPanic  (** the assertion of access.try_enter() failed (inside [wait]) *)
| UPanic.  (** another panic of an inner mutex *)
#[export] Instance upc_eq_dec : EqDecision upc.
Proof. solve_decision. Defined.

(** The lock: who holds the inner mutex [wait]; whether [access] is held and the owner
    recorded in it; readers; lock_type (rwlock.rs:79-85); and the threads. *)
Record ust := mkU { u_wait : option nat; u_acc : bool; u_own : option nat;
                    u_rd : Z; u_lt : lktype; u_th : list upc }.

(** RwLockInner::new, rwlock.rs:88-95. *)
Definition u_init (n : nat) : ust := mkU None false None 0 LFree (replicate n UIdle).

(** Calls, a step of the running operation, or a try_enter of an inner mutex that fails
    because the mutex is being handed over. *)
Inductive uact := UEnterR | UEnterW | UTryR | UTryW | UExit | UDowngrade | UUpgrade | UGo | UMiss.

(** One step of thread [i], which is at [pc].  None: no such step (a call that makes no
    sense for what the thread holds, or a mutex that is not free). *)
Definition u_exec (s : ust) (i : nat) (pc : upc) (a : uact) : option ust :=
  let 'mkU w ac ow rd lt th := s in
  let go w ac ow rd lt pc' := Some (mkU w ac ow rd lt (<[i := pc']> th)) in
  let wait_exit pc' := match w with
    | Some _ => go None ac ow rd lt pc' | None => go w ac ow rd lt UPanic end in
  let acc_exit pc' :=
    if ac then go w false None rd lt pc' else go w ac ow rd lt UPanic in
  match pc, a with
  (* calls *)
  | UIdle, UEnterW => go w ac ow rd lt UEW0
  | UIdle, UEnterR => go w ac ow rd lt UER0
  | UIdle, UTryW => go w ac ow rd lt UTW0
  | UIdle, UTryR => go w ac ow rd lt UTR0
  | UR, UExit => go w ac ow rd lt (UX0 false)
  | UW, UExit => go w ac ow rd lt (UX0 true)
  | UW, UDowngrade => go w ac ow rd lt UD0
  | UR, UUpgrade => go w ac ow rd lt UU0
  (* enter *)
  | UEW0, UGo => match w with None => go (Some i) ac ow rd lt UEW1 | _ => None end
  | UEW1, UGo => if ac then None else go w true (Some i) rd lt UEW2
  | UEW2, UGo => go w ac ow rd LWriteable UEW3
  | UEW3, UGo => wait_exit UW
  | UER0, UGo => match w with None => go (Some i) ac ow rd lt UER1 | _ => None end
  | UER1, UGo => go w ac ow (rd + 1)%Z lt (if decide (rd = 0%Z) then UER2 else UER4)
  | UER2, UGo => if ac then None else go w true (Some i) rd lt UER3
  | UER3, UGo => go w ac ow rd LReadable UER4
  | UER4, UGo => wait_exit UR
  (* try_enter *)
  | UTW0, UGo => if decide (w = Some i) then go w ac ow rd lt UPanic else
                 match w with None => go (Some i) ac ow rd lt UTW1 | _ => go w ac ow rd lt UIdle end
  | UTW0, UMiss => if decide (w = Some i) then go w ac ow rd lt UPanic else go w ac ow rd lt UIdle
  | UTW1, UGo => if decide (ow = Some i) then go w ac ow rd lt UTPanic else
                 if ac then go w ac ow rd lt UTW4 else go w true (Some i) rd lt UTW2
  | UTW1, UMiss => if decide (ow = Some i) then go w ac ow rd lt UTPanic else go w ac ow rd lt UTW4
  | UTW2, UGo => go w ac ow rd LWriteable UTW3
  | UTW3, UGo => wait_exit UW
  | UTW4, UGo => wait_exit UIdle
  | UTR0, UGo => if decide (w = Some i) then go w ac ow rd lt UPanic else
                 match w with None => go (Some i) ac ow rd lt UTR1 | _ => go w ac ow rd lt UIdle end
  | UTR0, UMiss => if decide (w = Some i) then go w ac ow rd lt UPanic else go w ac ow rd lt UIdle
  | UTR1, UGo => go w ac ow rd lt (UTR2 rd)
  | UTR2 r, UGo =>
      if decide (r = 0%Z) then
        if decide (ow = Some i) then go w ac ow rd lt UTPanic else
        if ac then go w ac ow rd lt UTR6 else go w true (Some i) rd lt UTR3
      else if decide (rd = r) then go w ac ow (r + 1)%Z lt UTR5 else go w ac ow rd lt (UTR2 rd)
  | UTR2 r, UMiss =>
      if decide (r = 0%Z) then
        if decide (ow = Some i) then go w ac ow rd lt UTPanic else go w ac ow rd lt UTR6
      else None
  | UTR3, UGo => go w ac ow 1%Z lt UTR4
  | UTR4, UGo => go w ac ow rd LReadable UTR5
  | UTR5, UGo => wait_exit UR
  | UTR6, UGo => wait_exit UIdle
  (* exit *)
  | UX0 _, UGo => go w ac ow rd lt (if decide (lt = LWriteable) then UX2 else UX1)
  | UX1, UGo => go w ac ow (rd - 1)%Z lt (if decide (rd = 1%Z) then UX2 else UIdle)
  | UX2, UGo => go w ac ow rd LFree UX3
  | UX3, UGo => acc_exit UIdle
  (* downgrade and try_upgrade *)
  | UD0, UGo => go w ac ow rd LReadable UD1
  | UD1, UGo => go w ac ow (rd + 1)%Z lt (if decide (rd = 0%Z) then UR else UD2)
  | UD2, UGo => acc_exit UR
  | UU0, UGo => if decide (rd = 1%Z) then go w ac ow 0%Z lt UU1 else go w ac ow rd lt UR
  | UU1, UGo => go w ac ow rd LWriteable UW
  | _, _ => None
  end.

Definition u_step (s : ust) (i : nat) (a : uact) : option ust :=
  match u_th s !! i with Some pc => u_exec s i pc a | None => None end.

Fixpoint u_run (s : ust) (l : list (nat * uact)) : option ust :=
  match l with
  | [] => Some s
  | (i, a) :: l => match u_step s i a with Some s' => u_run s' l | None => None end
  end.
