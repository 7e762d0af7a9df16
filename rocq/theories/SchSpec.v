(** What C37 is about, in terms of the scheduler's state and history. *)
From Verif Require Import Base SchModel.
From stdpp Require Import functions.

(** Thread [t] exists and belongs to core [c]. *)
Definition alive (s : sch) (c t : nat) : Prop := exists x, h_thr s !! t = Some x /\ t_aff x = c.
(** It is queued for dispatch, sleeps until [w], waits for thread [u] to end, runs. *)
Definition ready (s : sch) (c t : nat) : Prop := t ∈ h_run s c.
Definition sleeps (s : sch) (c t : nat) (w : N) : Prop := (w, t) ∈ h_wait s c.
Definition joins (s : sch) (t u : nat) : Prop :=
  exists y, h_thr s !! u = Some y /\ t ∈ (t_join y).*1.
Definition runs (s : sch) (c t : nat) : Prop := h_cur s c = Some t.

(** The discipline under which the guarded theorems hold.  A wake-up request names a thread
    that exists, is not already queued and does not wait in a join (it may sleep, be blocked,
    or run and be about to block: then the wake-up is pending).  A thread with a pending
    wake-up does not sleep, join or yield before it has blocked.  Interrupts are delivered on
    the core of their thread, when it is blocked.  Spawns name an existing core, and the ones
    from inside a thread happen while there is room. *)
Definition wakeable (s : sch) (r : nat) : Prop :=
  exists c, alive s c r /\ ~ ready s c r /\ forall u, ~ joins s r u.

Definition disciplined (s : sch) (a : schact) : Prop :=
  match a with
  | HSpawn aff _ => aff < SCH_CORES
  | HIrq c v => forall t, h_irq s !! v = Some t -> h_cur s c = None ->
      alive s c t /\ ~ ready s c t /\ (forall u, ~ joins s t u) /\ forall w, ~ sleeps s c t w
  | HWake _ _ | HDispatch _ => True
  | HYield c r => forall t, h_cur s c = Some t ->
      match r with
      | YExit => True
      | YNone | YTimeout _ => ~ ready s c t
      | YJoinOn w => (exists c', alive s c' w) -> ~ ready s c t
      | YRunnable r => wakeable s r
      | YUnrunnable r => exists c', alive s c' r
      | YRunnableList rs => NoDup rs /\ Forall (wakeable s) rs
      | YSpawn aff _ => aff < SCH_CORES /\ size (h_thr s) <= MAX_THREADS
      end
  end.

Fixpoint disciplined_run (s : sch) (l : list schact) : Prop :=
  match l with
  | [] => True
  | a :: l => disciplined s a /\ forall s', sch_step s a = Ok s' -> disciplined_run s' l
  end.

(** The events of a history: the ids of all threads ever created; the threads made runnable
    on core [c], and those dispatched there, in order. *)
Fixpoint spawned (tr : list schev) : list nat :=
  match tr with [] => [] | VSpawn t :: tr => t :: spawned tr | _ :: tr => spawned tr end.
Fixpoint readied (c : nat) (tr : list schev) : list nat :=
  match tr with
  | [] => []
  | VReady c' t :: tr => if decide (c' = c) then t :: readied c tr else readied c tr
  | _ :: tr => readied c tr
  end.
Fixpoint dispatched (c : nat) (tr : list schev) : list nat :=
  match tr with
  | [] => []
  | VDisp c' t :: tr => if decide (c' = c) then t :: dispatched c tr else dispatched c tr
  | _ :: tr => dispatched c tr
  end.
