(** Vocabulary for condition variables (C66). *)
From Verif Require Import Base CvModel.

(** The threads that wait and have not been woken, newest first: a signal wakes the newest of them, a broadcast all. *)
Fixpoint sleepers (h : list cev) : list nat :=
  match h with
  | [] => []
  | EWait t :: h => t :: sleepers h
  | ESignal _ :: h => tail (sleepers h)
  | EBroadcast _ :: h => []
  | (ERet _ | EElse _) :: h => sleepers h
  end.
(** Thread [t] is in a call of wait. *)
Fixpoint waits (h : list cev) (t : nat) : bool :=
  match h with
  | [] => false
  | EWait x :: h => if Nat.eqb x t then true else waits h t
  | ERet x :: h => if Nat.eqb x t then false else waits h t
  | _ :: h => waits h t
  end.
(** [t] is between reading and writing the list of waiters. *)
Definition busy (s : cst) (t : nat) : Prop :=
  match v_pc s t with CPushW _ _ | CRemW _ _ | CSigW _ | CBcW _ => True | _ => False end.
(** The step [l] begins to read the list. *)
Definition reads (s : cst) (l : clab) : Prop :=
  match l with
  | ZWait _ _ | ZSignal _ | ZBroadcast _ => True
  | ZStep t => match v_pc s t with CRem0 _ => True | _ => False end
  | _ => False
  end.
(** Waits have no time limit; accesses to the list do not overlap (as on a single core, or under the mutex); signal and
    broadcast are not called while another thread holds the mutex. *)
Definition calm (s : cst) (l : clab) : Prop :=
  (forall t, l <> ZWait t true) /\
  (reads s l -> forall u, ~ busy s u) /\
  match l with ZSignal u | ZBroadcast u => v_mtx s = None \/ v_mtx s = Some u | _ => True end.
(** The usual discipline: no time limits, and signal and broadcast are called by the holder of the mutex. *)
Definition locked (s : cst) (l : clab) : Prop :=
  (forall t, l <> ZWait t true) /\ match l with ZSignal u | ZBroadcast u => v_mtx s = Some u | _ => True end.
(** [P] holds at every step of a run that is possible; the others change nothing. *)
Fixpoint calways (P : cst -> clab -> Prop) (s : cst) (tr : list clab) : Prop :=
  match tr with [] => True | l :: tr => (cv_label s l <> None -> P s l) /\ calways P (default s (cv_label s l)) tr end.
Definition cv_reach (tr : list clab) : cst := cv_run cv_init tr.
(** Steps that are not new calls: a step of a call, the core resumes a thread, the mutex is left. *)
Definition onward (l : clab) : Prop := match l with ZStep _ | ZRun _ | ZUnlock _ => True | _ => False end.
(** Nothing is under way: every thread is outside of the calls or blocked. *)
Definition still (s : cst) : Prop :=
  forall t, match v_pc s t with CIdle | CElse | CWBlocked _ => True | _ => False end.
(** Signal and broadcast are called by the holder of the mutex; waits may have a time limit. *)
Definition by_holder (s : cst) (l : clab) : Prop :=
  match l with ZSignal u | ZBroadcast u => v_mtx s = Some u | _ => True end.
(** Signal and broadcast are called while nobody else holds the mutex, waits have no time limit: [calm] without its
    second part. *)
Definition free_or_own (s : cst) (l : clab) : Prop :=
  (forall t, l <> ZWait t true) /\
  match l with ZSignal u | ZBroadcast u => v_mtx s = None \/ v_mtx s = Some u | _ => True end.
