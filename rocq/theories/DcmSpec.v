(** What C39 is about. *)
From Verif Require Import Base DcmModel.

(** The ids of a call: [id, id + n). *)
Definition of_req (r : dreq) (id : nat) : Prop := q_id r <= id < q_id r + q_n r.
(** A call has returned. *)
Definition returned (r : dreq) : Prop := q_pc r = QWait /\ q_recv r = q_n r.

(** The external scheduler's contract: it answers each call with fresh ids, and notifies each
    id at most once, at any time, with the node it has assigned to it (machine ids of nodes
    start at 1). *)
Definition sched_ok (assign : nat -> nat) (s : dcm) (a : dact) : Prop :=
  match a with
  | ABegin id cores mem => 0 < cores + mem /\ forall r i, r ∈ d_reqs s -> of_req r i -> ~ (id <= i < id + (cores + mem))
  | ANotify id mid => mid = assign id /\ mid <> 0 /\ id ∉ (d_noted s).*1
  | _ => True
  end.
Fixpoint sched_ok_run (assign : nat -> nat) (s : dcm) (l : list dact) : Prop :=
  match l with [] => True | a :: l => sched_ok assign s a /\ sched_ok_run assign (dcm_step s a) l end.

(** A call has put its ids in the table. *)
Definition registered (r : dreq) : Prop := q_pc r <> QCalled.
(** The scheduler is never faster than the call: it notifies an id only once the call that
    asked for it has put it in the table. *)
Definition timely (s : dcm) (a : dact) : Prop :=
  match a with
  | ANotify id _ => exists r, r ∈ d_reqs s /\ registered r /\ of_req r id
  | _ => True
  end.
Fixpoint timely_run (s : dcm) (l : list dact) : Prop :=
  match l with [] => True | a :: l => timely s a /\ timely_run (dcm_step s a) l end.
