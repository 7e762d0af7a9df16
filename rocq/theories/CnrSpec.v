(** Specification vocabulary for C09: what it means that two replicas consumed the
    same logs. *)
From Verif Require Import Base FsModel FsView CnrModel.

(** Operation [op] is appended to log [i]. *)
Definition in_log (nlogs i : nat) (op : modify) : Prop := i ∈ logs_of nlogs op.
Global Instance in_log_dec nlogs i op : Decision (in_log nlogs i op).
Proof. unfold in_log. apply _. Defined.

(** The operations a replica that executed [l] has consumed from log [i].  A log is
    a sequence, so two replicas that consumed all of it have the same projection;
    the orders in which they interleaved different logs are unconstrained. *)
Definition proj (nlogs i : nat) (l : list (nat * modify)) : list modify :=
  filter (in_log nlogs i) l.*2.

(** The file by which a write was routed to its log (looked up by the caller
    before the operation was logged) is still the file its descriptor refers to
    when the operation executes. *)
Definition hint_ok (n : node) (op : modify) : Prop :=
  match op with
  | FileWrite pid fd m _ _ => forall e, fd_of n pid fd = Some e -> fd_mnode e = m
  | _ => True
  end.
Fixpoint hints_ok (n : node) (l : list (nat * modify)) : Prop :=
  match l with
  | [] => True
  | (a, op) :: l' => hint_ok n op /\ hints_ok (dispatch_mut a n op).2 l'
  end.

(** Outcomes of the operations of log [i], in order. *)
Fixpoint outs (nlogs i : nat) (n : node) (l : list (nat * modify)) : list (res nresult) :=
  match l with
  | [] => []
  | (a, op) :: l' =>
    let r := dispatch_mut a n op in
    if decide (in_log nlogs i op) then r.1 :: outs nlogs i r.2 l' else outs nlogs i r.2 l'
  end.
