(** What C40 is about: histories of registrations and claims. *)
From Verif Require Import Base SysModel ThmModel.

(** The threads machine [mid] registered with. *)
Fixpoint reg_of (past : list cact) (mid : nat) : option (list cput) :=
  match past with
  | CRegA m ts :: past => if decide (m = mid) then Some ts else reg_of past mid
  | _ :: past => reg_of past mid
  | [] => None
  end.
(** Its registration is complete. *)
Fixpoint reg_done (past : list cact) (mid : nat) : bool :=
  match past with
  | CRegB m _ :: past => if decide (m = mid) then true else reg_done past mid
  | _ :: past => reg_done past mid
  | [] => false
  end.
(** The threads that may be claimed. *)
Definition avail (past : list cact) (mid : nat) : list cput :=
  if reg_done past mid then default [] (reg_of past mid) else [].

(** Machines are numbered from 1 to MAX_MACHINES, register once, with at most MAX_CORES threads;
    the second half of a registration follows the first. *)
Definition act_ok (past : list cact) (a : cact) : Prop :=
  match a with
  | CRegA mid ts => 1 <= mid <= MAX_MACHINES /\ length ts <= THM_MAX_CORES /\ reg_of past mid = None
  | CRegB mid n => exists ts, reg_of past mid = Some ts /\ n = length ts /\ reg_done past mid = false
  | CClaim mid => 1 <= mid <= MAX_MACHINES
  end.
Fixpoint hist_ok (past l : list cact) : Prop :=
  match l with [] => True | a :: l => act_ok past a /\ hist_ok (past ++ [a]) l end.

(** The threads handed out for a machine, in order. *)
Definition claimed (outs : list (nat * option (N * N))) (mid : nat) : list (N * N) :=
  omap (fun o => if decide (o.1 = mid) then o.2 else None) outs.
(** The [i]-th thread of a machine, as its global id and its node. *)
Definition thread_at (mid : nat) (ts : list cput) (i : nat) : N * N :=
  (new_gtid (N.of_nat i) (N.of_nat mid), default 0%N (ct_node <$> ts !! i)).
