(** Vocabulary for parking and unparking threads (C63). *)
From Verif Require Import Base LwpModel.

(** An unpark of [t] took effect and [t] has not returned from park since. *)
Fixpoint permit (l : list lev) (t : nat) : bool :=
  match l with
  | [] => false
  | EUnpark x :: l => if Nat.eqb x t then true else permit l t
  | ERet x :: l => if Nat.eqb x t then false else permit l t
  end.
Definition l_reach (tr : list llab) : lst := l_run l_init tr.
(** Lwp [t] waits in park. *)
Definition parked (s : lst) (t : nat) : Prop := l_pc s t = LBlocked BPark.
(** The step [l] lets an unpark of [t] take effect. *)
Definition unparks (s : lst) (l : llab) (t : nat) : Prop :=
  exists u ts k, l = ZStep u /\ l_pc s u = LUn (t :: ts) k.
(** An lwp is unparked only when whoever created it has noted its thread. *)
Definition noted (s : lst) (l : llab) : Prop := forall t, unparks s l t -> l_ex s t = true -> l_thr s t = t.
(** ... and only when its last unpark has been used. *)
Definition polite (s : lst) (l : llab) : Prop := forall t, unparks s l t -> permit (l_ev s) t = false.
(** All steps of a run satisfy [P]. *)
Fixpoint always (P : lst -> llab -> Prop) (s : lst) (tr : list llab) : Prop :=
  match tr with [] => True | l :: tr => P s l /\ always P (default s (l_label s l)) tr end.
(** Parks have no time limit and unparks name lwps that exist. *)
Definition proper (s : lst) (l : llab) : Prop :=
  (forall u o, l <> ZPark u true o) /\ forall t, unparks s l t -> l_ex s t = true.
