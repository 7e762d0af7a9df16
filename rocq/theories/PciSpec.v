(** Specification for C73: devices and their owners. *)
From Verif Require Import Base PciModel.
Local Open Scope N_scope.

(** Who has a device: nobody yet (it is in the table), or the [k]th call that returned, or the call thread [t] is in. *)
Inductive owner := Table | Call (k : nat) | Running (t : nat).
Definition has (s : pst) (o : owner) (x : dev) : Prop :=
  match o with
  | Table => Some x ∈ p_tab s
  | Call k => exists t c l, p_log s !! k = Some (t, c, l) /\ x ∈ l
  | Running t => exists c i l, p_thr s t = TScan c i l /\ x ∈ l
  end.

(** What a call asked for. *)
Definition asked (c : call) (x : dev) : Prop := match c with One v d | Many v d => d_vendor x = v /\ d_id x = d end.
Global Instance asked_dec c x : Decision (asked c x).
Proof. destruct c; cbn; apply _. Defined.

(** The devices of a table, in the order of the bus. *)
Definition devices (tab : list (option dev)) : list dev := omap id tab.
(** What a call that is alone gets: claim_device the first device that it asked for, claim_devices all of them. *)
Definition due (c : call) (tab : list (option dev)) : list dev :=
  let l := filter (asked c) (devices tab) in match c with One _ _ => take 1 l | Many _ _ => l end.

(** The calls of thread [t] that returned; the steps of thread [t] in a schedule. *)
Definition returned (t : nat) (s : pst) : nat := length (filter (fun e => e.1.1 = t) (p_log s)).
Definition steps_of (t : nat) (l : list (nat * call)) : nat := length (filter (fun e => e.1 = t) l).
