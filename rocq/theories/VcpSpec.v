(** Specification for C74: virtual CPUs and the big lock of the library OS. *)
From Verif Require Import Base VcpModel.

(** How many of the threads below [N] have a virtual CPU. *)
Definition with_cpu (s : st) (N : nat) : nat := length (filter (fun t => t_cpu (g_thr s t) = true) (seq 0 N)).

(** The places where a thread does not run until something happens: another thread releases a mutex, signals a condition variable,
    or time passes; in a call that gives up the virtual CPU. *)
Definition suspended (s : st) (t : nat) : Prop :=
  match t_pc (g_thr s t) with
  | E3 _ _ | S2 _ => True
  | W3 _ _ _ k => k <> WNowrap
  | _ => False
  end.

(** A thread can do its next step. *)
Definition enabled (fl : nat -> flags) (s : st) (t : nat) : Prop := exists s', vstep fl t Go s = Some s' /\ g_thr s' t <> g_thr s t.
