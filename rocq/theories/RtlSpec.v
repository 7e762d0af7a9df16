(** Vocabulary for the shootdown between machines (C62). *)
From Verif Require Import Base RtlModel.

(** A state some run reaches. *)
Definition r_reach (cap rcap n nm : nat) (tr : list rlabel) : rst := r_run cap rcap n nm r_init tr.
(** A core runs its process (or idles), not the kernel. *)
Definition in_process (s : rst) (g : core) : Prop := r_st s g = [].
(** Core [g] was asked to flush its TLB, by an object made when at least [start] objects existed; it has
    acknowledged, and if it is back in its process, it has flushed. *)
Definition flushed_since (s : rst) (start : nat) (g : core) : Prop :=
  exists id, start <= id /\ r_tgt s !! id = Some (TCore g) /\ id ∈ r_ack s /\
    (in_process s g -> (g, id) ∈ r_flushed s).
(** No new calls. *)
Definition no_call (l : rlabel) : Prop := match l with RCall _ _ => False | _ => True end.
