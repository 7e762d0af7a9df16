(** Vocabulary for memory in a rack (C51). *)
From Verif Require Import Base VsModel VsSpec PrcModel IsoModel IsoSpec RmModel.

(** The pages in the caches of all clients and processes. *)
Definition cached (R : rrack) : list N := concat (concat (rr_cache R)).

(** A rack whose processes have been loaded and not run yet, with its caches empty. *)
Record rack_started (dbg : bool) (R : rrack) : Prop := {
  rs_mach : started dbg (rr_m R);
  rs_cache : cached R = [] }.

(** Requests about the lower half, without device memory; frames of 4 KiB or 2 MiB. *)
Definition rm_ok (R : rrack) (p : nat) (c : rmcall) : Prop :=
  match c with
  | RmMap b size _ _ _ => (b + size + 4095 <= KERNEL_BASE)%N
  | RmLocal c => request_ok (rr_m R) p c
  | RmAlloc size _ => size = 4096%N \/ size = 2097152%N
  | RmRelease _ _ _ => True
  end.
Fixpoint rms_ok (dbg : bool) (nm : nat) (R : rrack) (l : list (nat * nat * rmcall)) : Prop :=
  match l with
  | [] => True
  | (i, p, c) :: l => rm_ok R p c /\
      match rack_step dbg nm R i p c with Some (R', _) => rms_ok dbg nm R' l | None => True end
  end.
(** [n] bytes in pages of 4 KiB. *)
Definition in_pages (n : N) : N := ((n + 4095) / 4096 * 4096)%N.
(** The large pages that a request for [size] bytes needs from the controller when the client has
    [cached] pages for the process: one for each 2 MiB, and one if the cache does not cover the
    rest. *)
Definition larges_needed (size : N) (cached : nat) : N :=
  (size / 2097152 + (if in_pages (size mod 2097152) <=? 4096 * N.of_nat cached then 0 else 1))%N.
