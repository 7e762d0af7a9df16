(** Vocabulary for the memory system calls (C43). *)
From Verif Require Import Base NodeModel VsModel VsSpec PrcModel PrcSpec.

(** The pages the allocator may supply to a call: large ones, base ones; for each one the later
    refill succeeds. *)
Definition supply (sz : N) (l : list (pframe * bool)) : Prop :=
  Forall (fun fr => pf_size fr.1 = sz /\ (pf_base fr.1 mod sz = 0)%N /\ fr.2 = true) l.

(** The number of bytes a request is rounded up to. *)
Definition rounded (size : N) : N := ((size + 4095) / 4096 * 4096)%N.

(** Where frames laid out from [b] on put the address [x]. *)
Fixpoint placed (b : N) (fs : list pframe) (x : N) : option N :=
  match fs with
  | [] => None
  | f :: fs => if decide (b <= x /\ x < b + pf_size f)%N then Some (pf_base f + (x - b))%N else placed (b + pf_size f) fs x
  end.
