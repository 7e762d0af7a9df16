(** Specification for C72: what a core that is started may rely on. *)
From Verif Require Import Base CbModel.
Local Open Scope N_scope.

(** The cores that entered the kernel, the cores that said they are up, and the cores the boot core has finished with, in the order
    in which that happened. *)
Definition starts (l : list ev) : list N := omap (fun e => match e with EStart c _ => Some c | _ => None end) l.
Definition ups (l : list ev) : list N := omap (fun e => match e with EUp c => Some c | _ => None end) l.
Definition nexts (l : list ev) : list N := omap (fun e => match e with ENext c => Some c | _ => None end) l.

(** Two blocks of memory share no byte. *)
Definition disjoint_blocks (a n b m : N) : Prop := forall x, ~ (a <= x < a + n /\ b <= x < b + m).

(** The stack grows down from [sp]: the 2 MiB below it are one block of the heap, and a function that is called finds the alignment
    of the calling convention. *)
Definition good_stack (h : list (N * N)) (sp : N) : Prop :=
  exists a, (a, 2097152) ∈ h /\ sp = a + 2097152 /\ sp mod 16 = 0 /\ 0 < a.

(** A schedule in which memory for the stacks never ran out. *)
Definition stacks_given (ls : list label) : Prop := forall ar, ~ LTake None ar ∈ ls.
