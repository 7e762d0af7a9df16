(** What C38 is about: ranges of addresses. *)
From Verif Require Import Base.
Local Open Scope N_scope.

(** Ranges are (first address, size).  Two ranges share no address. *)
Definition apart (r1 r2 : N * N) : Prop := forall a, ~ (r1.1 <= a < r1.1 + r1.2 /\ r2.1 <= a < r2.1 + r2.2).
(** All ranges of a list, at different positions, are apart. *)
Definition all_apart (l : list (N * N)) : Prop :=
  forall i j r1 r2, l !! i = Some r1 -> l !! j = Some r2 -> i <> j -> apart r1 r2.
(** Address [a] is in one of the ranges. *)
Definition covered (l : list (N * N)) (a : N) : Prop := exists r, r ∈ l /\ r.1 <= a < r.1 + r.2.
(** A valid core::alloc::Layout. *)
Definition layout_ok (size align : N) : Prop := exists k, align = 2 ^ k /\ k < 63 /\ size + (align - 1) < 2 ^ 63.
