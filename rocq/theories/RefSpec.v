(** Specification for refilling a cache of shared memory. *)
From Verif Require Import Base RefModel.

(** All base pages, also those of large pages, that the two caches hold. *)
Definition held (st : state) : list N :=
  base (core st) ++ base (sh st) ++
  flat_map split (large (core st)) ++ flat_map split (large (sh st)).
