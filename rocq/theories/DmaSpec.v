(** Vocabulary for device drivers of a program (C71). *)
From Verif Require Import Base PgModel DmaModel.
Local Open Scope N_scope.

(** The physical address the processor uses for an address of the program. *)
Definition translate (m : gmap N N) (va : N) : option N :=
  match m !! (va / 4096) with Some p => Some (p * 4096 + va mod 4096) | None => None end.
Definition unused (m : gmap N N) (va size : N) : Prop := forall a, va <= a < va + size -> translate m a = None.

(** States a program reaches, with the pages whose address was asked for; these are not unmapped (see the refutation), and
    nothing is mapped over a mapping.  The kernel backs a request for DMA memory by a frame aligned to the size of it. *)
Inductive driver : gset N -> dst -> Prop :=
| dr_start : driver ∅ (mkD pgs_init ∅ None)
| dr_init q st : driver q st -> driver q (iospace_init st)
| dr_ask q st va : driver q st -> driver ({[va / 4096]} ∪ q) (virt_to_mach st va).2
| dr_dma q st core size align ans :
    driver q st ->
    (forall va pa, (dmalloc st core size align ans).1 = Ok (va, pa) -> pa mod dma_size size = 0 /\ unused (d_map st) va (dma_size size)) ->
    driver (match (dmalloc st core size align ans).1 with Ok (va, _) => {[va / 4096]} ∪ q | _ => q end) (dmalloc st core size align ans).2
| dr_map q st v p n : driver q st -> unused (d_map st) (v * 4096) (N.of_nat n * 4096) -> driver q (other_map st v p n)
| dr_unmap q st v n : driver q st -> (forall x, v <= x < v + N.of_nat n -> x ∉ q) -> driver q (other_unmap st v n).

(** ** Configuration space *)
(** A register that exists. *)
Definition pci_ok (t : N * N * N * N) : Prop := let '(b, d, f, r) := t in b < 256 /\ d < 32 /\ f < 8 /\ r < 256 /\ r mod 4 = 0.
Definition cop_reg (o : cop) : N * N * N * N := match o with CRead t | CWrite t _ => t end.
(** One access after the other on registers [c]: every read gives what was written last. *)
Fixpoint in_order (c : N * N * N * N -> N) (l : list (cop * N)) : Prop :=
  match l with
  | [] => True
  | (CRead t, v) :: l => v = c t /\ in_order c l
  | (CWrite t v, _) :: l => in_order (fun z => if decide (z = t) then v else c z) l
  end.
