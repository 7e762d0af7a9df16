(** Specification for the services of the ACPI interpreter. *)
From Verif Require Import Base AcpModel.

(** A little-endian number of [k] bytes of a configuration space. *)
Fixpoint config_value (c : config) (bus dev fn reg : N) (k : nat) : N :=
  match k with
  | 0 => 0%N
  | S k' => (c bus dev fn reg + 256 * config_value c bus dev fn (reg + 1) k')%N
  end.

(** The states that the interpreter's use of memory leads to.  [heap]: the
    blocks that the heap has handed out and not got back (address and size);
    [blocks]: what the interpreter has (pointer and size).  The heap hands out
    blocks that do not overlap others, the interpreter writes only into its
    blocks and frees only pointers that it has. *)
Inductive reach : list (N * N) → list (N * N) → memory → Prop :=
| r_start mem : reach [] [] mem
| r_alloc heap blocks mem size a mem' p :
    reach heap blocks mem →
    (0 < a)%N →
    (∀ b n x, (b, n) ∈ heap → (b ≤ x < b + n)%N → (a ≤ x < a + (size + 16))%N → False) →
    step mem (OAlloc size (Some a)) = Some (mem', [EAsk (size + 16) 8; EReturn p]) →
    reach ((a, size + 16)%N :: heap) ((p, size) :: blocks) mem'
| r_none heap blocks mem size mem' es :
    reach heap blocks mem →
    step mem (OAlloc size None) = Some (mem', es) →
    reach heap blocks mem'
| r_write heap blocks mem p n a v mem' es :
    reach heap blocks mem →
    (p, n) ∈ blocks → (p ≤ a < p + n)%N →
    step mem (OWrite a v) = Some (mem', es) →
    reach heap blocks mem'
| r_free h1 h2 b1 b2 mem p n mem' a size align :
    reach (h1 ++ (a, size) :: h2) (b1 ++ (p, n) :: b2) mem →
    step mem (OFree p) = Some (mem', [EGive a size align]) →
    reach (h1 ++ h2) (b1 ++ b2) mem'.
