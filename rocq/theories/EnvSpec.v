(** Specification for random bytes, the time and parameters. *)
From Verif Require Import Base EnvModel.

(** A time of day in nanoseconds from seconds and nanoseconds. *)
Definition nanos (t : Z * N) : Z := (t.1 * 1000000000 + Z.of_N t.2)%Z.

(** Decimal text, and the number it says. *)
Definition decimal (s : list N) : Prop := s ≠ [] ∧ Forall (λ b, (48 ≤ b ≤ 57)%N) s.
Definition number (s : list N) : N := fold_left (λ n b, (n * 10 + (b - 48))%N) s 0%N.

(** The C string at the start of a buffer. *)
Fixpoint c_string (buf : list N) : list N :=
  match buf with
  | [] => []
  | b :: buf' => if (b =? 0)%N then [] else b :: c_string buf'
  end.

(** How many of the first [n] draws come before the first failure. *)
Fixpoint drawn (rd : nat → option N) (from n : nat) : nat :=
  match n with
  | 0 => 0
  | S k => match rd from with Some _ => S (drawn rd (S from) k) | None => 0 end
  end.
