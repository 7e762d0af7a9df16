(** What printing on the console means, independent of the model's steps. *)
From Verif Require Import Base.
From Verif Require Import ConModel.
Local Open Scope N_scope.

(** A text a program can hand to the kernel: UTF-8, at most 2 GiB, in user memory and not in the first page. *)
Definition printable (base : N) (text : list N) : Prop :=
  RkModel.utf8 text = true /\ N.of_nat (length text) < 2 ^ 31 /\
  4096 <= base /\ base + N.of_nat (length text) < 2 ^ 46.

(** What the programs on core [c] printed, in order. *)
Fixpoint said (c : nat) (l : list ev) : list N :=
  match l with
  | [] => []
  | EPrint d _ text :: l => (if Nat.eqb d c then text else []) ++ said c l
  | _ :: l => said c l
  end.

(** The bytes on the serial line that come from programs on core [c], and those of all programs. *)
Definition shown (c : nat) (line : list (option nat * N)) : list N :=
  flat_map (fun x => match x.1 with Some d => if Nat.eqb d c then [x.2] else [] | None => [] end) line.
Definition users (line : list (option nat * N)) : list (nat * N) :=
  flat_map (fun x => match x.1 with Some d => [(d, x.2)] | None => [] end) line.

(** What reached the controller from core [c]. *)
Definition copied (c : nat) (msgs : list (nat * list N)) : list N :=
  flat_map (fun x => if Nat.eqb x.1 c then x.2 else []) msgs.

(** The core is in no call. *)
Definition returned (c : nat) (s : st) : Prop := exists k, s_cores s !! c = Some k /\ k_ph k = PIdle.

(** Texts of core [c]. *)
Definition texts_ok (P : list N -> Prop) (c : nat) (l : list ev) : Prop :=
  forall base text, EPrint c base text ∈ l -> P text.
Definition all_printable (l : list ev) : Prop :=
  forall c base text, EPrint c base text ∈ l -> printable base text.

(** At most one newline in a text; no line of a text is longer than [m] bytes. *)
Definition one_nl (text : list N) : Prop :=
  forall a b, text = a ++ NL :: b -> NL ∉ b.
Definition lines_upto (m : N) (text : list N) : Prop :=
  forall a l b, text = a ++ l ++ b -> NL ∉ l -> N.of_nat (length l) <= m.

(** What follows the first newline of a text is at most [m] bytes. *)
Definition tail_fits (m : N) (text : list N) : Prop :=
  forall a b, text = a ++ NL :: b -> NL ∉ a -> N.of_nat (length b) <= m.

(** The bytes of one line of core [c] stand next to each other: between two of its bytes with no newline of it from the first
    up to the second there is no byte of another core. *)
Definition unmixed (c : nat) (u : list (nat * N)) : Prop :=
  forall a b1 m b2 z, u = a ++ (c, b1) :: m ++ (c, b2) :: z -> (c, NL) ∉ (c, b1) :: m ->
  forall x, x ∈ m -> x.1 = c.
