(** Specification for the programs on the boot volumes: what the firmware
    promises, and what a file of a volume is. *)
From Verif Require Import Base BmModel.

(** The firmware hands out pages that it has not handed out before. *)
Definition good_firmware (pick : allocator) : Prop :=
  ∀ log pages base, pick log pages = Some base →
    ∀ b p, (b, p) ∈ log →
      ∀ a, (base ≤ a < base + pages * 4096)%N → (b ≤ a < b + p * 4096)%N → False.

(** The volumes have a file with this name (in 16-bit units) and contents in
    their root directories. *)
Definition has_file (vs : list volume) (n data : list N) : Prop :=
  ∃ v, v ∈ vs ∧ Entry n false data ∈ v.

(** A name of which every unit is a character by itself. *)
Definition plain (n : list N) : Prop :=
  Forall (λ u, (u < 55296 ∨ 57344 ≤ u)%N) n.

(** A directory that the boot loader can read: at most 32 entries, names of at
    most 87 plain characters, and no two entries of the same name. *)
Definition readable (v : volume) : Prop :=
  length v ≤ 32 ∧
  (∀ e, e ∈ v → length (e_name e) ≤ 87 ∧ plain (e_name e)) ∧
  NoDup (map e_name v).

(** A name under which a program can be passed on. *)
Definition usable (n : list N) : Prop :=
  length (utf8 n) < 32 ∧ utf8 n ≠ s_loader.
