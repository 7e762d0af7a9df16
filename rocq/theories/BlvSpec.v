(** Vocabulary for the bootloader's address space (C58). *)
From Verif Require Import Base VsModel BlvModel.

(** The rights an action asks for, by its name: in kernel mode, in user mode. *)
Definition asks_kernel (a : bact) (write exec : bool) : bool :=
  match a with
  | BNone => false
  | BReadUser | BReadKernel => negb write && negb exec
  | BReadWriteUser | BReadWriteKernel => negb exec
  | BReadExecuteUser | BReadExecuteKernel => negb write
  | BReadWriteExecuteUser | BReadWriteExecuteKernel => true
  end.
Definition asks_user (a : bact) (write exec : bool) : bool :=
  match a with
  | BReadUser | BReadWriteUser | BReadExecuteUser | BReadWriteExecuteUser => asks_kernel a write exec
  | _ => false
  end.

(** One level of the processor's check (Intel SDM vol. 3, 4.6; CR0.WP and NXE are set). *)
Definition lets (f : flags) (user write exec : bool) : bool :=
  fl_p f && (negb user || fl_us f) && (negb write || fl_rw f) && (negb exec || negb (fl_xd f)).
(** Where an access goes: all levels must let it through. *)
Definition access (t : gmap N (gmap N pdpte)) (va : N) (user write exec : bool) : option N :=
  match walk t va with
  | Some (l, sz) =>
      if lets bl_table_flags user write exec && lets (l_fl l) user write exec then Some (l_pa l + va mod sz)%N else None
  | None => None
  end.

(** What the last level alone, the entry made for the page, lets through. *)
Definition page_lets (t : gmap N (gmap N pdpte)) (va : N) (user write exec : bool) : bool :=
  match walk t va with Some (l, _) => lets (l_fl l) user write exec | None => false end.

Definition in_range (b n x : N) : Prop := (b <= x)%N /\ (x < b + n)%N.
(** Nothing is mapped in the range. *)
Definition free_range (t : gmap N (gmap N pdpte)) (b n : N) : Prop :=
  forall va, in_range b n va -> bl_resolve t va = None.

(** Address spaces that a sequence of maps gives. *)
Inductive bl_built : gmap N (gmap N pdpte) -> Prop :=
| built_new : bl_built ∅
| built_map t vb pb ps a t' : bl_built t -> (vb + ps <= 2 ^ 48)%N -> bl_map t vb pb ps a = Ok t' -> bl_built t'.
