(** What it means that an address space answers as the reference does. *)
From Verif Require Import Base VsModel VsSpec MasModel.

(** A mapping of the log [l] that overlaps the range of a map call and is not a mapping of the
    same memory with the same rights at the same place. *)
Definition in_the_way (l : mas) (b p sz : N) (a : mapact) (x : N) : Prop :=
  exists k mi, (k, mi) ∈ l /\ within k (mi_size mi) x /\ (exists y, within k (mi_size mi) y /\ within b sz y) /\
    ~ (k = b /\ mi_pa mi = p /\ (mi_size mi <= sz)%N /\ mi_rights mi = a).

(** The same answer; where both refuse a map because of other mappings, each may name an address
    of any of these (test.rs:107-111). *)
Definition same_answer (l : mas) (o : asop) (r1 r2 : res asans) : Prop :=
  r1 = r2 \/
  exists b p sz a x y, o = AMap b p sz a /\ r1 = Err (AlreadyMapped x) /\ r2 = Err (AlreadyMapped y) /\
    in_the_way l b p sz a x /\ in_the_way l b p sz a y.
Fixpoint same_answers (l : mas) (os : list asop) (rs1 rs2 : list (res asans)) : Prop :=
  match os, rs1, rs2 with
  | [], [], [] => True
  | o :: os, r1 :: rs1, r2 :: rs2 => same_answer l o r1 r2 /\ same_answers (mas_step l o).1 os rs1 rs2
  | _, _, _ => False
  end.

(** A map call that would make a mapping longer: the mapping at [b] has the same target and
    rights, a smaller size, and nothing else is in the range. *)
Definition extends (l : mas) (b p sz : N) (a : mapact) : Prop :=
  exists sz0, (b, mkMI p sz0 a) ∈ l /\ (sz0 < sz)%N /\
    forall k mi, (k, mi) ∈ l -> (exists y, within k (mi_size mi) y /\ within b sz y) -> k = b.

(** The calls considered: frames of one page below 2^48 that do not extend a mapping, rights that
    are present and cacheable, and page-aligned addresses for unmap. *)
Definition as_ok (lg : bool) (l : mas) (o : asop) : Prop :=
  match o with
  | AMap b p sz a => page_sized lg sz /\ (b + sz <= 2 ^ 48)%N /\ granted a = a /\ ~ extends l b p sz a
  | AAdjust va a => (va < 2 ^ 48)%N /\ granted a = a
  | AResolve va => (va < 2 ^ 48)%N
  | AUnmap va => (va < 2 ^ 48)%N /\ (va mod 4096 = 0)%N
  end.
Fixpoint as_all_ok (lg : bool) (l : mas) (os : list asop) : Prop :=
  match os with
  | [] => True
  | o :: os => as_ok lg l o /\ as_all_ok lg (mas_step l o).1 os
  end.
