(** The reference address space the project tests its page tables against
    (kernel/src/memory/vspace_model.rs), function by function, and the four calls that both
    implement (arch/x86_64/vspace/test.rs:20-25).  An entry of the log is a virtual base and a
    record of physical base, length and rights.  Sums of addresses and lengths are unbounded. *)
From Verif Require Import Base VsModel.

(** ModelAddressSpace, vspace_model.rs:12-15. *)
Definition mas := list (N * minfo).

(** overlaps, vspace_model.rs:19-21, on the ranges of an entry and of a new mapping (64-66). *)
Definition mas_overlaps (b sz : N) (e : N * minfo) : bool := (e.1 <? b + sz)%N && (b <? e.1 + mi_size e.2)%N.
(** The condition at vspace_model.rs:69-72 and 101-104, which can be met with an extension. *)
Definition mas_same (b p sz : N) (a : mapact) (e : N * minfo) : bool :=
  (e.1 =? b)%N && (e.1 + mi_size e.2 <=? b + sz)%N && (mi_pa e.2 =? p)%N && bool_decide (mi_rights e.2 = a).
Definition mas_conflict (b p sz : N) (a : mapact) (e : N * minfo) : bool := mas_overlaps b sz e && negb (mas_same b p sz a e).

(** The loop at vspace_model.rs:96-112: the first entry that is the same gets the new length. *)
Fixpoint mas_extend (b p sz : N) (a : mapact) (l : mas) : option mas :=
  match l with
  | [] => None
  | e :: l =>
    if mas_overlaps b sz e && mas_same b p sz a e then Some ((e.1, mkMI (mi_pa e.2) sz (mi_rights e.2)) :: l)
    else option_map (cons e) (mas_extend b p sz a l)
  end.

(** map_frame, vspace_model.rs:54-125.  The first address of an intersection (intersection, 24-42)
    is the larger of the two bases; after sorting the least one is reported (113-120). *)
Definition mas_map (l : mas) (b p sz : N) (a : mapact) : mas * res unit :=
  if (sz =? 0)%N then (l, Err InvalidFrame)
  else if negb (p mod sz =? 0)%N then (l, Err InvalidFrame)
  else if negb (b mod sz =? 0)%N then (l, Err InvalidBase)
  else match map (fun e => N.max e.1 b) (List.filter (mas_conflict b p sz a) l) with
  | x :: xs => (l, Err (AlreadyMapped (foldr N.min x xs)))
  | [] => match mas_extend b p sz a l with
          | Some l' => (l', Ok tt)
          | None => (l ++ [(b, mkMI p sz a)], Ok tt)
          end
  end.

Definition mas_hit (va : N) (e : N * minfo) : bool := (e.1 <=? va)%N && (va <? e.1 + mi_size e.2)%N.

(** The loops over [rev()] of adjust and resolve: the last entry that covers [va]; adjust gives it
    new rights. *)
Fixpoint mas_set_first (va : N) (a : mapact) (l : mas) : option (N * N * mas) :=
  match l with
  | [] => None
  | e :: l =>
    if mas_hit va e then Some (e.1, mi_size e.2, (e.1, mkMI (mi_pa e.2) (mi_size e.2) a) :: l)
    else match mas_set_first va a l with Some (b, n, l') => Some (b, n, e :: l') | None => None end
  end.

(** adjust, vspace_model.rs:133-146. *)
Definition mas_adjust (l : mas) (va : N) (a : mapact) : mas * res (N * N) :=
  if negb (va mod BASE =? 0)%N then (l, Err InvalidBase)
  else match mas_set_first va a (reverse l) with
  | Some (b, n, l') => (reverse l', Ok (b, n))
  | None => (l, Err NotMapped)
  end.

(** resolve, vspace_model.rs:148-161. *)
Definition mas_resolve (l : mas) (va : N) : res (N * mapact) :=
  match List.find (mas_hit va) (reverse l) with
  | Some e => Ok ((mi_pa e.2 + (va - e.1))%N, mi_rights e.2)
  | None => Err NotMapped
  end.

(** unmap, vspace_model.rs:163-185: removes all entries that cover [va] and asserts that there is
    one. *)
Definition mas_unmap (l : mas) (va : N) : mas * res (N * N * N * mapact) :=
  if negb (va mod BASE =? 0)%N then (l, Err InvalidBase)
  else match List.filter (mas_hit va) l with
  | [] => (l, Err NotMapped)
  | [e] => (List.filter (fun e => negb (mas_hit va e)) l, Ok (e.1, mi_pa e.2, mi_size e.2, mi_rights e.2))
  | _ => (l, Panic)
  end.

(** TestAction, arch/x86_64/vspace/test.rs:20-25: a frame is its base and size. *)
Inductive asop :=
| AMap (b p sz : N) (a : mapact)
| AAdjust (va : N) (a : mapact)
| AResolve (va : N)
| AUnmap (va : N).

(** What the calls return. *)
Inductive asans :=
| AnMapped
| AnAdjusted (va len : N)
| AnResolved (pa : N) (a : mapact)
| AnFlush (va pa len : N) (a : mapact).
Definition res_map {A B} (f : A -> B) (r : res A) : res B :=
  match r with Ok x => Ok (f x) | Err e => Err e | Panic => Panic end.

(** One call on the reference, and one on the page tables (test.rs:101-130). *)
Definition mas_step (l : mas) (o : asop) : mas * res asans :=
  match o with
  | AMap b p sz a => let '(l', r) := mas_map l b p sz a in (l', res_map (fun _ => AnMapped) r)
  | AAdjust va a => let '(l', r) := mas_adjust l va a in (l', res_map (fun x => AnAdjusted x.1 x.2) r)
  | AResolve va => (l, res_map (fun x => AnResolved x.1 x.2) (mas_resolve l va))
  | AUnmap va => let '(l', r) := mas_unmap l va in (l', res_map (fun '(v, p, n, a) => AnFlush v p n a) r)
  end.
Definition vs_step (lg dbg : bool) (s : vspace) (o : asop) : vspace * res asans :=
  match o with
  | AMap b p sz a => let '(s', r) := vs_map_frame lg s b p sz a in (s', res_map (fun _ => AnMapped) r)
  | AAdjust va a => let '(s', r) := vs_adjust s va a in (s', res_map (fun x => AnAdjusted x.1 x.2) r)
  | AResolve va => (s, res_map (fun x => AnResolved x.1 x.2) (vs_resolve s va))
  | AUnmap va => let '(s', r) := vs_unmap dbg s va in (s', res_map (fun '(v, p, n, a) => AnFlush v p n a) r)
  end.

(** The answers to a history of calls; it ends with the first panic. *)
Fixpoint mas_answers (l : mas) (os : list asop) : list (res asans) :=
  match os with
  | [] => []
  | o :: os => match mas_step l o with
               | (_, Panic) => [Panic]
               | (l', r) => r :: mas_answers l' os
               end
  end.
Fixpoint vs_answers (lg dbg : bool) (s : vspace) (os : list asop) : list (res asans) :=
  match os with
  | [] => []
  | o :: os => match vs_step lg dbg s o with
               | (_, Panic) => [Panic]
               | (s', r) => r :: vs_answers lg dbg s' os
               end
  end.
