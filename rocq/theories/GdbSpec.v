(** Vocabulary for the kernel debugger (C67). *)
From Verif Require Import Base GdbModel.
Local Open Scope N_scope.

(** At most four points are set. *)
#[global] Instance wkind_eq : EqDecision wkind. Proof. solve_decision. Defined.
#[global] Instance breq_eq : EqDecision breq. Proof. solve_decision. Defined.
#[global] Instance point_eq : EqDecision point. Proof. solve_decision. Defined.
Fixpoint take_out (p : point) (L : list point) : list point :=
  match L with [] => [] | q :: L => if decide (q = p) then L else q :: take_out p L end.
Definition pt_req (L : list point) (r : greq) : list point * bool :=
  match r with
  | GAdd p => if bool_decide (length L < 4)%nat then (p :: L, true) else (L, false)
  | GDel p => if bool_decide (p ∈ L) then (take_out p L, true) else (L, false)
  end.
Fixpoint pt_reqs (L : list point) (rs : list greq) : list point * list bool :=
  match rs with
  | [] => (L, [])
  | r :: rs => let '(L, b) := pt_req L r in let '(L, bs) := pt_reqs L rs in (L, b :: bs)
  end.
Fixpoint pt_run (L : list point) (ss : list (list greq)) : list point * list (list bool) :=
  match ss with
  | [] => (L, [])
  | rs :: ss => let '(L, b) := pt_reqs L rs in let '(L, bs) := pt_run L ss in (L, b :: bs)
  end.
(** Which accesses a point is about. *)
Definition covers (p : point) (acc : access) : Prop :=
  match p, acc with
  | PBreak a _, Fetch x => x = a
  | PWatch a len k, Data w x n =>
      a < x + n /\ x < a + len /\ match k with WRead => w = false | WWrite => w = true | WRW => True end
  | _, _ => False
  end.
(** What gdb should be told about it. *)
Definition told (p : point) : reason :=
  match p with PBreak _ RHard => HwBreak | PBreak _ RSoft => SwBreak | PWatch a _ k => Watch k a end.
(** Watchpoints have a size the processor knows, are aligned to it and not for reads only; while one is set at an address
    no other is set or removed there. *)
Definition plain (L : list point) (p : point) : Prop :=
  match p with
  | PBreak _ _ => True
  | PWatch a len k =>
      (len = 1 \/ len = 2 \/ len = 4 \/ len = 8) /\ a mod len = 0 /\ k <> WRead /\
      forall len' k', PWatch a len' k' ∈ L -> len' = len /\ k' = k
  end.
Definition plain_req (L : list point) (r : greq) : Prop := match r with GAdd p | GDel p => plain L p end.
Fixpoint plain_reqs (L : list point) (rs : list greq) : Prop :=
  match rs with [] => True | r :: rs => plain_req L r /\ plain_reqs (pt_req L r).1 rs end.
Fixpoint plain_run (L : list point) (ss : list (list greq)) : Prop :=
  match ss with [] => True | rs :: ss => plain_reqs L rs /\ plain_run (pt_reqs L rs).1 ss end.

(** The bits of dr6 after the access: exactly the registers that trapped.  (The processor may set the bits of disabled
    registers too: [may].) *)
Definition exact_bits (l : list cell) (acc : access) : list bool := map (fun c => trap c acc) l.
Definition may_bits (l : list cell) (acc : access) (b : list bool) : Prop :=
  Forall2 (fun c x => (trap c acc = true -> x = true) /\ (x = true -> match_cell c acc = true)) l b.

(** Memory: every page of the range may be read, written. *)
Definition all_pages (ok : N -> bool) (start : N) (n : nat) : Prop :=
  forall i, i < N.of_nat n -> ok ((start + i) / PAGE) = true.
Definition readable (r : option prights) : bool := match r with Some _ => true | None => false end.
Definition writable (r : option prights) : bool := match r with Some (mkPr true false) => true | _ => false end.
(** The first [length d] bytes from [start] are those of [d]. *)
Definition stored (mem mem' : N -> N) (start : N) (d : list N) : Prop :=
  forall x, mem' x = if (start <=? x) && (x <? start + N.of_nat (length d)) then nth (N.to_nat (x - start)) d 0 else mem x.
