(** Vocabulary for thread-local storage (C68). *)
From Verif Require Import Base InfModel TlsModel.
Local Open Scope N_scope.

(** Every thread has its own variables. *)
Record tspec := mkTsp { sp_n : nat; sp_val : nat -> tvar -> N; sp_cur : nat -> option nat }.
#[global] Instance tvar_eq : EqDecision tvar. Proof. solve_decision. Defined.
Definition sp_init : tspec := mkTsp 0 (fun _ _ => 0) (fun _ => None).
(** They start with the bytes of the template, the rest is zero. *)
Definition first_val (data : list N) (v : tvar) : N :=
  match v with VVar o => nth (N.to_nat o) data 0 | VField _ => 0 end.
(** What is observed: a byte, or whose control block fs:0 is. *)
Inductive sobs := SByte (b : N) | SBlock (t : nat).
Definition sp_step (data : list N) (s : tspec) (o : top) : tspec * option sobs :=
  match o with
  | OSpawn _ =>
      (mkTsp (S (sp_n s)) (fun i => if decide (i = sp_n s) then first_val data else sp_val s i) (sp_cur s), None)
  | ODispatch c t => (mkTsp (sp_n s) (sp_val s) (fun d => if decide (d = c) then Some t else sp_cur s d), None)
  | OYield c => (mkTsp (sp_n s) (sp_val s) (fun d => if decide (d = c) then None else sp_cur s d), None)
  | OStore c v b =>
      (mkTsp (sp_n s)
         (fun i w => if decide (sp_cur s c = Some i /\ w = v) then b else sp_val s i w) (sp_cur s), None)
  | OLoad c v => (s, match sp_cur s c with Some i => Some (SByte (sp_val s i v)) | None => None end)
  | OSelf c => (s, match sp_cur s c with Some i => Some (SBlock i) | None => None end)
  | OHeap _ _ => (s, None)
  end.
Fixpoint sp_run (data : list N) (s : tspec) (l : list top) : tspec * list (option sobs) :=
  match l with
  | [] => (s, [])
  | o :: l => let '(s, x) := sp_step data s o in let '(s, xs) := sp_run data s l in (s, x :: xs)
  end.
(** An observation of the machine, the control blocks being at [tcbs]. *)
Definition shown (tcbs : list N) (x : option sobs) : option N :=
  match x with Some (SByte b) => Some b | Some (SBlock t) => tcbs !! t | None => None end.

(** What programs and the allocator do: blocks are aligned, not null, inside the address space and apart from the others;
    only a thread that runs uses its variables, and other memory is outside of the blocks. *)
Definition in_range (tcbsz total : N) (v : tvar) : Prop :=
  match v with VVar o => o < total | VField k => 8 <= k /\ k < tcbsz end.
Definition t_legal (size tcbsz total lalign : N) (s : tstate) (sp : tspec) (o : top) : Prop :=
  match o with
  | OSpawn base =>
      base mod lalign = 0 /\ 0 < base /\ base + size <= 2 ^ 64 /\
      forall t, t ∈ ts_tcb s -> base + size <= t - total \/ t + tcbsz <= base
  | ODispatch c t => (t < sp_n sp)%nat
  | OYield _ => True
  | OStore c v _ | OLoad c v => sp_cur sp c <> None /\ in_range tcbsz total v
  | OSelf c => sp_cur sp c <> None
  | OHeap a _ => forall t, t ∈ ts_tcb s -> a < t - total \/ t + tcbsz <= a
  end.
Fixpoint t_legals (size tcbsz total align lalign : N) (data : list N) (s : tstate) (sp : tspec) (l : list top) : Prop :=
  match l with
  | [] => True
  | o :: l => t_legal size tcbsz total lalign s sp o /\
              t_legals size tcbsz total align lalign data (t_step size tcbsz total align data s o).1 (sp_step data sp o).1 l
  end.
Definition no_tls : tinfo := mkTi [] 0 1.
Definition user_legal (i : option tinfo) (m : N -> N) (l : list top) : Prop :=
  let j := default no_tls i in
  t_legals (fst (user_layout i)) UTCB (ti_total j) (ti_align j) (snd (user_layout i)) (ti_data j) (ts_init m) sp_init l.
Definition kernel_legal (i : tinfo) (m : N -> N) (l : list top) : Prop :=
  t_legals (ti_total i + KTCB) KTCB (ti_total i) (ti_align i) (N.max (ti_align i) 8) (ti_data i) (ts_init m) sp_init l.
(** A header as a linker writes it. *)
Definition ti_ok (i : tinfo) : Prop :=
  N.of_nat (length (ti_data i)) <= ti_total i /\ exists k, ti_align i = 2 ^ k.
