(** What a program may rely on when the kernel is entered and left. *)
From Verif Require Import Base IrqModel.
Local Open Scope N_scope.

(** A program runs: ring 3, and the kernel will find its control block. *)
Definition in_user (e : kenv) (c : cpu) : Prop := N.land (c_cs c) 3 = 3 /\ c_kgs c = e_kcb e.

(** The program goes on in [c'] as it would have in [c]: general registers, where it is, flags, fs, gs and vector registers. *)
Definition same_program (c c' : cpu) : Prop :=
  (forall r, c_r c' r = c_r c r) /\ c_rip c' = c_rip c /\ c_fl c' = c_fl c /\ c_fs c' = c_fs c /\ c_gs c' = c_gs c /\
  c_fx c' = c_fx c.

(** All registers but those in [l] are kept. *)
Definition kept (l : list reg) (c c' : cpu) : Prop := forall r, ~ In r l -> c_r c' r = c_r c r.

(** Interrupts that are not for the program, with what the processor pushes: timer, TLB work, garbage collection of the log,
    work from other machines of a rack, page faults that another replica caused. *)
Inductive not_for_program (h : hin) : N -> option N -> Prop :=
| np_gc : not_for_program h 250 None
| np_tlb : not_for_program h 251 None
| np_timer : not_for_program h 252 None
| np_remote : h_client h = true -> not_for_program h 249 None
| np_fault w : h_mapped h = true -> N.testbit w 2 = true -> not_for_program h 14 (Some w).

(** Device interrupts that are for the program; 35 belongs to the debugger. *)
Definition device (v : N) : Prop := 32 <= v <= 47 /\ v <> 35.

(** The address of the next page fault, again and again: [n] faults in a row with any kernel code in between. *)
Fixpoint again (e : kenv) (h : hin) (w : N) (k : nat -> clob) (n : nat) (c : cpu) (o : option exe) : option cpu :=
  match n with
  | O => Some c
  | S n => match interrupt e 14 (Some w) h (k n) c o with ARun c o => again e h w k n c o | _ => None end
  end.

(** Interrupts one after the other, while the program runs on in between in any way [p] that leaves the vcpu alone: where the
    program was before each and where it goes on. *)
Fixpoint devices (e : kenv) (l : list (N * clob * hin * (cpu -> cpu))) (c : cpu) (x : exe) : list (N * N) * exe :=
  match l with
  | [] => ([], x)
  | (v, k, h, p) :: l =>
      match interrupt e v None h k (p c) (Some x) with
      | ARun c' (Some x') => let (r, x'') := devices e l c' x' in ((c_rip (p c), c_rip c') :: r, x'')
      | _ => ([], x)
      end
  end.
