(** C69: interrupts and system calls leave the registers of a program alone.
    C70: device interrupts reach the program, which then goes on as if nothing had happened. *)
From Verif Require Import Base IrqModel IrqSpec IrqProofs.
Local Open Scope N_scope.

Lemma w_gs_same c c' k : same_program (w_gs (c_gs c) k c) c' -> same_program c c'.
Proof. by destruct c. Qed.

(** ** C69 *)
(** Interrupts that are not for the program: it goes on as it was, and its stack is not touched. *)
Theorem C69_unnoticed_partial : forall e v err h k c x,
  in_user e c -> not_for_program h v err ->
  exists c', interrupt e v err h k c (Some x) = ARun c' (Some x) /\ same_program c c' /\ c_ust c' = c_ust c /\ in_user e c'.
Proof.
  intros e v err h k c x Hu Hn. destruct (isr_user e v err c Hu) as (c1 & E & Ek & Eg & Ekg & Ec & Es & _ & Sv).
  destruct (leave_iret e k c1 c Eg Ec Sv) as (c' & El & Sp & E1 & E2 & E3 & _). rewrite Ekg in Sp. apply w_gs_same in Sp.
  exists c'. split; [|split; [done|split; [congruence|split; [by rewrite E2|done]]]].
  unfold interrupt. destruct Hn as [| | |Hc|w Hm Ht].
  - change (idt 250) with (GIsr false). cbv beta iota in E |- *. rewrite E, Ek. cbn [default from_option id]. unfold handle.
    change (negb (250 <? 256)) with false. cbv beta iota. cbn -[leave kernel_code]. by rewrite El.
  - change (idt 251) with (GIsr false). cbv beta iota in E |- *. rewrite E, Ek. cbn [default from_option id]. unfold handle.
    change (negb (251 <? 256)) with false. cbv beta iota. cbn -[leave kernel_code]. by rewrite El.
  - change (idt 252) with (GIsr false). cbv beta iota in E |- *. rewrite E, Ek. cbn [default from_option id]. unfold handle.
    change (negb (252 <? 256)) with false. cbv beta iota. cbn -[leave kernel_code]. by rewrite El.
  - change (idt 249) with (GIsr false). cbv beta iota in E |- *. rewrite E, Ek. cbn [default from_option id]. unfold handle.
    change (negb (249 <? 256)) with false. cbv beta iota. cbn -[leave kernel_code]. rewrite Hc. by rewrite El.
  - change (idt 14) with (GIsr true). cbv beta iota in E |- *. rewrite E, Ek. cbn [default from_option id]. unfold handle.
    change (negb (14 <? 256)) with false. cbv beta iota. cbn -[leave kernel_code N.testbit]. rewrite Ht, Hm. by rewrite El.
Qed.
Print Assumptions C69_unnoticed_partial.

Definition keeps_flags (i : instr) : bool := match i with Iretq | Sysretq => false | _ => true end.
Lemma step_flags e i c c' : keeps_flags i = true -> step e i c = Some c' -> c_fl c' = c_fl c.
Proof.
  intros K H. destruct i; try discriminate K; cbn in H; 
    try (destruct (stack c)); repeat (match type of H with (if ?b then _ else _) = _ => destruct b | match ?b with _ => _ end = _ => destruct b end; try discriminate H);
    try discriminate H; apply (inj Some) in H; rewrite <- H; cbn; unfold w_stack; try (destruct (ring3 c)); reflexivity.
Qed.
Lemma exec_flags e l c c' : forallb keeps_flags l = true -> exec e l c = Some c' -> c_fl c' = c_fl c.
Proof.
  revert c. induction l as [|i l IH]; intros c K H; cbn in *; [by injection H as <-|]. apply andb_prop in K as [K1 K2].
  destruct (step e i c) as [c1|] eqn:E; [|discriminate H]. rewrite (IH _ K2 H). by apply (step_flags e i).
Qed.
Lemma forallb_take {A} (f : A -> bool) n l : forallb f l = true -> forallb f (take n l) = true.
Proof. revert n. induction l as [|x l IH]; intros [|n] H; cbn in *; try done. apply andb_prop in H as [H1 H2]. rewrite H1. cbn. by apply IH. Qed.

(** No interrupt comes in between while the kernel saves the registers of a program: after every instruction of the entry code,
    for interrupts and for system calls, interrupts are off; and so they are, if the compiled kernel code left them off,
    before every instruction of the code that goes back, until the last one has switched to the program. *)
Theorem C69_entry_not_interrupted : forall e n c',
  (forall v b err c, exec e (take n (isr_code v b)) (hw_enter e err c) = Some c' -> N.testbit (c_fl c') 9 = false) /\
  (forall next c, exec e (take n syscall_code) (hw_syscall next c) = Some c' -> N.testbit (c_fl c') 9 = false) /\
  (forall k c, N.testbit (k_fl k) 9 = false ->
     (forall cs ss, (n < length (iret_code cs ss))%nat -> exec e (take n (iret_code cs ss)) (setr RDI (e_sa e) (kernel_code k c)) = Some c' -> N.testbit (c_fl c') 9 = false) /\
     ((n < length sysret_code)%nat -> exec e (take n sysret_code) (setr RDI (e_sa e) (setr R11 RESTORE_FLAGS (kernel_code k c))) = Some c' -> N.testbit (c_fl c') 9 = false) /\
     (forall c1, c_fl c1 = k_fl k -> (n < length upcall_code)%nat -> exec e (take n upcall_code) c1 = Some c' -> N.testbit (c_fl c') 9 = false)).
Proof.
  intros e n c'.
  assert (P : forall l c, forallb keeps_flags (take (length l - 1) l) = true -> (n < length l)%nat -> exec e (take n l) c = Some c' -> c_fl c' = c_fl c).
  { intros l c K L H. eapply exec_flags; [|exact H]. replace (take n l) with (take n (take (length l - 1) l)) by (rewrite take_take; f_equal; lia). by apply forallb_take. }
  split; [|split].
  - intros v b err c H. apply exec_flags in H; [|apply forallb_take; destruct b; reflexivity]. rewrite H. cbn [hw_enter c_fl]. rewrite N.ldiff_spec. by rewrite andb_false_r.
  - intros next c H. apply exec_flags in H; [|apply forallb_take; reflexivity]. rewrite H. cbn [hw_syscall c_fl]. rewrite N.land_spec. by rewrite andb_false_r.
  - intros k c Hk. split; [|split].
    + intros cs ss L H. apply P in H; [|reflexivity|exact L]. by rewrite H.
    + intros L H. apply P in H; [|reflexivity|exact L]. by rewrite H.
    + intros c1 Hc L H. apply P in H; [|reflexivity|exact L]. by rewrite H, Hc.
Qed.
Print Assumptions C69_entry_not_interrupted.

(** A system call: the handler gets the six argument registers, the program goes on after the instruction with the results,
    and only rax, rcx, r11, rdi, rsi and the flags have changed. *)
Theorem C69_system_call : forall e next handler k c,
  in_user e c ->
  exists c', syscall e next handler k c = Some c' /\ in_user e c' /\ c_rip c' = next /\
    kept [RAX; RCX; R11; RDI; RSI] c c' /\ c_fs c' = c_fs c /\ c_gs c' = c_gs c /\ c_fx c' = c_fx c /\ c_ust c' = c_ust c /\
    match handler [c_r c RDI; c_r c RSI; c_r c RDX; c_r c R10; c_r c R8; c_r c R9] with
    | inl (a1, a2) => c_r c' RAX = 0 /\ c_r c' RDI = a1 /\ c_r c' RSI = a2
    | inr code => c_r c' RAX = code /\ c_r c' RDI = c_r c RDI /\ c_r c' RSI = c_r c RSI
    end.
Proof.
  intros e next handler k c Hu. destruct (sys_enter e next c Hu) as (c1 & E & Ea & Eg & Ekg & Ec & Es & Sr & S16 & S19 & Sx).
  destruct (leave_sysret e k c1 (sys_result (handler (sys_args c1)) (c_sa c1)) Eg Ec)
    as (c' & El & Er & E1 & E2 & E3 & E4 & E5 & E6 & E7 & E8 & _).
  exists c'. split; [unfold syscall; by rewrite E|]. split; [split; [by rewrite E7|done]|]. rewrite Ea in *.
  assert (Hres : forall j, j <> 0 -> j <> 4 -> j <> 5 ->
    sa_w (sys_result (handler [c_r c RDI; c_r c RSI; c_r c RDX; c_r c R10; c_r c R8; c_r c R9]) (c_sa c1)) j = sa_w (c_sa c1) j).
  { intros j H0 H4 H5. apply N.eqb_neq in H0, H4, H5. destruct (handler _) as [[a1 a2]|co]; cbn [sys_result sa_set sa_w];
      rewrite ?H0, ?H4, ?H5; done. }
  split; [rewrite E1, Hres by done; done|]. split; [|split; [rewrite E3, Hres by done; done|split; [congruence|split; [|split; [congruence|]]]]].
  - intros r Hr. rewrite Er. destruct r; try (by destruct Hr; cbn; tauto); (rewrite Hres by done).
    all: match goal with |- _ = c_r _ ?r => refine (Sr r _ _ _); discriminate end.
  - rewrite E6. destruct (handler _) as [[a1 a2]|co]; done.
  - destruct (handler _) as [[a1 a2]|co]; rewrite !Er; cbn [sys_result sa_set sa_w].
    + done.
    + split; [done|]. split; [exact (Sr RDI ltac:(discriminate) ltac:(discriminate) ltac:(discriminate))
                             |exact (Sr RSI ltac:(discriminate) ltac:(discriminate) ltac:(discriminate))].
Qed.
Print Assumptions C69_system_call.

(** The wrappers with three results tell the compiler all that changes, so do all wrappers when the call fails. *)
Theorem C69_wrapper_partial : forall e next handler k c n,
  in_user e c ->
  (3 <= n)%nat \/ (exists code, handler [c_r c RDI; c_r c RSI; c_r c RDX; c_r c R10; c_r c R8; c_r c R9] = inr code) ->
  exists c', syscall e next handler k c = Some c' /\ kept (wrapper_outs n) c c'.
Proof.
  intros e next handler k c n Hu Hn. destruct (C69_system_call e next handler k c Hu) as (c' & E & _ & _ & Hk & _ & _ & _ & _ & Hr).
  exists c'. split; [done|]. destruct Hn as [Hn|[code Hc]].
  - unfold wrapper_outs. rewrite (proj2 (Nat.leb_le 2 n)) by lia. rewrite (proj2 (Nat.leb_le 3 n)) by lia.
    intros r Hr'. apply Hk. cbn in *. tauto.
  - rewrite Hc in Hr. destruct Hr as (H1 & H2 & H3). intros r Hr'. destruct r; try done; apply Hk; cbn in *; try tauto;
      intuition discriminate.
Qed.
Print Assumptions C69_wrapper_partial.

(** A new program starts with cleared registers but for its stack, entry and flags. *)
Theorem C69_start_partial : forall e c entry stk,
  c_cs c = 8 -> c_kgs c = e_kcb e ->
  exists c', start_program e entry stk c = Some c' /\ in_user e c' /\ c_rip c' = entry /\ c_r c' RSP = stk /\
    c_fs c' = 0 /\ c_gs c' = 0 /\ (c_fx c').1 = X87_INIT /\ (forall r, ~ In r [RAX; RSP; RBP; RCX; R11] -> c_r c' r = 0).
Proof.
  intros e c entry stk Hc Hk. destruct (start_ok e c entry stk Hk Hc) as (c' & E & Er & E1 & E2 & E3 & E4 & E5 & E6 & E7).
  exists c'. split; [done|]. split; [split; [by rewrite E6|done]|]. split; [done|]. split; [by rewrite Er|]. split; [done|].
  split; [done|]. split; [by rewrite E7|]. intros r Hr. rewrite Er. destruct r; cbn in Hr; tauto.
Qed.
Print Assumptions C69_start_partial.

(** ** C69, refuted *)
(** Every successful call changes rdi and rsi; the wrappers with one or two results tell the compiler otherwise. *)
Theorem C69_wrapper_refuted : forall e next handler k c a1 a2,
  in_user e c -> handler [c_r c RDI; c_r c RSI; c_r c RDX; c_r c R10; c_r c R8; c_r c R9] = inl (a1, a2) ->
  exists c', syscall e next handler k c = Some c' /\
    (c_r c RDI <> a1 -> ~ kept (wrapper_outs 1) c c') /\ (c_r c RSI <> a2 -> ~ kept (wrapper_outs 2) c c').
Proof.
  intros e next handler k c a1 a2 Hu Hh. destruct (C69_system_call e next handler k c Hu) as (c' & E & _ & _ & _ & _ & _ & _ & _ & Hr).
  rewrite Hh in Hr. destruct Hr as (_ & Hd & Hs). exists c'. split; [done|]. split; intros Hne Hk.
  - specialize (Hk RDI). rewrite Hd in Hk. apply Hne. symmetry. apply Hk. cbn. intuition discriminate.
  - specialize (Hk RSI). rewrite Hs in Hk. apply Hne. symmetry. apply Hk. cbn. intuition discriminate.
Qed.
Print Assumptions C69_wrapper_refuted.

(** A debug exception, as of a program that single-steps itself: rcx, r11 and the flags are lost. *)
Theorem C69_debug_exception_refuted : forall e h k c x,
  in_user e c ->
  exists c', interrupt e 1 None h k c (Some x) = ARun c' (Some x) /\ c_rip c' = c_rip c /\
    c_r c' RCX = c_rip c /\ c_r c' R11 = 12802 /\ c_fl c' = 12802.
Proof.
  intros e h k c x Hu. destruct (isr_user e 1 None c Hu) as (c1 & E & Ek & Eg & Ekg & Ec & Es & _ & Sv).
  destruct (leave_sysret e k c1 (c_sa c1) Eg Ec) as (c' & El & Er & E1 & E2 & _).
  destruct Sv as (Sr & S16 & _). exists c'. split; [|rewrite !Er, E1, S16; done].
  unfold interrupt. change (idt 1) with (GIsr false). cbv beta iota in E |- *. rewrite E, Ek. cbn [default from_option id].
  unfold handle. change (negb (1 <? 256)) with false. cbv beta iota. cbn -[leave kernel_code].
  replace (kernel_code k c1) with (w_sa (c_sa c1) (kernel_code k c1)) by done. by rewrite El.
Qed.
Print Assumptions C69_debug_exception_refuted.

(** The vector of the debugger's serial line, which a program can also raise itself: with a debugger connected the program
    goes on in ring 0; without one the kernel panics. *)
Theorem C69_debugger_line_refuted : forall e h k c x,
  in_user e c ->
  if h_gdb h
  then exists c', interrupt e 35 None h k c (Some x) = ARun c' (Some x) /\ c_rip c' = c_rip c /\ c_cs c' = 8
  else interrupt e 35 None h k c (Some x) = APanic.
Proof.
  intros e h k c x Hu. destruct (isr_user e 35 None c Hu) as (c1 & E & Ek & Eg & Ekg & Ec & Es & _ & Sv).
  destruct (leave_ring0 e k c1 c Eg Ec Sv) as (c' & El & (_ & E1 & _) & _ & E2 & _).
  assert (HI : interrupt e 35 None h k c (Some x) = if h_gdb h then ARun c' (Some x) else APanic).
  { unfold interrupt. change (idt 35) with (GIsr false). cbv beta iota in E |- *. rewrite E, Ek. cbn [default from_option id].
    unfold handle. change (negb (35 <? 256)) with false. cbv beta iota. cbn -[leave kernel_code].
    destruct (h_gdb h); [by rewrite El|done]. }
  rewrite HI. destruct (h_gdb h); [|done]. exists c'. split; [done|]. split; [by rewrite E1|done].
Qed.
Print Assumptions C69_debugger_line_refuted.

(** A debug exception of the kernel, on a core with a program, sends the kernel to ring 3. *)
Theorem C69_kernel_debug_refuted : forall e h k c x,
  c_cs c = 8 -> c_gs c = e_kcb e ->
  exists c', interrupt e 1 None h k c (Some x) = ARun c' (Some x) /\ c_rip c' = c_rip c /\ N.land (c_cs c') 3 = 3.
Proof.
  intros e h k c x Hc Hg. destruct (isr_kernel e 1 None c Hc Hg) as (c1 & E & Ek & Eg & Ekg & Ec & Es & _ & Sv).
  destruct (leave_sysret e k c1 (c_sa c1) Eg Ec) as (c' & El & Er & E1 & E2 & _ & _ & _ & _ & E3 & _).
  destruct Sv as (Sr & S16 & _). exists c'. split; [|rewrite E1, S16, E3; done].
  unfold interrupt. change (idt 1) with (GIsr false). cbv beta iota in E |- *. rewrite E, Ek. cbn [default from_option id].
  unfold handle. change (negb (1 <? 256)) with false. cbv beta iota. cbn -[leave kernel_code].
  replace (kernel_code k c1) with (w_sa (c_sa c1) (kernel_code k c1)) by done. by rewrite El.
Qed.
Print Assumptions C69_kernel_debug_refuted.

(** A fault of a program stops the machine, and every program can raise one: all gates are open to ring 3. *)
Theorem C69_fault_stops_refuted : forall e h k c o v err,
  in_user e c ->
  In (v, err) (map (fun v => (v, None)) [0; 2; 4; 5; 6; 7; 9; 16; 19; 20] ++ map (fun v => (v, Some 0)) [10; 11; 12; 13; 17; 30]) ->
  interrupt e v err h k c o = AShutdown.
Proof.
  intros e h k c o v err Hu Hin. destruct (isr_user e v err c Hu) as (c1 & E & Ek & _).
  cbn in Hin. unfold interrupt.
  repeat (destruct Hin as [Hin|Hin]; [injection Hin as <- <-; cbn -[isr_code] in E |- *; rewrite E, Ek; done|]). done.
Qed.
Print Assumptions C69_fault_stops_refuted.

Theorem C69_int_stops_refuted : forall e h k c o,
  in_user e c -> c_fl c <> 8 -> interrupt e 13 None h k c o = AShutdown.
Proof.
  intros e h k c o Hu Hf. destruct (isr_short e 13 c Hu Hf) as (c1 & E & Ek). unfold interrupt. change (idt 13) with (GIsr true).
  cbv beta iota. rewrite E, Ek. done.
Qed.
Print Assumptions C69_int_stops_refuted.

(** A write to a mapped page that may not be written (error code 7) is taken for a fault that has resolved itself: the program
    makes it again, and again. *)
Theorem C69_forbidden_write_loops_refuted : forall e h k n c x,
  in_user e c -> h_mapped h = true ->
  exists c', again e h 7 k n c (Some x) = Some c' /\ same_program c c' /\ in_user e c'.
Proof.
  intros e h k n. induction n as [|n IH]; intros c x Hu Hm.
  - exists c. split; [done|]. split; [|done]. repeat split; done.
  - destruct (C69_unnoticed_partial e 14 (Some 7) h (k n) c x Hu) as (c1 & E & S1 & _ & Hu1); [by constructor|].
    destruct (IH c1 x Hu1 Hm) as (c2 & E2 & S2 & Hu2). exists c2. cbn [again]. rewrite E. split; [done|]. split; [|done].
    destruct S1 as (A1 & A2 & A3 & A4 & A5 & A6), S2 as (B1 & B2 & B3 & B4 & B5 & B6). repeat split; try congruence.
Qed.
Print Assumptions C69_forbidden_write_loops_refuted.

(** A new program finds the vector registers of whatever ran before; a new core of a program also the fs of the kernel. *)
Theorem C69_leftovers_refuted : forall e c entry stk ctl core k,
  c_cs c = 8 -> c_gs c = e_kcb e -> c_kgs c = e_kcb e ->
  (exists c', start_program e entry stk c = Some c' /\ (c_fx c').2 = (c_fx c).2) /\
  (exists c', start_core e entry stk ctl core (kernel_code k c) = Some c' /\ (c_fx c').2 = (k_fx k).2 /\ c_fs c' = c_fs c /\
     c_gs c' = e_kcb e).
Proof.
  intros e c entry stk ctl core k Hc Hg Hk. split.
  - destruct (start_ok e c entry stk Hk Hc) as (c' & E & _ & _ & _ & _ & _ & _ & _ & E7). exists c'. split; [done|]. by rewrite E7.
  - destruct (leave_upcall e k c entry stk ctl NEW_CORE core Hg Hc) as (c' & E & _ & _ & _ & E3 & E4 & _ & _ & _ & _ & E5).
    exists c'. split; [done|]. rewrite E5, E3, E4. done.
Qed.
Print Assumptions C69_leftovers_refuted.

(** ** C70 *)
Lemma device_handle h x a v err rip : device v -> handle h (Some x) a v err rip = let (w, x) := do_upcall x a v err rip in (w, Some x).
Proof.
  intros [Hv H35]. unfold handle, GDB_IRQ. rewrite (proj2 (N.ltb_lt v 256)) by lia. rewrite (proj2 (N.ltb_lt 30 v)) by lia.
  rewrite (proj2 (N.ltb_lt v 249)) by lia. rewrite (proj2 (N.eqb_neq v 35)) by lia. done.
Qed.
Lemma device_idt v : device v -> idt v = GIsr false.
Proof.
  intros [Hv H35]. unfold idt. rewrite (proj2 (N.eqb_neq v 8)), (proj2 (N.eqb_neq v 18)) by lia. cbn [orb].
  rewrite (proj2 (N.leb_gt v 14)) by lia. rewrite (proj2 (N.eqb_neq v 17)), (proj2 (N.eqb_neq v 30)) by lia.
  rewrite andb_false_r. cbn [orb]. rewrite (proj2 (N.leb_gt v 9)) by lia.
  rewrite (proj2 (N.eqb_neq v 16)), (proj2 (N.eqb_neq v 19)), (proj2 (N.eqb_neq v 20)) by lia. cbn [orb].
  rewrite (proj2 (N.leb_le 32 v)), (proj2 (N.leb_le v 47)) by lia. done.
Qed.

(** While upcalls are enabled, a device interrupt enters the handler of the program on its own stack with the vector, and
    upcalls are disabled.  Whatever the handler does to the registers, once it ends the program goes on as it was, with
    upcalls enabled. *)
Theorem C70_delivered_partial : forall e v h k c x,
  in_user e c -> N.land (c_fl c) F_IOPL3 = F_IOPL3 -> device v -> upcalls_disabled (x_vc x) (c_rip c) = false ->
  exists c1 x1, interrupt e v None h k c (Some x) = ARun c1 (Some x1) /\
    in_user e c1 /\ c_rip c1 = v_up (x_vc x) /\ c_r c1 RDI = x_addr x /\ c_r c1 RSI = v /\ c_r c1 RSP = x_ustack x /\
    c_gs c1 = c_gs c /\ v_dis (x_vc x1) = true /\ x_addr x1 = x_addr x /\
    forall c2, in_user e c2 -> N.land (c_fl c2) F_IOPL3 = F_IOPL3 -> c_gs c2 = c_gs c ->
      exists c3, resume (enable x1) c2 = Some c3 /\ same_program c c3 /\ in_user e c3 /\ v_dis (x_vc (enable x1)) = false.
Proof.
  intros e v h k c x Hu Hf Hv Hd. destruct (isr_user e v None c Hu) as (c1 & E & Ek & Eg & Ekg & Ec & Es & Ef & Sv).
  destruct (leave_upcall e k c1 (v_up (x_vc x)) (x_ustack x) (x_addr x) v 0 Eg Ec)
    as (c' & El & Er & E1 & E2 & E3 & E4 & E5 & E6 & E7 & E8 & _).
  exists c', (mkExe (mkVc (c_sa c1) (v_pc (x_vc x)) (v_up (x_vc x)) true) (x_addr x) (x_ustack x)).
  split.
  { unfold interrupt. rewrite (device_idt v Hv). cbv beta iota in E |- *. rewrite E, Ek. cbn [default from_option id].
    rewrite (device_handle _ _ _ _ _ _ Hv). unfold do_upcall. rewrite Hd. by rewrite El. }
  split; [split; [by rewrite E6|done]|]. split; [done|]. split; [by rewrite Er|]. split; [by rewrite Er|].
  split; [by rewrite Er|]. split; [congruence|]. split; [done|]. split; [done|].
  intros c2 [Hc2 Hk2] Hf2 Hg2.
  destruct (resume_ok (enable (mkExe (mkVc (c_sa c1) (v_pc (x_vc x)) (v_up (x_vc x)) true) (x_addr x) (x_ustack x))) c2 c Hc2 Hf2 Hf Sv)
    as (c3 & R & S3 & R1 & R2 & _).
  exists c3. split; [done|]. rewrite Hg2 in S3. split; [by apply w_gs_same in S3|]. split; [|done]. split; [by rewrite R2|congruence].
Qed.
Print Assumptions C70_delivered_partial.

(** ** C70, refuted *)
(** While upcalls are disabled, the interrupt is forgotten and the code it hit, the handler or [resume], loses rcx, r11 and
    its flags; upcalls are disabled for good, unless a handler was running. *)
Theorem C70_disabled_refuted : forall e v h k c x,
  in_user e c -> device v -> upcalls_disabled (x_vc x) (c_rip c) = true ->
  exists c' x', interrupt e v None h k c (Some x) = ARun c' (Some x') /\ c_rip c' = c_rip c /\ c_r c' RCX = c_rip c /\
    c_r c' R11 = 12802 /\ in_user e c' /\ v_dis (x_vc x') = true /\ v_en (x_vc x') = v_en (x_vc x).
Proof.
  intros e v h k c x Hu Hv Hd. destruct (isr_user e v None c Hu) as (c1 & E & Ek & Eg & Ekg & Ec & Es & Ef & Sv).
  destruct (leave_sysret e k c1 (c_sa c1) Eg Ec) as (c' & El & Er & E1 & E2 & E3 & E4 & E5 & E6 & E7 & _).
  destruct Sv as (Sr & S16 & _). exists c', (mkExe (set_dis (x_vc x)) (x_addr x) (x_ustack x)).
  split; [|rewrite !Er, E1, S16; repeat split; try done; by rewrite E7].
  unfold interrupt. rewrite (device_idt v Hv). cbv beta iota in E |- *. rewrite E, Ek. cbn [default from_option id].
  rewrite (device_handle _ _ _ _ _ _ Hv). unfold do_upcall. rewrite Hd. cbv beta iota.
  replace (kernel_code k c1) with (w_sa (c_sa c1) (kernel_code k c1)) by done. by rewrite El.
Qed.
Print Assumptions C70_disabled_refuted.

(** Once they are disabled while no handler runs, no interrupt is ever delivered again. *)
Theorem C70_never_again_refuted : forall e l c x,
  v_dis (x_vc x) = true ->
  (forall v k h p, In (v, k, h, p) l -> device v /\ forall c, in_user e c -> in_user e (p c)) -> in_user e c ->
  length (devices e l c x).1 = length l /\ Forall (fun ab => ab.1 = ab.2) (devices e l c x).1 /\ v_dis (x_vc (devices e l c x).2) = true.
Proof.
  intros e l. induction l as [|[[[v k] h] p] l IH]; intros c x Hd Hl Hu; [split; [done|split; [constructor|done]]|].
  destruct (Hl v k h p) as [Hv Hp]; [by left|].
  destruct (C70_disabled_refuted e v h k (p c) x (Hp c Hu) Hv) as (c' & x' & E & E1 & _ & _ & Hu' & Hd' & _).
  { unfold upcalls_disabled. by rewrite Hd. }
  cbn [devices]. rewrite E. destruct (IH c' x' Hd') as (L & F & D); [|done|].
  { intros v' k' h' p' Hin. apply (Hl v' k' h' p'). by right. }
  destruct (devices e l c' x') as [r x'']. cbn [fst snd] in *. split; [cbn; by rewrite L|]. split; [|done]. constructor; [by rewrite E1|done].
Qed.
Print Assumptions C70_never_again_refuted.

(** An interrupt on a core without a program panics the kernel. *)
Theorem C70_idle_core_refuted : forall e v h k c,
  c_cs c = 8 -> c_gs c = e_kcb e -> device v -> interrupt e v None h k c None = APanic.
Proof.
  intros e v h k c Hc Hg Hv. destruct (isr_kernel e v None c Hc Hg) as (c1 & E & Ek & _).
  unfold interrupt. rewrite (device_idt v Hv). cbv beta iota in E |- *. rewrite E, Ek. cbn [default from_option id].
  destruct Hv as [Hv H35]. unfold handle, GDB_IRQ. rewrite (proj2 (N.ltb_lt v 256)) by lia. rewrite (proj2 (N.ltb_lt 30 v)) by lia.
  rewrite (proj2 (N.ltb_lt v 249)) by lia. rewrite (proj2 (N.eqb_neq v 35)) by lia. done.
Qed.
Print Assumptions C70_idle_core_refuted.

(** The handler runs with the fs of the kernel. *)
Theorem C70_handler_fs_refuted : forall e v h k c x,
  in_user e c -> device v -> upcalls_disabled (x_vc x) (c_rip c) = false ->
  exists c1 x1, interrupt e v None h k c (Some x) = ARun c1 (Some x1) /\ c_fs c1 = e_tls e.
Proof.
  intros e v h k c x Hu Hv Hd. destruct (isr_user e v None c Hu) as (c1 & E & Ek & Eg & Ekg & Ec & Es & Ef & Sv).
  destruct (leave_upcall e k c1 (v_up (x_vc x)) (x_ustack x) (x_addr x) v 0 Eg Ec)
    as (c' & El & Er & E1 & E2 & E3 & _).
  exists c'. eexists. split; [|by rewrite E3].
  unfold interrupt. rewrite (device_idt v Hv). cbv beta iota in E |- *. rewrite E, Ek. cbn [default from_option id].
  rewrite (device_handle _ _ _ _ _ _ Hv). unfold do_upcall. rewrite Hd. by rewrite El.
Qed.
Print Assumptions C70_handler_fs_refuted.

(** The queue of the program holds four interrupts; the fifth ends the program. *)
Theorem C70_fifth_refuted : forall q, length q = 4%nat -> pend_push 43 q = None.
Proof. intros q Hq. unfold pend_push. by rewrite Hq. Qed.
Print Assumptions C70_fifth_refuted.

(** *** An interrupt inside [resume] *)
Definition reg0 : regs := mkRegs 10 11 12 13 14 15 16 17 18 19 20 21 22 23 24 25.
Definition sa0 : sarea := mkSa (fun _ => 0) (0, 0).
Definition prog0 : cpu := mkCpu reg0 4096 12803 77 88 1000 (5, 6) 35 27 [] [] sa0.
Definition env0 : kenv := mkEnv 1000 2000 3000 4000 0.
Definition hin0 : hin := mkIn false false false.
Definition clob0 : clob := mkClob (mkRegs 1 1 1 1 1 1 1 1 1 1 1 1 1 1 1 1) (9, 9) 2 [].
(** The program of rumprt: pc_disabled covers [resume], which is at 70000. *)
Definition exe0 (pc : N * N) : exe := mkExe (mkVc sa0 pc 60000 false) 50000 51000.
Definition run_of (a : after) : option (cpu * exe) := match a with ARun c (Some x) => Some (c, x) | _ => None end.
(** The first interrupt, the handler, [n] instructions of [resume], the second interrupt there. *)
Definition nested (pc : N * N) (n : nat) : option (cpu * exe) :=
  match run_of (interrupt env0 43 None hin0 clob0 prog0 (Some (exe0 pc))) with
  | Some (c1, x1) =>
      match user_exec (enable x1) (firstn n resume_code) (setr RSI 50000 c1) with
      | Some c2 =>
          run_of (interrupt env0 43 None hin0 clob0
            (mkCpu (c_g c2) (70000 + N.of_nat n) (c_fl c2) (c_fs c2) (c_gs c2) (c_kgs c2) (c_fx c2) (c_cs c2) (c_ss c2) [] (c_ust c2)
                   (c_sa c2)) (Some (enable x1)))
      | None => None
      end
  | None => None
  end.
(** With a critical section: the program goes on, but with another rcx, and upcalls disabled. *)
Theorem C70_inside_resume_refuted :
  match nested (70000, 70100) 7 with
  | Some (c3, x3) =>
      match user_exec x3 (skipn 7 resume_code) c3 with
      | Some c4 => c_rip c4 = c_rip prog0 /\ c_r c4 RCX <> c_r prog0 RCX /\ v_dis (x_vc x3) = true
      | None => False
      end
  | None => False
  end.
Proof. vm_compute. split; [done|split; [discriminate|done]]. Qed.
Print Assumptions C70_inside_resume_refuted.

(** Without one (usr/init): the saved state of the program is overwritten, and [resume] returns to its own middle. *)
Theorem C70_no_critical_section_refuted :
  match nested (0, 0) 7 with
  | Some (c3, x3) =>
      match resume (enable x3) c3 with
      | Some c4 => c_rip c4 = 70007 /\ sa_w (v_en (x_vc x3)) 16 = 70007
      | None => False
      end
  | None => False
  end.
Proof. vm_compute. done. Qed.
Print Assumptions C70_no_critical_section_refuted.

(** ** The hypotheses are met *)
Example C69_hyps_met :
  in_user env0 prog0 /\ not_for_program hin0 252 None /\ not_for_program (mkIn true false false) 14 (Some 6) /\
  match interrupt env0 252 None hin0 clob0 prog0 (Some (exe0 (0, 0))) with ARun c _ => c_r c RDI = 15 /\ c_rip c = 4096 | _ => False end /\
  match syscall env0 4098 (fun l => inl (nth 0 l 0 + nth 3 l 0, 7)) clob0 prog0 with
  | Some c => c_r c RDI = 35 /\ c_r c RSI = 7 /\ c_r c RBX = 11 /\ c_rip c = 4098 | None => False end.
Proof.
  split; [by split|]. split; [constructor|]. split; [by constructor|]. split; vm_compute; repeat split; reflexivity.
Qed.
Example C70_hyps_met :
  in_user env0 prog0 /\ N.land (c_fl prog0) F_IOPL3 = F_IOPL3 /\ device 43 /\
  upcalls_disabled (x_vc (exe0 (70000, 70100))) (c_rip prog0) = false /\
  match interrupt env0 43 None hin0 clob0 prog0 (Some (exe0 (70000, 70100))) with
  | ARun c1 (Some x1) => c_rip c1 = 60000 /\ match resume (enable x1) c1 with Some c3 => c_r c3 RCX = 12 /\ c_rip c3 = 4096 | None => False end
  | _ => False end.
Proof.
  split; [by split|]. split; [reflexivity|]. split; [unfold device; lia|]. split; [reflexivity|]. vm_compute. repeat split; reflexivity.
Qed.
