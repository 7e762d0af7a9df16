(** Proofs about entering and leaving the kernel. *)
From Verif Require Import Base IrqModel IrqSpec.
Local Open Scope N_scope.

Lemma exec_cons e i l c c1 r : step e i c = Some c1 -> exec e l c1 = r -> exec e (i :: l) c = r.
Proof. intros H1 H2. cbn [exec]. by rewrite H1. Qed.

(** Run one instruction on a state whose fields are written out. *)
Ltac ev := cbv beta iota zeta delta [step setr w_r w_st w_fs w_gs w_fx w_sa w_stack stack ring3 c_r c_g c_rip c_fl c_fs c_gs c_kgs
  c_fx c_cs c_ss c_kst c_ust c_sa rget rset g_rax g_rbx g_rcx g_rdx g_rsi g_rdi g_rbp g_rsp g_r8 g_r9 g_r10 g_r11 g_r12 g_r13
  g_r14 g_r15 e_kcb e_sa e_tls e_stk e_above nth_error fst snd andb negb app].
Ltac ev_in H := cbv beta iota zeta delta [step setr w_r w_st w_fs w_gs w_fx w_sa w_stack stack ring3 c_r c_g c_rip c_fl c_fs c_gs
  c_kgs c_fx c_cs c_ss c_kst c_ust c_sa rget rset g_rax g_rbx g_rcx g_rdx g_rsi g_rdi g_rbp g_rsp g_r8 g_r9 g_r10 g_r11 g_r12
  g_r13 g_r14 g_r15 e_kcb e_sa e_tls e_stk e_above nth_error fst snd andb negb app] in H.
Ltac stp H := eapply exec_cons;
  [ev; change (N.land 8 3 =? 3) with false; change (N.land 27 3 =? 3) with true; change (28 =? 28) with true;
   rewrite ?N.eqb_refl, ?H; ev; reflexivity|].

(** The state of a program is in a save area. *)
Definition saved (c : cpu) (a : sarea) : Prop :=
  (forall r, sa_w a (match r with RAX => 0 | RBX => 1 | RCX => 2 | RDX => 3 | RSI => 4 | RDI => 5 | RBP => 6 | RSP => 7
     | R8 => 8 | R9 => 9 | R10 => 10 | R11 => 11 | R12 => 12 | R13 => 13 | R14 => 14 | R15 => 15 end) = c_r c r) /\
  sa_w a 16 = c_rip c /\ sa_w a 17 = c_fl c /\ sa_w a 19 = c_fs c /\ sa_fx a = c_fx c.

Lemma cs_not8 cs : N.land cs 3 = 3 -> cs =? 8 = false.
Proof. intros H. apply N.eqb_neq. intros E. rewrite E in H. done. Qed.

Lemma isr_user e v err c : in_user e c ->
  exists c1, exec e (isr_code v (match err with Some _ => true | None => false end)) (hw_enter e err c) = Some c1 /\
    c_kst c1 = [0; v; default 0 err; c_rip c; c_cs c; c_fl c; c_r c RSP; c_ss c; e_above e] /\
    c_gs c1 = e_kcb e /\ c_kgs c1 = c_gs c /\ c_cs c1 = 8 /\ c_ust c1 = c_ust c /\ c_fs c1 = e_tls e /\ saved c (c_sa c1).
Proof.
  intros [Hcs Hk]. pose proof (cs_not8 _ Hcs) as H8.
  destruct c as [[] rip fl fs gs kgs fx cs ss kst ust sa], e as [kcb san tls stk ab]. cbn [c_cs c_kgs e_kcb] in *. subst kgs.
  destruct err as [w|].
  - eexists. split. { unfold isr_code, hw_enter. ev. repeat stp H8. reflexivity. }
    do 6 (split; [reflexivity|]). split; [|repeat split; reflexivity]. intros []; reflexivity.
  - eexists. split. { unfold isr_code, hw_enter. ev. repeat stp H8. reflexivity. }
    do 6 (split; [reflexivity|]). split; [|repeat split; reflexivity]. intros []; reflexivity.
Qed.

(** From the kernel the control block is already in place. *)
Lemma isr_kernel e v err c : c_cs c = 8 -> c_gs c = e_kcb e ->
  exists c1, exec e (isr_code v (match err with Some _ => true | None => false end)) (hw_enter e err c) = Some c1 /\
    c_kst c1 = [0; v; default 0 err; c_rip c; c_cs c; c_fl c; c_r c RSP; c_ss c; e_above e] /\
    c_gs c1 = e_kcb e /\ c_kgs c1 = c_kgs c /\ c_cs c1 = 8 /\ c_ust c1 = c_ust c /\ c_fs c1 = e_tls e /\ saved c (c_sa c1).
Proof.
  intros Hcs Hk.
  destruct c as [[] rip fl fs gs kgs fx cs ss kst ust sa], e as [kcb san tls stk ab]. cbn [c_cs c_gs e_kcb] in *. subst gs cs.
  destruct err as [w|].
  - eexists. split. { unfold isr_code, hw_enter. ev. repeat stp (N.eqb_refl 8). reflexivity. }
    do 6 (split; [reflexivity|]). split; [|repeat split; reflexivity]. intros []; reflexivity.
  - eexists. split. { unfold isr_code, hw_enter. ev. repeat stp (N.eqb_refl 8). reflexivity. }
    do 6 (split; [reflexivity|]). split; [|repeat split; reflexivity]. intros []; reflexivity.
Qed.

(** int n of a vector with an error code: the frame is one word short. *)
Lemma isr_short e v c : in_user e c -> c_fl c <> 8 ->
  exists c1, exec e (isr_code v true) (hw_enter e None c) = Some c1 /\
    c_kst c1 = [0; v; c_rip c; c_cs c; c_fl c; c_r c RSP; c_ss c; e_above e].
Proof.
  intros [Hcs Hk] H8%N.eqb_neq.
  destruct c as [[] rip fl fs gs kgs fx cs ss kst ust sa], e as [kcb san tls stk ab]. cbn [c_cs c_fl c_kgs e_kcb] in *. subst kgs.
  eexists. split. { unfold isr_code, hw_enter. ev. repeat stp H8. reflexivity. } reflexivity.
Qed.

Lemma leave_iret e k c1 c : c_gs c1 = e_kcb e -> c_cs c1 = 8 -> saved c (c_sa c1) ->
  exists c', leave e WIret (kernel_code k c1) = Some c' /\ same_program (w_gs (c_kgs c1) 0 c) c' /\ c_kgs c' = e_kcb e /\
    c_cs c' = 27 /\ c_ust c' = c_ust c1 /\ c_sa c' = c_sa c1.
Proof.
  intros Hg Hc (Sr & S16 & S17 & S19 & Sx).
  destruct c1 as [[] rip1 fl1 fs1 gs1 kgs1 fx1 cs1 ss1 kst1 ust1 sa1], e as [kcb san tls stk ab], k as [[] kx kf ks].
  cbn [c_gs e_kcb c_cs c_sa] in *. subst gs1 cs1.
  eexists. split. { unfold leave, kernel_code, iret_code, CS_USER, SS_USER. ev. repeat stp (N.eqb_refl 8). reflexivity. }
  split; [|repeat split; reflexivity].
  split; [intros r; transitivity (c_r c r); [rewrite <- Sr; by destruct r|reflexivity]|].
  repeat split; first [exact S16 | exact S17 | exact S19 | exact Sx | reflexivity].
Qed.

Lemma leave_ring0 e k c1 c : c_gs c1 = e_kcb e -> c_cs c1 = 8 -> saved c (c_sa c1) ->
  exists c', leave e WRing0 (kernel_code k c1) = Some c' /\ same_program (w_gs (c_kgs c1) 0 c) c' /\ c_kgs c' = e_kcb e /\
    c_cs c' = 8 /\ c_ust c' = c_ust c1 /\ c_sa c' = c_sa c1.
Proof.
  intros Hg Hc (Sr & S16 & S17 & S19 & Sx).
  destruct c1 as [[] rip1 fl1 fs1 gs1 kgs1 fx1 cs1 ss1 kst1 ust1 sa1], e as [kcb san tls stk ab], k as [[] kx kf ks].
  cbn [c_gs e_kcb c_cs c_sa] in *. subst gs1 cs1.
  eexists. split. { unfold leave, kernel_code, iret_code, CS_USER, SS_USER. ev. repeat stp (N.eqb_refl 8). reflexivity. }
  split; [|repeat split; reflexivity].
  split; [intros r; transitivity (c_r c r); [rewrite <- Sr; by destruct r|reflexivity]|].
  repeat split; first [exact S16 | exact S17 | exact S19 | exact Sx | reflexivity].
Qed.

(** sysret: all but rcx, r11 and the flags. *)
Lemma leave_sysret e k c1 a : c_gs c1 = e_kcb e -> c_cs c1 = 8 ->
  exists c', leave e WSysret (w_sa a (kernel_code k c1)) = Some c' /\
    (forall r, c_r c' r = match r with RAX => sa_w a 0 | RBX => sa_w a 1 | RCX => sa_w a 16 | RDX => sa_w a 3 | RSI => sa_w a 4
       | RDI => sa_w a 5 | RBP => sa_w a 6 | RSP => sa_w a 7 | R8 => sa_w a 8 | R9 => sa_w a 9 | R10 => sa_w a 10 | R11 => 12802
       | R12 => sa_w a 12 | R13 => sa_w a 13 | R14 => sa_w a 14 | R15 => sa_w a 15 end) /\
    c_rip c' = sa_w a 16 /\ c_fl c' = 12802 /\ c_fs c' = sa_w a 19 /\ c_gs c' = c_kgs c1 /\ c_kgs c' = e_kcb e /\
    c_fx c' = sa_fx a /\ c_cs c' = 35 /\ c_ust c' = c_ust c1 /\ c_sa c' = a.
Proof.
  intros Hg Hc.
  destruct c1 as [[] rip1 fl1 fs1 gs1 kgs1 fx1 cs1 ss1 kst1 ust1 sa1], e as [kcb san tls stk ab], k as [[] kx kf ks].
  cbn [c_gs e_kcb c_cs c_sa] in *. subst gs1 cs1.
  eexists. split. { unfold leave, kernel_code, sysret_code. ev. repeat stp (N.eqb_refl 8). reflexivity. }
  repeat split; first [by intros [] | reflexivity].
Qed.

Lemma leave_upcall e k c1 en st ct ve er : c_gs c1 = e_kcb e -> c_cs c1 = 8 ->
  exists c', leave e (WUpcall en st ct ve er) (kernel_code k c1) = Some c' /\
    (forall r, c_r c' r = match r with RAX | RSP | RBP => st | RCX => en | RDI => ct | RSI => ve | RDX => er | R11 => 12802
       | _ => 0 end) /\
    c_rip c' = en /\ c_fl c' = 12802 /\ c_fs c' = c_fs c1 /\ c_gs c' = c_kgs c1 /\ c_kgs c' = e_kcb e /\
    c_cs c' = 35 /\ c_ust c' = c_ust c1 /\ c_sa c' = c_sa c1 /\ c_fx c' = (X87_INIT, (k_fx k).2).
Proof.
  intros Hg Hc.
  destruct c1 as [[] rip1 fl1 fs1 gs1 kgs1 fx1 cs1 ss1 kst1 ust1 sa1], e as [kcb san tls stk ab], k as [[] kx kf ks].
  cbn [c_gs e_kcb c_cs c_sa] in *. subst gs1 cs1.
  eexists. split. { unfold leave, kernel_code, upcall_code. ev. repeat stp (N.eqb_refl 8). reflexivity. }
  repeat split; first [by intros [] | reflexivity].
Qed.

Lemma start_ok e c en st : c_kgs c = e_kcb e -> c_cs c = 8 ->
  exists c', start_program e en st c = Some c' /\
    (forall r, c_r c' r = match r with RAX | RSP | RBP => st | RCX => en | R11 => 12802 | _ => 0 end) /\
    c_rip c' = en /\ c_fl c' = 12802 /\ c_fs c' = 0 /\ c_gs c' = 0 /\ c_kgs c' = e_kcb e /\ c_cs c' = 35 /\
    c_fx c' = (X87_INIT, (c_fx c).2).
Proof.
  intros Hg Hc.
  destruct c as [[] rip1 fl1 fs1 gs1 kgs1 fx1 cs1 ss1 kst1 ust1 sa1], e as [kcb san tls stk ab].
  cbn [c_kgs e_kcb c_cs c_sa] in *. subst kgs1 cs1.
  eexists. split. { unfold start_program, start_code. ev. repeat stp (N.eqb_refl 8). reflexivity. }
  repeat split; first [by intros [] | reflexivity].
Qed.

Lemma sys_enter e next c : in_user e c ->
  exists c1, exec e syscall_code (hw_syscall next c) = Some c1 /\
    sys_args c1 = [c_r c RDI; c_r c RSI; c_r c RDX; c_r c R10; c_r c R8; c_r c R9] /\
    c_gs c1 = e_kcb e /\ c_kgs c1 = c_gs c /\ c_cs c1 = 8 /\ c_ust c1 = c_ust c /\
    (forall r, r <> RAX -> r <> RCX -> r <> R11 -> sa_w (c_sa c1) (match r with RAX => 0 | RBX => 1 | RCX => 2 | RDX => 3
     | RSI => 4 | RDI => 5 | RBP => 6 | RSP => 7 | R8 => 8 | R9 => 9 | R10 => 10 | R11 => 11 | R12 => 12 | R13 => 13 | R14 => 14
     | R15 => 15 end) = c_r c r) /\
    sa_w (c_sa c1) 16 = next /\ sa_w (c_sa c1) 19 = c_fs c /\ sa_fx (c_sa c1) = c_fx c.
Proof.
  intros [Hcs Hk].
  destruct c as [[] rip fl fs gs kgs fx cs ss kst ust sa], e as [kcb san tls stk ab]. cbn [c_cs c_kgs e_kcb] in *. subst kgs.
  eexists. split. { unfold syscall_code, hw_syscall. ev. repeat stp (N.eqb_refl 8). reflexivity. }
  do 5 (split; [reflexivity|]). split; [|repeat split; reflexivity]. by intros [].
Qed.

Lemma user_some (o : option cpu) c2 (f : cpu -> cpu) : o = Some c2 -> match o with Some c1 => Some (f c1) | None => None end = Some (f c2).
Proof. by intros ->. Qed.
(** resume, in user mode. *)
Lemma resume_ok x c c0 : N.land (c_cs c) 3 = 3 -> N.land (c_fl c) F_IOPL3 = F_IOPL3 -> N.land (c_fl c0) F_IOPL3 = F_IOPL3 ->
  saved c0 (v_en (x_vc x)) ->
  exists c', resume x c = Some c' /\ same_program (w_gs (c_gs c) 0 c0) c' /\ c_kgs c' = c_kgs c /\ c_cs c' = 27 /\
    c_sa c' = c_sa c /\ c_ust c' = c_ust c.
Proof.
  intros Hcs Hf Hf0 (Sr & S16 & S17 & S19 & Sx). apply N.eqb_eq in Hcs.
  destruct c as [[] rip fl fs gs kgs fx cs ss kst ust sa], x as [[en pc up dis] ad us]. cbn [c_cs c_fl v_en x_vc] in *.
  eexists. split.
  { unfold resume, user_exec. eapply (user_some _ _ (fun c1 => w_sa _ c1)). unfold user_env, resume_code, CS_USER, SS_USER. ev.
    cbv beta iota delta [x_addr x_vc v_en]. repeat stp Hcs. reflexivity. }
  split; [|repeat split; reflexivity].
  split; [intros r; transitivity (c_r c0 r); [rewrite <- Sr; by destruct r|reflexivity]|].
  split; [exact S16|]. split; [|repeat split; first [exact S19 | exact Sx | reflexivity]].
  transitivity (iret_flags true fl (sa_w en 17)); [reflexivity|]. change (c_fl (w_gs _ _ c0)) with (c_fl c0).
  unfold iret_flags. apply N.eqb_eq in Hf. rewrite Hf. apply N.eqb_eq in Hf. rewrite S17. apply N.bits_inj. intros n.
  rewrite N.lor_spec, N.ldiff_spec, Hf. apply (f_equal (fun z => N.testbit z n)) in Hf0. rewrite N.land_spec in Hf0.
  destruct (N.testbit (c_fl c0) n), (N.testbit F_IOPL3 n); done.
Qed.
