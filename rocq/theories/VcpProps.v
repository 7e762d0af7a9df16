(** C74: a thread of the library OS that blocks gives up its virtual CPU and its kernel locks, and gets them back. *)
From Verif Require Import Base VcpModel VcpSpec VcpProofs.

(** For every number of virtual CPUs and threads, every kind of mutex and every schedule: at most one thread per virtual CPU is inside
    the library OS, none is lost; whoever holds the big lock has a virtual CPU; and the upcalls are made in the right order: no
    thread gives up a virtual CPU it does not have, or takes a second one. *)
Theorem C74_virtual_cpus fl N ncpu sched s :
  Forall (fun x => x.1 < N) sched -> vrun fl sched (st0 ncpu) = Some s ->
  with_cpu s N + g_free s = ncpu /\
  (forall t k, g_big s = Some (t, k) -> t_cpu (g_thr s t) = true /\ 0 < k) /\
  g_bug s <> Some BadUpcall.
Proof.
  intros HN E. destruct (run_inv fl N ncpu sched _ _ HN (init_inv N ncpu) E) as (t & G & _).
  split; [apply G|]. split; [apply G|apply G].
Qed.
Print Assumptions C74_virtual_cpus.

(** A thread that waits for a mutex, on a condition variable, or for time has no virtual CPU and does not hold the big lock. *)
Theorem C74_waiting fl N ncpu sched s t :
  Forall (fun x => x.1 < N) sched -> vrun fl sched (st0 ncpu) = Some s -> g_bug s = None ->
  suspended s t -> t_cpu (g_thr s t) = false /\ locks s t = 0.
Proof.
  intros HN E B H. destruct (inv_at N ncpu s t (run_inv fl N ncpu sched _ _ HN (init_inv N ncpu) E) B) as [G T].
  assert (C : t_cpu (g_thr s t) = false); [|split; [exact C|eapply nolocks; eassumption]].
  assert (K : kinv s t (kd (t_pc (g_thr s t)))) by exact T. unfold suspended in H.
  destruct (t_pc (g_thr s t)) as [|m|m n|m n|m n|m k|m k|c m k|c m n k|c m n k|c m n|c n| |n|n]; try (destruct H; fail); try apply K.
  destruct k; [apply K|apply K|congruence].
Qed.
Print Assumptions C74_waiting.

(** Every call that returns leaves its thread with the virtual CPU, if it had one, and with the big lock as often as before; the
    calls that block are made with a virtual CPU and so return with one. *)
Theorem C74_returns fl N ncpu sched s r :
  Forall (fun x => x.1 < N) sched -> vrun fl sched (st0 ncpu) = Some s -> r ∈ g_log s ->
  r_locks1 r = r_locks0 r /\ r_cpu1 r = r_cpu0 r /\
  match r_call r with CEnter _ | CWait _ _ | CTimed _ _ | CSleep => r_cpu1 r = true | _ => True end.
Proof.
  intros HN E Hr. destruct (run_inv fl N ncpu sched _ _ HN (init_inv N ncpu) E) as (t & G & _).
  destruct (proj1 (stdpp.list.Forall_forall _ _) (i_log _ _ _ _ G) r Hr) as (H1 & H2 & H3). split; [exact H1|]. split; [exact H2|].
  destruct (r_call r); try exact Logic.I; rewrite H2; apply H3; reflexivity.
Qed.
Print Assumptions C74_returns.

(** Partial.  When no mutex is a spin mutex, a thread that has a virtual CPU never waits with it: it runs code of the library OS, or
    can do its next step, or is in rumpuser_mutex_exit, which waits only until the thread it wakes up has entered itself in the list.
    The calls whose names end in nowrap are left out: their meaning is to keep the virtual CPU. *)
Theorem C74_never_waits_partial fl N ncpu sched s t :
  Forall (fun x => x.1 < N) sched -> vrun fl sched (st0 ncpu) = Some s -> g_bug s = None -> (forall m, f_spin (fl m) = false) ->
  t_cpu (g_thr s t) = true ->
  (forall c m n b, t_call (g_thr s t) <> Some (CEnterNowrap m, n, b) /\ t_call (g_thr s t) <> Some (CWaitNowrap c m, n, b)) ->
  t_pc (g_thr s t) = Run \/ enabled fl s t \/ exists m n b, t_call (g_thr s t) = Some (CExit m, n, b).
Proof.
  intros HN E B Hs Hc Hn. destruct (p_run fl N ncpu sched (st0 ncpu) s HN (init_inv N ncpu)) as [I P]; [intros _ u; exact Logic.I|exact E|].
  eapply hold_enabled; eassumption.
Qed.
Print Assumptions C74_never_waits_partial.

(** A spin mutex that is not a kernel mutex: the thread that comes back from a wait takes the mutex before it has a virtual CPU, while
    the thread with the only virtual CPU spins for the mutex.  Neither moves again. *)
Definition dl_fl : nat -> flags := fun _ => Fl true false.
Definition dl_sched : list (nat * act) :=
  [(0, Get); (0, Ask (CEnter 0)); (0, Go); (0, Ask (CWait 0 0)); (0, Go); (0, Go);
   (1, Get); (1, Ask (CSignal 0)); (0, Go); (0, Go); (1, Ask (CEnter 0))].

Theorem C74_spin_deadlock_refuted : exists sched s, Forall (fun x => x.1 < 2) sched /\ vrun dl_fl sched (st0 1) = Some s /\ g_bug s = None /\
  t_cpu (g_thr s 1) = true /\ t_pc (g_thr s 1) = N1 0 NRet /\ t_pc (g_thr s 0) = W6 0 0 /\
  forall l s', Forall (fun x => x.1 < 2) l -> vrun dl_fl l s = Some s' -> s' = s.
Proof.
  exists dl_sched.
  assert (C : match vrun dl_fl dl_sched (st0 1) with
              | Some s => g_bug s = None /\ g_free s = 0 /\ t_cpu (g_thr s 1) = true /\ t_pc (g_thr s 1) = N1 0 NRet /\ t_pc (g_thr s 0) = W6 0 0 /\
                          t_cpu (g_thr s 0) = false /\ g_cnt s 0 = 1
              | None => False end) by (vm_compute; repeat split; reflexivity).
  destruct (vrun dl_fl dl_sched (st0 1)) as [s|]; [|destruct C]. destruct C as (B & F & C1 & P1 & P0 & C0 & M).
  exists s. split; [repeat (apply stdpp.list.Forall_cons; split; [cbn; lia|]); constructor|]. split; [reflexivity|]. split; [exact B|]. split; [exact C1|].
  split; [exact P1|]. split; [exact P0|].
  induction l as [|[t a] l IH]; intros s' HN E; cbn [vrun] in E; [congruence|]. apply stdpp.list.Forall_cons in HN as [Ht HN]. cbn in Ht.
  assert (S : vstep dl_fl t a s = None \/ vstep dl_fl t a s = Some s).
  { unfold vstep. rewrite B. destruct t as [|[|t]]; [| |lia].
    - rewrite P0. destruct a; try (left; reflexivity). left. unfold sched. rewrite C0, F. reflexivity.
    - rewrite P1. destruct a; try (left; reflexivity). right. rewrite M. reflexivity. }
  destruct S as [S|S]; rewrite S in E; [discriminate E|]. apply IH; assumption.
Qed.
Print Assumptions C74_spin_deadlock_refuted.

(** A mutex made with neither flag can not be entered, and no thread can wait with it: the assertions fail. *)
Theorem C74_plain_mutex_refuted : exists sched s, vrun (fun _ => Fl false false) sched (st0 1) = Some s /\ g_bug s = Some AssertFail.
Proof.
  exists [(0, Get); (0, Ask (CEnter 0))].
  assert (C : match vrun (fun _ => Fl false false) [(0, Get); (0, Ask (CEnter 0))] (st0 1) with Some s => g_bug s = Some AssertFail | None => False end)
    by (vm_compute; reflexivity).
  destruct (vrun _ _ _) as [s|]; [|destruct C]. exists s. split; [reflexivity|exact C].
Qed.
Print Assumptions C74_plain_mutex_refuted.

(** One virtual CPU, two threads.  Thread 0 holds the big lock twice and the mutex, and waits; thread 1 enters, signals, and waits for
    the mutex that thread 0 now has. *)
Definition ex_fl : nat -> flags := fun _ => Fl false true.
Definition ex_sched1 : list (nat * act) :=
  [(0, Get); (0, Lock); (0, Lock); (0, Ask (CEnter 7)); (0, Ask (CWait 3 7)); (0, Go); (0, Go);
   (1, Get); (1, Lock); (1, Ask (CEnter 7)); (1, Ask (CSignal 3)); (1, Ask (CExit 7));
   (0, Go); (0, Go); (1, Ask (CEnter 7)); (1, Go); (0, Go); (1, Go)].
Definition ex_sched2 : list (nat * act) := [(0, Ask (CExit 7)); (0, Go); (0, Unlock); (0, Unlock); (0, Put); (1, Go); (1, Go)].

Example C74_hyps_met :
  Forall (fun x => x.1 < 2) (ex_sched1 ++ ex_sched2) /\
  match vrun ex_fl ex_sched1 (st0 1) with
  | Some s => g_bug s = None /\ suspended s 1 /\ t_cpu (g_thr s 0) = true /\ locks s 0 = 2 /\
              match vrun ex_fl ex_sched2 s with
              | Some s => g_bug s = None /\ t_cpu (g_thr s 1) = true /\ t_pc (g_thr s 1) = Run /\
                          g_log s = [Ret 0 (CEnter 7) 2 true 2 true true; Ret 1 (CEnter 7) 1 true 1 true true;
                                     Ret 1 (CSignal 3) 1 true 1 true true; Ret 1 (CExit 7) 1 true 1 true true;
                                     Ret 0 (CWait 3 7) 2 true 2 true true; Ret 0 (CExit 7) 2 true 2 true true;
                                     Ret 1 (CEnter 7) 1 true 1 true true]
              | None => False end
  | None => False
  end.
Proof. split; [repeat (apply stdpp.list.Forall_cons; split; [cbn; lia|]); constructor|]. vm_compute. repeat split; reflexivity. Qed.
