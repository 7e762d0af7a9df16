(** C66: condition variables of the user-level thread library. *)
From Verif Require Import Base CvModel CvSpec CvProofs.

(** In every run, with time limits and without any discipline: a wait ends with the mutex held by the caller, and a
    thread that is blocked in a wait does not hold it. *)
Theorem C66_mutex_reacquired : forall tr l s' t,
  (cv_label (cv_reach tr) l = Some s' -> v_ev s' = ERet t :: v_ev (cv_reach tr) -> v_mtx s' = Some t) /\
  (forall tm, v_pc (cv_reach tr) t = CWBlocked tm -> v_mtx (cv_reach tr) <> Some t).
Proof.
  intros tr l s' t. split; [apply ret_holds, hinv_reach|]. intros tm E. pose proof (hinv_reach tr t) as [H _]. by rewrite E in H.
Qed.
Print Assumptions C66_mutex_reacquired.

(** Runs in which signal and broadcast are called by the holder of the mutex are calm. *)
Theorem C66_discipline : forall tr, calways locked cv_init tr -> calways calm cv_init tr.
Proof. intros tr. apply locked_calm_run; [by intros t|apply hinv_init]. Qed.
Print Assumptions C66_discipline.

(** A wait ends only after a signal or broadcast that woke it. *)
Theorem C66_no_early_return_partial : forall tr l s' t,
  calways calm cv_init tr -> cv_label (cv_reach tr) l = Some s' -> v_ev s' = ERet t :: v_ev (cv_reach tr) ->
  t ∉ sleepers (v_ev (cv_reach tr)).
Proof. intros tr l s' t H. apply ret_woken; [by apply cinv_reach|apply hinv_reach]. Qed.
Print Assumptions C66_no_early_return_partial.

(** No signal is lost: a thread that has been woken, at whatever point of its wait, can finish the wait without a further
    signal, unless the holder of the mutex is blocked for something else. *)
Theorem C66_no_lost_signal_partial : forall tr t,
  calways calm cv_init tr -> waits (v_ev (cv_reach tr)) t = true -> t ∉ sleepers (v_ev (cv_reach tr)) ->
  (forall h, v_mtx (cv_reach tr) = Some h -> v_pc (cv_reach tr) h <> CElse) ->
  exists tr', Forall onward tr' /\ calways calm (cv_reach tr) tr' /\ waits (v_ev (cv_run (cv_reach tr) tr')) t = false.
Proof.
  intros tr t H W Hs L. destruct (woken_returns (cv_reach tr) t (full_reach tr H) L W Hs) as (s' & (tr' & H1 & H2 & <-) & Hw).
  exists tr'. done.
Qed.
Print Assumptions C66_no_lost_signal_partial.

(** And it does not hang on the schedule: a woken thread that is blocked stands in the run queue or a signal or broadcast
    under way is about to put it there. *)
Theorem C66_woken_is_runnable_partial : forall tr t tm,
  calways calm cv_init tr -> v_pc (cv_reach tr) t = CWBlocked tm -> t ∉ sleepers (v_ev (cv_reach tr)) -> still (cv_reach tr) ->
  v_rq (cv_reach tr) t = 1.
Proof.
  intros tr t tm H E Hs Hst. pose proof (cinv_reach tr H) as I.
  destruct (i_cov _ I t) as [Hin|[[u Hu]|?]]; [by rewrite E| | |done].
  - exfalso. apply Hs. rewrite (i_sl0 _ I); [done|]. intros u. specialize (Hst u). by destruct (v_pc (cv_reach tr) u).
  - exfalso. specialize (Hst u). destruct (v_pc (cv_reach tr) u); try done; by apply elem_of_nil in Hu.
Qed.
Print Assumptions C66_woken_is_runnable_partial.

(** No assertion fails, and a thread that is blocked for something else stays blocked. *)
Theorem C66_no_panic_partial : forall tr l s' t,
  calways calm cv_init tr ->
  v_crash (cv_reach tr) = false /\
  (cv_label (cv_reach tr) l = Some s' -> v_pc (cv_reach tr) t = CElse -> v_pc s' t = CElse).
Proof.
  intros tr l s' t H. split; [apply (cinv_reach tr H)|]. apply else_stays. by apply cinv_reach.
Qed.
Print Assumptions C66_no_panic_partial.

(** * What fails without the guards *)
Lemma calways_b (f : cst -> clab -> bool) (P : cst -> clab -> Prop) :
  (forall s l, f s l = true -> P s l) -> forall tr s,
  (fix go s tr := match tr with [] => true | l :: tr => f s l && go (default s (cv_label s l)) tr end) s tr = true ->
  calways P s tr.
Proof.
  intros Hf. induction tr as [|l tr IH]; intros s H; [done|]. apply andb_prop in H as [H1 H2]. split; [intros _; by apply Hf|].
  by apply IH.
Qed.
Definition untimed_b (l : clab) : bool := match l with ZWait _ true => false | _ => true end.
Definition by_holder_b (s : cst) (l : clab) : bool :=
  match l with ZSignal u | ZBroadcast u => bool_decide (v_mtx s = Some u) | _ => true end.
Definition free_b (s : cst) (l : clab) : bool :=
  match l with ZSignal u | ZBroadcast u => bool_decide (v_mtx s = None) || bool_decide (v_mtx s = Some u) | _ => true end.
Lemma by_holder_bP s l : by_holder_b s l = true -> by_holder s l.
Proof. destruct l; cbn; try done; apply bool_decide_eq_true. Qed.
Lemma free_bP s l : untimed_b l && free_b s l = true -> free_or_own s l.
Proof.
  intros [H1 H2]%andb_prop. split; [intros t ->; done|]. destruct l; cbn in *; try done;
    apply orb_prop in H2 as [H|H]; apply bool_decide_eq_true in H; auto.
Qed.
Lemma locked_bP s l : untimed_b l && by_holder_b s l = true -> locked s l.
Proof. intros [H1 H2]%andb_prop. split; [intros t ->; done|]. by apply by_holder_bP in H2. Qed.

(** Thread [t] takes the mutex and waits until it is blocked. *)
Definition goes_to_wait (t : nat) (tm : bool) : list clab := [ZLock t; ZWait t tm; ZStep t; ZStep t; ZStep t].
(** A resumed thread finishes its wait and leaves the mutex. *)
Definition finishes (t : nat) : list clab := [ZStep t; ZStep t; ZStep t; ZUnlock t].
Definition signals (u : nat) : list clab := [ZLock u; ZSignal u; ZStep u; ZStep u; ZStep u; ZUnlock u].

(** pthread allows to signal without the mutex.  Two threads do so at once while two threads wait: both wake the same
    one, the other waits for ever. *)
Definition tr_unlocked : list clab :=
  goes_to_wait 1 false ++ goes_to_wait 2 false ++
  [ZSignal 3; ZSignal 4; ZStep 3; ZStep 4; ZStep 3; ZStep 3; ZStep 4; ZStep 4; ZRun 2] ++ finishes 2.
Theorem C66_unlocked_signal_refuted : exists tr,
  calways free_or_own cv_init tr /\
  waits (v_ev (cv_reach tr)) 1 = true /\ 1 ∉ sleepers (v_ev (cv_reach tr)) /\
  v_pc (cv_reach tr) 1 = CWBlocked false /\ v_rq (cv_reach tr) 1 = 0 /\ still (cv_reach tr).
Proof.
  exists tr_unlocked. split; [apply (calways_b _ _ free_bP); vm_compute; reflexivity|].
  split; [vm_compute; reflexivity|]. split; [vm_compute; apply not_elem_of_nil|]. split; [vm_compute; reflexivity|].
  split; [vm_compute; reflexivity|]. intros [|[|[|[|[|u]]]]]; vm_compute; exact I.
Qed.
Print Assumptions C66_unlocked_signal_refuted.

(** A signal is swallowed by a thread whose time limit has passed.  Thread 1 waits, thread 2 waits with a limit; the timer
    of 2 goes off and it runs again.  Then 3, holding the mutex, signals: it is 2 that is taken from the list, and 1, the
    only thread that is blocked, stays blocked. *)
Definition tr_limit1 : list clab := goes_to_wait 1 false ++ goes_to_wait 2 true ++ [ZTimer 2; ZRun 2; ZLock 3].
Definition tr_limit2 : list clab := [ZSignal 3; ZStep 3; ZStep 3; ZStep 3; ZUnlock 3] ++ finishes 2.
Theorem C66_time_limit_swallows_signal_refuted : exists tr1 tr2,
  calways by_holder cv_init (tr1 ++ ZSignal 3 :: tr2) /\
  v_mtx (cv_reach tr1) = Some 3 /\ v_pc (cv_reach tr1) 1 = CWBlocked false /\ v_pc (cv_reach tr1) 2 = CWEnter true /\
  waits (v_ev (cv_reach (tr1 ++ ZSignal 3 :: tr2))) 2 = false /\
  v_pc (cv_reach (tr1 ++ ZSignal 3 :: tr2)) 1 = CWBlocked false /\ v_rq (cv_reach (tr1 ++ ZSignal 3 :: tr2)) 1 = 0 /\
  still (cv_reach (tr1 ++ ZSignal 3 :: tr2)).
Proof.
  exists tr_limit1, (tail tr_limit2).
  split; [apply (calways_b _ _ by_holder_bP); vm_compute; reflexivity|].
  split; [vm_compute; reflexivity|]. split; [vm_compute; reflexivity|]. split; [vm_compute; reflexivity|].
  split; [vm_compute; reflexivity|]. split; [vm_compute; reflexivity|]. split; [vm_compute; reflexivity|].
  intros [|[|[|[|u]]]]; vm_compute; exact I.
Qed.
Print Assumptions C66_time_limit_swallows_signal_refuted.

(** A signal that arrives after the waiter left the mutex and before it suspended with its time limit leaves the timer
    behind.  It goes off later and ends an unrelated wait of the thread (for a lock, say). *)
Definition tr_late : list clab :=
  [ZLock 2; ZWait 2 true; ZStep 2; ZStep 2] ++ signals 3 ++ [ZStep 2; ZRun 2] ++ finishes 2.
Theorem C66_time_limit_stray_refuted : exists tr,
  calways by_holder cv_init tr /\ v_pc (cv_reach tr) 2 = CElse /\
  v_pc (cv_run (cv_reach tr) [ZTimer 2; ZRun 2]) 2 = CIdle.
Proof.
  exists (tr_late ++ [ZElse 2]). split; [apply (calways_b _ _ by_holder_bP); vm_compute; reflexivity|].
  split; vm_compute; reflexivity.
Qed.
Print Assumptions C66_time_limit_stray_refuted.

(** Or a later wait without a limit: it ends without a signal, and the debug assertion of wait fails. *)
Theorem C66_time_limit_early_return_refuted : exists tr l,
  calways by_holder cv_init tr /\ v_ev (cv_reach (tr ++ [l])) = ERet 2 :: v_ev (cv_reach tr) /\
  2 ∈ sleepers (v_ev (cv_reach tr)) /\ v_crash (cv_reach (tr ++ [l])) = true.
Proof.
  exists (tr_late ++ goes_to_wait 2 false ++ [ZTimer 2; ZRun 2; ZStep 2; ZStep 2]), (ZStep 2).
  split; [apply (calways_b _ _ by_holder_bP); vm_compute; reflexivity|].
  split; [vm_compute; reflexivity|]. split; [|vm_compute; reflexivity]. vm_compute. by left.
Qed.
Print Assumptions C66_time_limit_early_return_refuted.

(** A signal while another thread holds the mutex fails a debug assertion, although pthread allows it. *)
Theorem C66_foreign_signal_refuted : exists tr,
  (forall l, l ∈ tr -> untimed_b l = true) /\ v_crash (cv_reach tr) = true.
Proof.
  exists (goes_to_wait 1 false ++ [ZLock 2; ZSignal 3]). split; [|vm_compute; reflexivity].
  intros l Hl. vm_compute in Hl. repeat (apply elem_of_cons in Hl as [->|Hl]; [reflexivity|]). by apply elem_of_nil in Hl.
Qed.
Print Assumptions C66_foreign_signal_refuted.

(** The hypotheses are met: two threads wait, a third signals; the newest waiter, not yet suspended when the signal came,
    is woken and has not returned, the other sleeps. *)
Definition tr_met : list clab := goes_to_wait 1 false ++ [ZLock 2; ZWait 2 false; ZStep 2; ZStep 2] ++ signals 3 ++ [ZStep 2].
Example C66_hyps_met :
  calways locked cv_init tr_met /\ waits (v_ev (cv_reach tr_met)) 2 = true /\ sleepers (v_ev (cv_reach tr_met)) = [1] /\
  v_pc (cv_reach tr_met) 2 = CWBlocked false /\ still (cv_reach tr_met) /\ v_mtx (cv_reach tr_met) = None /\
  v_ev (cv_run (cv_reach tr_met) ([ZRun 2] ++ finishes 2)) = ERet 2 :: v_ev (cv_reach tr_met).
Proof.
  split; [apply (calways_b _ _ locked_bP); vm_compute; reflexivity|].
  split; [vm_compute; reflexivity|]. split; [vm_compute; reflexivity|]. split; [vm_compute; reflexivity|].
  split; [intros [|[|[|[|u]]]]; vm_compute; exact I|]. split; vm_compute; reflexivity.
Qed.
