(** C63: threads of a C program that park and unpark each other. *)
From Verif Require Import Base LwpModel LwpSpec LwpProofs.

Lemma run_app_l t1 : forall s t2, l_run s (t1 ++ t2) = l_run (l_run s t1) t2.
Proof. induction t1 as [|l t1 IH]; intros s t2; [done|]. cbn [app l_run]. apply IH. Qed.

(** No wake-up is lost: a thread that waits in park although an unpark of it took effect since it last returned
    can return, without anyone starting a new call. *)
Theorem C63_no_lost_wakeup_partial : forall tr t,
  always noted l_init tr -> l_crash (l_reach tr) = false ->
  parked (l_reach tr) t -> permit (l_ev (l_reach tr)) t = true ->
  exists tr', length tr' <= 3 /\ Forall (fun l => match l with ZStep _ | ZDisp _ => True | _ => False end) tr' /\
    l_pc (l_reach (tr ++ tr')) t = LIdle /\ l_crash (l_reach (tr ++ tr')) = false /\
    exists es, l_ev (l_reach (tr ++ tr')) = ERet t :: es ++ l_ev (l_reach tr).
Proof.
  intros tr t NT Cr P Pm. pose proof (linv_run tr l_init linv_init eq_refl NT Cr) as I. fold (l_reach tr) in I.
  assert (G : forall s, l_crash s = false -> linv s -> parked s t -> 0 < l_rq s t ->
    l_run s [ZDisp t; ZStep t] = wl_pc (wl_ev (wl_st (wl_pc (wl_rq s t (pred (l_rq s t))) t LParkR) t MPARK) (ERet t)) t LIdle).
  { intros s C Is Ps R. unfold parked in Ps. destruct (l_rq s t) as [|k] eqn:E; [lia|]. cbn [l_run pred].
    assert (X : l_ex s t = true) by (destruct (l_ex s t) eqn:X; [done|]; apply (li_no s Is) in X as [X _]; congruence).
    assert (L1 : l_label s (ZDisp t) = Some (wl_pc (wl_rq s t k) t LParkR)) by (unfold l_label; rewrite C, Ps, E; done).
    rewrite L1. unfold default, from_option, id. unfold l_label at 1. cbn [wl_pc wl_rq l_crash l_ex]. rewrite C, X.
    unfold l_step. cbn [wl_pc wl_rq wl_st wl_ev l_pc]. rewrite lupd_eq. done. }
  destruct (li_wake _ I t) as [R|(u & ts & k & Xu & Mu)]; [by rewrite P|done| |].
  - exists [ZDisp t; ZStep t]. split; [cbn; lia|]. split; [by repeat constructor|]. unfold l_reach in *. rewrite run_app_l, G by done.
    cbn. rewrite lupd_eq. split; [done|]. split; [done|]. by exists [].
  - set (s := l_reach tr) in *. destruct (li_make s I u t ts k Mu) as [Xt TH].
    set (s1 := wl_pc (wl_rq s t (S (l_rq s t))) u (LUn ts k)).
    assert (L1 : l_label s (ZStep u) = Some s1) by (unfold l_label; rewrite Cr, Xu; unfold l_step; rewrite Mu, TH; done).
    assert (NU : t <> u) by (intros ->; unfold parked in P; congruence).
    exists [ZStep u; ZDisp t; ZStep t]. split; [done|]. split; [by repeat constructor|].
    unfold l_reach. rewrite run_app_l. fold (l_reach tr). fold s. change (l_run s [ZStep u; ZDisp t; ZStep t]) with
      (l_run (default s (l_label s (ZStep u))) [ZDisp t; ZStep t]). rewrite L1. unfold default, from_option, id.
    rewrite G; [|done| | |].
    + cbn. rewrite lupd_eq. split; [done|]. split; [done|]. by exists [].
    + eapply linv_step; [exact I| |exact Cr|exact L1|done]. intros t' (u' & ts' & k' & [= <-] & H). congruence.
    + unfold parked. cbn. by rewrite lupd_ne.
    + cbn. rewrite lupd_eq. lia.
Qed.
Print Assumptions C63_no_lost_wakeup_partial.

(** An unpark before the park: the park returns at once, timed or not. *)
Theorem C63_unpark_first_partial : forall tr t b,
  always noted l_init tr -> l_crash (l_reach tr) = false -> l_pc (l_reach tr) t = LPark0 b ->
  permit (l_ev (l_reach tr)) t = true ->
  let s' := l_reach (tr ++ [ZStep t; ZStep t]) in
  l_pc s' t = LIdle /\ l_crash s' = false /\ l_ev s' = ERet t :: l_ev (l_reach tr) /\
  forall u, l_rq s' u = l_rq (l_reach tr) u.
Proof.
  intros tr t b NT Cr P Pm. pose proof (linv_run tr l_init linv_init eq_refl NT Cr) as I. fold (l_reach tr) in I.
  cbn zeta. unfold l_reach. rewrite run_app_l. fold (l_reach tr). set (s := l_reach tr) in *.
  assert (X : l_ex s t = true) by (destruct (l_ex s t) eqn:X; [done|]; apply (li_no s I) in X as [X _]; congruence).
  pose proof (li_st s I t X) as ST. rewrite P, Pm in ST. cbn in ST.
  assert (L1 : l_label s (ZStep t) = Some (wl_pc (wl_st s t MPARKED) t LParkA)).
  { unfold l_label. rewrite Cr, X. unfold l_step. by rewrite P, ST. }
  set (s1 := wl_pc (wl_st s t MPARKED) t LParkA) in *.
  assert (L2 : l_label s1 (ZStep t) = Some (wl_pc (wl_ev (wl_st s1 t MPARK) (ERet t)) t LIdle)).
  { unfold l_label. replace (l_crash s1) with false by done. replace (l_ex s1 t) with true by done.
    unfold l_step. replace (l_pc s1 t) with LParkA; [done|]. cbn. by rewrite lupd_eq. }
  cbn [l_run]. rewrite L1. unfold default, from_option, id. rewrite L2. cbn. by rewrite lupd_eq.
Qed.
Print Assumptions C63_unpark_first_partial.

(** When every unpark is used before the next: park returns only after an unpark, ... *)
Theorem C63_returns_only_when_unparked_partial : forall tr l1 t l2,
  always noted l_init tr -> always polite l_init tr -> l_crash (l_reach tr) = false ->
  l_ev (l_reach tr) = l1 ++ ERet t :: l2 -> permit l2 t = true.
Proof.
  intros tr l1 t l2 NT PO Cr E. destruct (pinv_run tr l_init linv_init pinv_init eq_refl NT PO Cr) as [_ PI].
  by eapply (pi_ret _ PI).
Qed.
Print Assumptions C63_returns_only_when_unparked_partial.
(** ... and a thread blocked for another reason, or for good, stays blocked. *)
Theorem C63_others_undisturbed_partial : forall tr t,
  always noted l_init tr -> always polite l_init tr -> l_crash (l_reach tr) = false ->
  l_pc (l_reach tr) t = LBlocked BElse \/ l_pc (l_reach tr) t = LBlocked BExit ->
  l_label (l_reach tr) (ZDisp t) = None.
Proof.
  intros tr t NT PO Cr P. destruct (pinv_run tr l_init linv_init pinv_init eq_refl NT PO Cr) as [_ PI]. fold (l_reach tr) in PI.
  unfold l_label. rewrite Cr. destruct (l_rq (l_reach tr) t) as [|k] eqn:R.
  - by destruct P as [-> | ->].
  - destruct (pi_rq _ PI t) as (_ & _ & W); [lia|]. destruct P as [P|P]; by rewrite P in W.
Qed.
Print Assumptions C63_others_undisturbed_partial.
Theorem C63_no_panic_partial : forall tr,
  always noted l_init tr -> always polite l_init tr -> always proper l_init tr -> l_crash (l_reach tr) = false.
Proof.
  intros tr NT PO PR. exact (no_crash_run tr l_init linv_init pinv_init untimed_init eq_refl NT PO PR).
Qed.
Print Assumptions C63_no_panic_partial.

(** ** Where it goes wrong *)
(** Checks of the conditions on a given run. *)
Definition tgt (s : lst) (l : llab) : option nat :=
  match l with ZStep u => match l_pc s u with LUn (t :: _) _ => Some t | _ => None end | _ => None end.
Lemma tgt_spec s l t : unparks s l t -> tgt s l = Some t.
Proof. intros (u & ts & k & -> & H). unfold tgt. by rewrite H. Qed.
Definition b_noted (s : lst) (l : llab) : bool := match tgt s l with Some t => Nat.eqb (l_thr s t) t | None => true end.
Definition b_polite (s : lst) (l : llab) : bool := match tgt s l with Some t => negb (permit (l_ev s) t) | None => true end.
Definition b_proper (s : lst) (l : llab) : bool :=
  match l with ZPark _ true _ => false | _ => match tgt s l with Some t => l_ex s t | None => true end end.
Fixpoint b_always (f : lst -> llab -> bool) (s : lst) (tr : list llab) : bool :=
  match tr with [] => true | l :: tr => f s l && b_always f (default s (l_label s l)) tr end.
Lemma b_always_spec f (P : lst -> llab -> Prop) tr : (forall s l, f s l = true -> P s l) -> forall s, b_always f s tr = true -> always P s tr.
Proof.
  intros H. induction tr as [|l tr IH]; intros s E; [done|]. cbn [b_always] in E. apply andb_true_iff in E as [E1 E2]. split; auto.
Qed.
Lemma b_noted_spec s l : b_noted s l = true -> noted s l.
Proof. unfold b_noted. intros E t H _. apply tgt_spec in H. rewrite H in E. by apply Nat.eqb_eq. Qed.
Lemma b_polite_spec s l : b_polite s l = true -> polite s l.
Proof. unfold b_polite. intros E t H. apply tgt_spec in H. rewrite H in E. by destruct (permit (l_ev s) t). Qed.
Lemma b_proper_spec s l : b_proper s l = true -> proper s l.
Proof.
  unfold b_proper. intros E. split; [intros u o ->; done|]. intros t H. pose proof H as (u & ts & k & -> & _).
  apply tgt_spec in H. by rewrite H in E.
Qed.
(** Two unparks before a park: the second leaves an entry in the run queue.  The next park but one returns although
    nobody unparked. *)
Definition twice : list llab :=
  [ZSpawn 1 2; ZStep 1; ZUnpark 1 [2; 2]; ZStep 1; ZStep 1; ZStep 1; ZStep 1].
Theorem C63_stray_return_refuted : exists tr l1 l2,
  always noted l_init tr /\ always proper l_init tr /\ l_crash (l_reach tr) = false /\
  l_ev (l_reach tr) = l1 ++ ERet 2 :: l2 /\ permit l2 2 = false.
Proof.
  exists (twice ++ [ZPark 2 false None; ZStep 2; ZStep 2; ZStep 2; ZPark 2 false None; ZStep 2; ZStep 2; ZStep 2; ZDisp 2; ZStep 2]),
    [], [ERet 2; EUnpark 2; EUnpark 2].
  split; [|split; [|split; [|split]]]; try (vm_compute; reflexivity).
  - apply (b_always_spec b_noted); [exact b_noted_spec|vm_compute; reflexivity].
  - apply (b_always_spec b_proper); [exact b_proper_spec|vm_compute; reflexivity].
Qed.
Print Assumptions C63_stray_return_refuted.
(** A thread that waits for something else, a lock for example, is resumed by the second unpark. *)
Theorem C63_others_disturbed_refuted : exists tr,
  let s := l_reach tr in l_crash s = false /\ l_pc s 2 = LBlocked BElse /\
  exists s', l_label s (ZDisp 2) = Some s' /\ l_pc s' 2 = LIdle.
Proof. exists (twice ++ [ZBlock 2]). split; [reflexivity|]. split; [reflexivity|]. eexists. split; reflexivity. Qed.
Print Assumptions C63_others_disturbed_refuted.
(** A thread that was unparked twice and then exits panics. *)
Theorem C63_exit_refuted : exists tr, always noted l_init tr /\ always proper l_init tr /\ l_crash (l_reach tr) = true.
Proof.
  exists (twice ++ [ZExit 2; ZDisp 2]). split; [|split; [|reflexivity]].
  - apply (b_always_spec b_noted); [exact b_noted_spec|vm_compute; reflexivity].
  - apply (b_always_spec b_proper); [exact b_proper_spec|vm_compute; reflexivity].
Qed.
Print Assumptions C63_exit_refuted.
(** A thread that is unparked before its creator has noted its thread is not woken: no schedule without further
    unparks ends its wait. *)
Definition early : list llab :=
  [ZSpawn 1 2; ZStep 1; ZSpawn 2 3; ZPark 3 false None; ZStep 3; ZStep 3; ZStep 3; ZUnpark 1 [3]; ZStep 1; ZStep 1; ZStep 1; ZStep 2].
Theorem C63_spawn_race_refuted :
  let s := l_reach early in
  l_crash s = false /\ parked s 3 /\ permit (l_ev s) 3 = true /\ l_rq s 3 = 0 /\ l_rq s 0 = 1 /\
  forall tr', Forall (fun l => match l with ZStep _ | ZDisp _ => True | _ => False end) tr' -> parked (l_run s tr') 3.
Proof.
  cbn zeta. split; [reflexivity|]. split; [reflexivity|]. split; [reflexivity|]. split; [reflexivity|]. split; [reflexivity|].
  set (s := l_reach early).
  assert (K : forall tr' s, l_crash s = false -> l_rq s 3 = 0 -> l_pc s 3 = LBlocked BPark -> (forall u, u <> 3 -> l_pc s u = LIdle) ->
     Forall (fun l => match l with ZStep _ | ZDisp _ => True | _ => False end) tr' -> l_run s tr' = s).
  { induction tr' as [|l tr' IH]; intros s0 C R P Q F; [done|]. inversion F as [|l' tr2 Hl Hf]; subst. cbn [l_run].
    assert (L : l_label s0 l = None).
    { unfold l_label. rewrite C. destruct l as [u| | | | | |u]; try done.
      - destruct (l_ex s0 u); [|done]. unfold l_step. destruct (decide (u = 3)) as [->|Nu]; [by rewrite P|by rewrite Q].
      - destruct (decide (u = 3)) as [->|Nu]; [by rewrite P, R|by rewrite Q]. }
    rewrite L. by apply IH. }
  intros tr' F. rewrite K; [reflexivity|reflexivity|reflexivity|reflexivity| |done].
  intros u Hu. destruct u as [|[|[|[|u]]]]; try reflexivity. by destruct Hu.
Qed.
Print Assumptions C63_spawn_race_refuted.
(** A park with a time limit that finds no unpark panics, and so does the unpark of an unknown lwp. *)
Theorem C63_timed_refuted : l_crash (l_reach [ZPark 1 true None; ZStep 1; ZStep 1]) = true.
Proof. reflexivity. Qed.
Print Assumptions C63_timed_refuted.
Theorem C63_unknown_refuted : l_crash (l_reach [ZUnpark 1 [7]; ZStep 1]) = true.
Proof. reflexivity. Qed.
Print Assumptions C63_unknown_refuted.

(** A run that meets all the hypotheses: 2 parks and blocks, 1 unparks it with a park of its own. *)
Example C63_hyps_met : exists tr,
  always noted l_init tr /\ always polite l_init tr /\ always proper l_init tr /\
  parked (l_reach tr) 2 /\ permit (l_ev (l_reach tr)) 2 = true /\ l_crash (l_reach tr) = false.
Proof.
  exists [ZSpawn 1 2; ZStep 1; ZPark 2 false None; ZStep 2; ZStep 2; ZStep 2; ZPark 1 false (Some 2); ZStep 1].
  split; [|split; [|split; [|split; [|split]]]]; try reflexivity.
  - apply (b_always_spec b_noted); [exact b_noted_spec|vm_compute; reflexivity].
  - apply (b_always_spec b_polite); [exact b_polite_spec|vm_compute; reflexivity].
  - apply (b_always_spec b_proper); [exact b_proper_spec|vm_compute; reflexivity].
Qed.
