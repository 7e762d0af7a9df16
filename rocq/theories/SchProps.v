(** C37: the user-level scheduler. *)
From Verif Require Import Base CntLib SchModel SchSpec SchProofs.
From stdpp Require Import functions.

(** ** For all histories *)

(** Thread ids are never reused. *)
Theorem C37_ids_never_reused l s aff irq s' t :
  sch_run sch_init l = Ok s -> NoDup (spawned (h_tr s)) /\
  (sch_spawn s aff irq = Ok (s', Some t) ->
     t ∉ spawned (h_tr s) /\ h_thr s !! t = None /\ spawned (h_tr s') = spawned (h_tr s) ++ [t]).
Proof.
  intros E. pose proof (uni_run _ _ _ uni_init E) as U. split; [apply un_snd; done|]. intros E2.
  assert (t = h_next s) as ->.
  { clear -E2. dstr s. unfold sch_spawn in E2. destruct (th !! nx); [done|]. destruct (decide (size th <= MAX_THREADS)); [|done].
    unfold mark_runnable in E2. destruct (decide (aff < SCH_CORES)); [|done]. simpl in E2. congruence. }
  split; [|split].
  - intros H. apply (un_spl _ U) in H. lia.
  - destruct (h_thr s !! h_next s) as [x|] eqn:Ex; [|done]. apply (un_tid _ U) in Ex. lia.
  - clear -E2. dstr s. unfold sch_spawn in E2. destruct (th !! nx); [done|]. destruct (decide (size th <= MAX_THREADS)); [|done].
    unfold mark_runnable in E2. destruct (decide (aff < SCH_CORES)); [|done]. simpl in E2. injection E2 as <-. simpl.
    by rewrite !spawned_app, app_nil_r.
Qed.

(** When a core looks at its sleepers at time [now]: if one is due, then one whose wake-up
    time is the earliest of all, and not later than [now], becomes runnable; otherwise
    nothing changes. *)
Theorem C37_wakeups_in_order l s c now s' :
  sch_run sch_init l = Ok s -> h_cur s c = None -> sch_step s (HWake c now) = Ok s' ->
  ((forall t w, sleeps s c t w -> (now < w)%N) /\ s' = s) \/
  (exists t w, sleeps s c t w /\ (w <= now)%N /\ (forall t' w', sleeps s c t' w' -> (w <= w')%N) /\
     h_run s' c = h_run s c ++ [t] /\ h_wait s c ≡ₚ (w, t) :: h_wait s' c).
Proof.
  intros E Hc St. pose proof (un_sort _ (uni_run _ _ _ uni_init E) c) as US. simpl in St. rewrite Hc in St.
  unfold sleeps. destruct (reverse (h_wait s c)) as [|[w t] rest] eqn:Er.
  - left. injection St as <-. split; [|done]. intros t w H. rewrite <- (reverse_involutive (h_wait s c)), Er in H.
    simpl in H. by apply elem_of_nil in H.
  - assert (Ew : h_wait s c = reverse rest ++ [(w, t)]) by (rewrite <- (reverse_involutive (h_wait s c)), Er; by rewrite reverse_cons).
    rewrite Ew in US. apply wsorted_app in US as [_ US].
    assert (MIN : forall t' w', (w', t') ∈ h_wait s c -> (w <= w')%N).
    { intros t' w'. rewrite Ew, elem_of_app, elem_of_list_singleton. intros [H|[= -> ->]]; [|lia].
      apply US, wgt_iff in H. simpl in H. lia. }
    destruct (decide (w <= now)%N) as [Hw|Hw].
    + right. exists t, w. split; [rewrite Ew; set_solver|]. split; [done|]. split; [done|].
      dstr s. unfold mark_runnable in St. destruct (decide (c < SCH_CORES)); [|done]. injection St as <-.
      cbn [h_run h_wait]. rewrite !fn_lookup_insert. split; [done|]. rewrite Ew. by rewrite Permutation_app_comm.
    + left. injection St as <-. split; [|done]. intros t' w' H. apply MIN in H. lia.
Qed.

Lemma mark_wait s t c s' : mark_runnable s t c = Ok s' -> h_wait s' = h_wait s /\ h_cur s' = h_cur s.
Proof. dstr s. simpl. case_decide; [|done]. by intros [= <-]. Qed.
Lemma unmark_wait s t c s' : mark_unrunnable s t c = Ok s' -> h_wait s' = h_wait s /\ h_cur s' = h_cur s.
Proof. dstr s. simpl. case_decide; [|done]. by intros [= <-]. Qed.
Lemma joiners_wait s l s' : wake_joiners s l = Ok s' -> h_wait s' = h_wait s.
Proof.
  revert s. induction l as [|[t a] l IH]; intros s; simpl; [by intros [= <-]|].
  destruct (mark_runnable s t a) as [s1| |] eqn:E1; simpl; try done. intros E2. rewrite (IH _ E2). by eapply mark_wait.
Qed.
Lemma wake_wait s r s' c t w : wake_thread s r = Ok s' -> r <> t -> (w, t) ∈ h_wait s c -> (w, t) ∈ h_wait s' c.
Proof.
  unfold wake_thread. destruct (h_thr s !! r) as [x|]; [|done].
  destruct (waitlist_remove s r (t_aff x)) as [s1| |] eqn:E1; simpl; try done. intros E2 Hn H.
  destruct (mark_wait _ _ _ _ E2) as [-> _]. clear E2. dstr s. unfold waitlist_remove in E1. case_decide; [|done].
  injection E1 as <-. cbn [h_wait]. destruct (decide (c = t_aff x)) as [->|Hc];
    [rewrite fn_lookup_insert|by rewrite fn_lookup_insert_ne]. apply elem_of_list_filter. by split.
Qed.
Lemma wakes_wait l s s' c t w : wake_threads s l = Ok s' -> t ∉ l -> (w, t) ∈ h_wait s c -> (w, t) ∈ h_wait s' c.
Proof.
  revert s. induction l as [|r l IH]; intros s; simpl; [by intros [= <-]|].
  destruct (wake_thread s r) as [s1| |] eqn:E1; simpl; try done. intros E2 [H1 H2]%not_elem_of_cons H.
  eapply IH; [done|done|]. eapply wake_wait; [done|congruence|done].
Qed.
Lemma spawn_wait s aff irq s' o : sch_spawn s aff irq = Ok (s', o) -> h_wait s' = h_wait s.
Proof.
  dstr s. unfold sch_spawn. destruct (th !! nx); [done|]. destruct (decide (size th <= MAX_THREADS)).
  - unfold mark_runnable. destruct (decide (aff < SCH_CORES)); [|done]. simpl. by intros [= <- <-].
  - by intros [= <- <-].
Qed.

(** Requests that wake thread [t] explicitly. *)
Definition wakes (a : schact) (t : nat) : Prop :=
  match a with
  | HYield _ (YRunnable r) => r = t
  | HYield _ (YRunnableList rs) => t ∈ rs
  | _ => False
  end.

(** A thread leaves the list of sleepers only when its core finds, at a time not before its
    wake-up time, that it is due, or when another thread wakes it explicitly. *)
Theorem C37_sleeper_leaves_only_when_due s a s' c t w :
  sleeps s c t w -> sch_step s a = Ok s' -> ~ sleeps s' c t w ->
  (exists now, a = HWake c now /\ (w <= now)%N) \/ wakes a t.
Proof.
  unfold sleeps. intros H E Hn. destruct a as [aff irq|c' v|c' now|c'|c' r]; cbn [sch_step] in E.
  - destruct (sch_spawn s aff irq) as [[s1 o]| |] eqn:E1; try done. simpl in E. injection E as <-.
    apply spawn_wait in E1. rewrite E1 in Hn. done.
  - destruct (h_cur s c'); [by injection E as <-|]. destruct (h_irq s !! v); [|by injection E as <-].
    apply mark_wait in E as [E _]. by rewrite E in Hn.
  - destruct (h_cur s c'); [by injection E as <-|]. destruct (reverse (h_wait s c')) as [|[w' t'] rest] eqn:Er; [by injection E as <-|].
    destruct (decide (w' <= now)%N) as [Hw|]; [|by injection E as <-].
    assert (Ew : h_wait s c' = reverse rest ++ [(w', t')]) by (rewrite <- (reverse_involutive (h_wait s c')), Er; by rewrite reverse_cons).
    destruct s as [th ge ru wa nx ir cu tr]. apply mark_wait in E as [E _]. rewrite E in Hn. cbn [h_wait] in *.
    destruct (decide (c = c')) as [->|Hc]; [|by rewrite fn_lookup_insert_ne in Hn].
    rewrite fn_lookup_insert in Hn. rewrite Ew in H. apply elem_of_app in H as [H|H]; [done|].
    apply elem_of_list_singleton in H. injection H as -> ->. left. by exists now.
  - destruct (h_cur s c'); [by injection E as <-|]. destruct (h_run s c') as [|t' rest]; [by injection E as <-|].
    dstr s. destruct (decide (t' ∈ ge)); [|done]. destruct (th !! t'); [|done]. by injection E as <-.
  - right. destruct (h_cur s c') as [t'|] eqn:Ec; [|by injection E as <-].
    assert (X : forall s1 y, handle_yield s t' r = Ok (s1, y) -> (w, t) ∈ h_wait s1 c -> False).
    { intros s1 y E1 H1. rewrite E1 in E. cbn [sbind fst snd] in E. apply Hn.
      destruct y; try (by injection E as <-).
      - destruct (h_thr s1 !! t'); [|done]. injection E as <-. by rewrite (proj2 (proj2 (proj2 (blk_same s1 t' c' None)))).
      - injection E as <-. by destruct s1. }
    unfold handle_yield in *. destruct (h_thr s !! t') as [x|] eqn:Ex; [|done]. destruct r; simpl.
    + destruct (mark_unrunnable s t' (t_aff x)) as [s1| |] eqn:E1; simpl in *; try done.
      apply unmark_wait in E1 as [W1 _]. destruct s1 as [th ge ru wa nx ir cu tr].
      destruct (wake_joiners _ _) as [s2| |] eqn:E2; simpl in *; try done. eapply X; [done|].
      apply joiners_wait in E2. rewrite E2. cbn [h_wait] in *. by rewrite W1.
    + destruct (mark_runnable s t' (t_aff x)) as [s1| |] eqn:E1; simpl in *; try done. eapply X; [done|].
      apply mark_wait in E1 as [-> _]. done.
    + destruct (waitlist_insert s t' (t_aff x) until) as [s1| |] eqn:E1; simpl in *; try done. eapply X; [done|].
      clear -E1 H. dstr s. unfold waitlist_insert in E1. case_decide; [|done].
      destruct (wl_insert _ _) as [l|] eqn:El; [|done]. injection E1 as <-. cbn [h_wait].
      destruct (decide (c = t_aff x)) as [->|Hc]; [rewrite fn_lookup_insert|by rewrite fn_lookup_insert_ne].
      apply (wl_insert_elem _ _ _ El). by right.
    + destruct (decide (t0 = t)) as [|Hne]; [done|]. exfalso.
      destruct (wake_thread s t0) as [s1| |] eqn:E1; simpl in *; try done. eapply X; [done|]. by eapply wake_wait.
    + exfalso. destruct (h_thr s !! t0) as [z|]; [|done]. destruct (decide (t0 = t')).
      * by eapply X.
      * destruct (mark_unrunnable s t0 (t_aff z)) as [s1| |] eqn:E1; simpl in *; try done. eapply X; [done|].
        by apply unmark_wait in E1 as [-> _].
    + destruct (decide (t ∈ ts)) as [|Hne]; [done|]. exfalso.
      destruct (wake_threads s ts) as [s1| |] eqn:E1; simpl in *; try done. eapply X; [done|]. by eapply wakes_wait.
    + exfalso. destruct (h_thr s !! t0) as [z|]; [|by eapply X].
      destruct s as [th ge ru wa nx ir cu tr]. by eapply X.
    + exfalso. destruct (sch_spawn s aff irq) as [[s1 o]| |] eqn:E1; simpl in *; try done. destruct o; [|done].
      eapply X; [done|]. apply spawn_wait in E1. by rewrite E1.
Qed.

(** What the helpers leave alone: the threads and the next id. *)
Definition same_tn (s s' : sch) : Prop := h_thr s' = h_thr s /\ h_next s' = h_next s.
Lemma mark_tn s t c s' : mark_runnable s t c = Ok s' -> same_tn s s'.
Proof. dstr s. unfold same_tn. simpl. case_decide; [|done]. by intros [= <-]. Qed.
Lemma unmark_tn s t c s' : mark_unrunnable s t c = Ok s' -> same_tn s s'.
Proof. dstr s. unfold same_tn. simpl. case_decide; [|done]. by intros [= <-]. Qed.
Lemma same_tn_trans s1 s2 s3 : same_tn s1 s2 -> same_tn s2 s3 -> same_tn s1 s3.
Proof. unfold same_tn. intros [-> ->] [-> ->]. done. Qed.
Lemma joiners_tn l s s' : wake_joiners s l = Ok s' -> same_tn s s'.
Proof.
  revert s. induction l as [|[t a] l IH]; intros s; simpl; [by intros [= <-]|].
  destruct (mark_runnable s t a) as [s1| |] eqn:E1; simpl; try done. intros E2. eapply same_tn_trans; [by eapply mark_tn|by apply IH].
Qed.
Lemma wake_tn r s s' : wake_thread s r = Ok s' -> same_tn s s'.
Proof.
  unfold wake_thread. destruct (h_thr s !! r) as [x|]; [|done].
  destruct (waitlist_remove s r (t_aff x)) as [s1| |] eqn:E1; simpl; try done. intros E2. apply mark_tn in E2.
  eapply same_tn_trans; [|done]. clear -E1. dstr s. simpl in E1. case_decide; [|done]. by injection E1 as <-.
Qed.
Lemma wakes_tn l s s' : wake_threads s l = Ok s' -> same_tn s s'.
Proof.
  revert s. induction l as [|r l IH]; intros s; simpl; [by intros [= <-]|].
  destruct (wake_thread s r) as [s1| |] eqn:E1; simpl; try done. intros E2. eapply same_tn_trans; [by eapply wake_tn|by apply IH].
Qed.

(** What one step does to the threads: an existing thread keeps its affinity and its joiners,
    unless it is the running thread and exits; new threads get the next id. *)
Definition thr_step (s s' : sch) (a : schact) : Prop :=
  h_next s <= h_next s' /\
  (forall v, v < h_next s -> h_thr s !! v = None -> h_thr s' !! v = None) /\
  (forall v y, h_thr s !! v = Some y ->
     (exists y', h_thr s' !! v = Some y' /\ t_aff y' = t_aff y /\ forall e, e ∈ t_join y -> e ∈ t_join y') \/
     (exists c', a = HYield c' YExit /\ runs s c' v)).
Lemma thr_step_same s s' a : same_tn s s' -> thr_step s s' a.
Proof. unfold same_tn, thr_step. intros [-> ->]. split; [lia|]. split; [done|]. intros v y H. left. eauto. Qed.
Lemma thr_step_spawn s aff irq s' o a : uni s -> sch_spawn s aff irq = Ok (s', o) -> thr_step s s' a.
Proof.
  intros U E. pose proof (un_tid _ U) as T. dstr s. unfold sch_spawn in E. destruct (th !! nx) eqn:En; [done|].
  destruct (decide (size th <= MAX_THREADS)).
  - unfold mark_runnable in E. destruct (decide (aff < SCH_CORES)); [|done]. simpl in E. injection E as <- <-.
    unfold thr_step. cbn [h_thr h_next] in *. split; [lia|]. split.
    + intros v Hv H. rewrite lookup_insert_ne by lia. done.
    + intros v y H. left. pose proof (T _ _ H). rewrite lookup_insert_ne by lia. eauto.
  - injection E as <- <-. unfold thr_step. cbn [h_thr h_next]. split; [lia|]. split; [done|]. intros v y H. left. eauto.
Qed.
Lemma thr_step_ok s a s' : uni s -> sch_step s a = Ok s' -> thr_step s s' a.
Proof.
  intros U E. destruct a as [aff irq|c' v'|c' now|c'|c' r]; cbn [sch_step] in E.
  - destruct (sch_spawn s aff irq) as [[s1 o]| |] eqn:E1; simpl in E; try done. injection E as <-. by eapply thr_step_spawn.
  - destruct (h_cur s c'); [by injection E as <-; apply thr_step_same|]. destruct (h_irq s !! v'); [|by injection E as <-; apply thr_step_same].
    by eapply thr_step_same, mark_tn.
  - destruct (h_cur s c'); [by injection E as <-; apply thr_step_same|].
    destruct (reverse (h_wait s c')) as [|[w t'] rest]; [by injection E as <-; apply thr_step_same|].
    destruct (decide (w <= now)%N); [|by injection E as <-; apply thr_step_same]. dstr s. apply thr_step_same. by apply mark_tn in E.
  - destruct (h_cur s c'); [by injection E as <-; apply thr_step_same|].
    destruct (h_run s c') as [|t' rest]; [by injection E as <-; apply thr_step_same|].
    dstr s. destruct (decide (t' ∈ ge)); [|done]. destruct (th !! t'); [|done]. injection E as <-. by apply thr_step_same.
  - destruct (h_cur s c') as [t'|] eqn:Ec; [|by injection E as <-; apply thr_step_same].
    destruct (handle_yield s t' r) as [[s1 yy]| |] eqn:E1; simpl in E; try done.
    assert (T : same_tn s1 s').
    { destruct yy; try (by injection E as <-).
      - destruct (h_thr s1 !! t'); [|done]. injection E as <-. by destruct s1.
      - injection E as <-. by destruct s1. }
    assert (X : thr_step s s1 (HYield c' r)); [|destruct T as [T1 T2]; unfold thr_step in *; by rewrite T1, T2].
    clear T E s'. unfold handle_yield in E1. destruct (h_thr s !! t') as [x|] eqn:Ex; [|done]. destruct r; simpl in E1.
    + destruct (mark_unrunnable s t' (t_aff x)) as [s2| |] eqn:E2; simpl in E1; try done. apply unmark_tn in E2 as [X1 X2].
      destruct s2 as [th ge ru wa nx ir cu tr]. destruct (wake_joiners _ _) as [s3| |] eqn:E3; simpl in E1; try done.
      injection E1 as <- <-. apply joiners_tn in E3 as [Y1 Y2]. cbn [h_thr h_next] in *. unfold thr_step. rewrite Y1, Y2, X1, X2.
      split; [lia|]. split; [intros; apply lookup_delete_None; by right|].
      intros v y Hv. destruct (decide (v = t')) as [->|Hn]; [right|left].
      * by exists c'.
      * rewrite lookup_delete_ne by done. eauto.
    + destruct (mark_runnable s t' (t_aff x)) as [s2| |] eqn:E2; simpl in E1; try done. injection E1 as <- <-. by eapply thr_step_same, mark_tn.
    + destruct (waitlist_insert s t' (t_aff x) until) as [s2| |] eqn:E2; simpl in E1; try done. injection E1 as <- <-.
      apply thr_step_same. clear -E2. dstr s. simpl in E2. case_decide; [|done]. destruct (wl_insert _ _); [|done]. by injection E2 as <-.
    + destruct (wake_thread s t) as [s2| |] eqn:E2; simpl in E1; try done. injection E1 as <- <-. by eapply thr_step_same, wake_tn.
    + destruct (h_thr s !! t) as [z|] eqn:Ez; [|done]. destruct (decide (t = t')); [injection E1 as <- <-; by apply thr_step_same|].
      destruct (mark_unrunnable s t (t_aff z)) as [s2| |] eqn:E2; simpl in E1; try done. injection E1 as <- <-. by eapply thr_step_same, unmark_tn.
    + destruct (wake_threads s ts) as [s2| |] eqn:E2; simpl in E1; try done. injection E1 as <- <-. by eapply thr_step_same, wakes_tn.
    + destruct (h_thr s !! t) as [z|] eqn:Ez; [|injection E1 as <- <-; by apply thr_step_same]. dstr s. injection E1 as <- <-.
      unfold thr_step. cbn [h_thr h_next] in *. split; [done|]. split.
      * intros v _ Hv. rewrite lookup_insert_ne; [done|]. intros ->. congruence.
      * intros v y Hv. left. destruct (decide (v = t)) as [->|Hn]; [rewrite lookup_insert|rewrite lookup_insert_ne by done; eauto].
        rewrite Ez in Hv. injection Hv as <-. eexists. split; [done|]. split; [done|]. simpl. intros e He. apply elem_of_app. by left.
    + destruct (sch_spawn s aff irq) as [[s2 o]| |] eqn:E2; simpl in E1; try done. destruct o; [|done]. injection E1 as <- <-.
      by eapply thr_step_spawn.
Qed.
Lemma gone_stays l s s' u : uni s -> sch_run s l = Ok s' -> u < h_next s -> h_thr s !! u = None -> h_thr s' !! u = None.
Proof.
  revert s. induction l as [|a l IH]; intros s U E Hn Hu; simpl in E; [by injection E as <-|].
  destruct (sch_step s a) as [s1| |] eqn:E1; simpl in E; try done. destruct (thr_step_ok _ _ _ U E1) as (G1 & G2 & _).
  eapply (IH s1); [by eapply uni_step|done|lia|by apply G2].
Qed.

(** When a thread ends, all threads that wait for it become runnable on their cores; a join
    on a thread that has ended returns at once. *)
Lemma joiners_ready l s s' : wake_joiners s l = Ok s' ->
  (forall c t, ready s c t -> ready s' c t) /\ (forall t a, (t, a) ∈ l -> ready s' a t).
Proof.
  revert s. induction l as [|[t0 c0] l IH]; intros s; simpl.
  - intros [= <-]. split; [done|]. intros t a H. by apply elem_of_nil in H.
  - destruct (mark_runnable s t0 c0) as [s1| |] eqn:E1; simpl; try done. intros E2. destruct (IH _ E2) as [I1 I2].
    assert (R : (forall c t, ready s c t -> ready s1 c t) /\ ready s1 c0 t0).
    { clear -E1. unfold ready. dstr s. unfold mark_runnable in E1. destruct (decide (c0 < SCH_CORES)); [|done]. injection E1 as <-.
      cbn [h_run]. split.
      - intros c t H. destruct (decide (c = c0)) as [->|Hn]; [rewrite fn_lookup_insert; set_solver|by rewrite fn_lookup_insert_ne].
      - rewrite fn_lookup_insert. set_solver. }
    destruct R as [R1 R2]. split; [intros; by apply I1, R1|]. intros t a [[= -> ->]|H]%elem_of_cons; [by apply I1|by apply I2].
Qed.
Theorem C37_exit_wakes_joiners s c t s' x :
  runs s c t -> h_thr s !! t = Some x -> sch_step s (HYield c YExit) = Ok s' ->
  (forall j a, (j, a) ∈ t_join x -> ready s' a j) /\ h_thr s' !! t = None /\ h_cur s' c = None.
Proof.
  unfold runs. intros Hc Hx E. cbn [sch_step] in E. rewrite Hc in E. unfold handle_yield in E. rewrite Hx in E.
  destruct (mark_unrunnable s t (t_aff x)) as [s1| |] eqn:E1; simpl in E; try done.
  destruct s1 as [th ge ru wa nx ir cu tr]. destruct (wake_joiners _ _) as [s2| |] eqn:E2; simpl in E; try done.
  injection E as <-. destruct (joiners_ready _ _ _ E2) as [_ R]. apply joiners_tn in E2 as [E2 _].
  destruct s2 as [th2 ge2 ru2 wa2 nx2 ir2 cu2 tr2]. split; [|split].
  - intros j a H. by specialize (R _ _ H).
  - cbn [set_cur h_thr] in *. rewrite E2. apply lookup_delete.
  - cbn [set_cur h_cur]. by rewrite fn_lookup_insert.
Qed.
Theorem C37_join_ended_returns s c t u s' :
  runs s c t -> h_thr s !! u = None -> sch_step s (HYield c (YJoinOn u)) = Ok s' -> s' = s.
Proof.
  unfold runs. intros Hc Hu E. cbn [sch_step] in E. rewrite Hc in E. unfold handle_yield in E. rewrite Hu in E.
  destruct (h_thr s !! t); [|done]. simpl in E. by injection E as <-.
Qed.

(** ** Under the discipline of SchSpec *)

Lemma disc_reach l s : disciplined_run sch_init l -> sch_run sch_init l = Ok s -> di s /\ uni s.
Proof. intros H E. destruct (di_runs _ _ di_init uni_init H) as (s' & E' & D & U). rewrite E in E'. by injection E' as <-. Qed.

(** No panic, and every thread is in one place: a thread that is queued, sleeping, joining or
    running exists and belongs to the core; it is queued at most once, sleeps at most once and
    waits for at most one thread; one that sleeps or joins is neither queued nor running nor
    the other. *)
Theorem C37_no_panic l : disciplined_run sch_init l -> exists s, sch_run sch_init l = Ok s.
Proof. intros H. destruct (di_runs _ _ di_init uni_init H) as (s' & E' & _). eauto. Qed.

Theorem C37_one_place l s c t :
  disciplined_run sch_init l -> sch_run sch_init l = Ok s -> alive s c t ->
  NoDup (h_run s c) /\
  (forall w, sleeps s c t w -> ~ ready s c t /\ ~ runs s c t /\ (forall u, ~ joins s t u) /\ forall w', sleeps s c t w' -> w' = w) /\
  (forall u, joins s t u -> ~ ready s c t /\ ~ runs s c t /\ (forall w, ~ sleeps s c t w) /\ forall u', joins s t u' -> u' = u) /\
  (forall c', c' <> c -> ~ ready s c' t /\ ~ runs s c' t /\ forall w, ~ sleeps s c' t w).
Proof.
  intros H E A. destruct (disc_reach _ _ H E) as [D U]. split; [apply D|]. split; [|split].
  - intros w Hw. destruct (d_wait _ D _ _ _ Hw) as (_ & H1 & H2). split; [done|]. split; [done|].
    split; [apply (di_nojoin _ _ _ D A); eauto|]. intros w' Hw'. pose proof (d_wnd _ D c) as N. unfold sleeps in *.
    apply elem_of_list_lookup in Hw as [i Hi]. apply elem_of_list_lookup in Hw' as [j Hj].
    assert (i = j) as ->; [|congruence]. eapply (NoDup_lookup _ _ _ t N); rewrite list_lookup_fmap; [by rewrite Hi|by rewrite Hj].
  - intros u Hu. pose proof (d_jone _ D) as J1. pose proof Hu as (y & Hy & Ht). apply elem_of_list_fmap in Ht as ([t' a] & -> & He).
    simpl in *. destruct (d_join _ D _ _ _ _ Hy He) as (A' & H1 & H2 & H3). assert (a = c) as -> by (by eapply alive_fun).
    split_and!; [done|done|done|]. intros u' Hu'. by eapply J1.
  - intros c' Hn. split_and!.
    + intros X. apply (d_run _ D) in X. by apply Hn, (alive_fun s c' c t).
    + intros X. apply (d_cur _ D) in X. by apply Hn, (alive_fun s c' c t).
    + intros w X. apply (d_wait _ D) in X as [X _]. by apply Hn, (alive_fun s c' c t).
Qed.

Lemma sch_run_app s l1 l2 : sch_run s (l1 ++ l2) = sbind (sch_run s l1) (fun s' => sch_run s' l2).
Proof. revert s. induction l1 as [|a l IH]; intros s; simpl; [done|]. destruct (sch_step s a); simpl; [apply IH|done|done]. Qed.

(** A thread that goes to sleep until [w] is neither queued nor running until its core has
    seen a time of at least [w], unless another thread wakes it explicitly. *)
Theorem C37_sleeps_until_due l1 s1 c t w l2 s2 :
  disciplined_run sch_init l1 -> sch_run sch_init l1 = Ok s1 -> sleeps s1 c t w ->
  disciplined_run s1 l2 -> sch_run s1 l2 = Ok s2 -> (forall a, a ∈ l2 -> ~ wakes a t) ->
  (sleeps s2 c t w /\ ~ ready s2 c t /\ ~ runs s2 c t) \/ (exists now, HWake c now ∈ l2 /\ (w <= now)%N).
Proof.
  intros H1 E1 Sl H2 E2 W. destruct (disc_reach _ _ H1 E1) as [D U]. clear H1 E1 l1. revert s1 Sl H2 E2 D U.
  induction l2 as [|a l IH]; intros s Sl H2 E2 D U; simpl in E2.
  - injection E2 as <-. left. split; [done|]. by apply (d_wait _ D) in Sl as (_ & ? & ?).
  - destruct H2 as [Ha Hr]. destruct (di_step s a D U Ha) as (s' & E & D' & _). rewrite E in E2. simpl in E2.
    assert (X : {sleeps s' c t w} + {~ sleeps s' c t w}) by (unfold sleeps; destruct (decide ((w, t) ∈ h_wait s' c)); auto).
    destruct X as [X|X].
    + destruct (IH) with (s1 := s') as [Y|(now & Hn & Hw)]; try done.
      * intros b Hb. apply W. by right.
      * by apply Hr.
      * by eapply uni_step.
      * by left.
      * right. exists now. split; [by right|done].
    + destruct (C37_sleeper_leaves_only_when_due _ _ _ _ _ _ Sl E X) as [(now & -> & Hw)|Y].
      * right. exists now. split; [left|done].
      * exfalso. eapply W; [left|done].
Qed.

(** A thread that joins [u] is neither queued nor running until [u] has ended. *)
Theorem C37_joins_until_exit l1 s1 c t u l2 s2 :
  disciplined_run sch_init l1 -> sch_run sch_init l1 = Ok s1 -> alive s1 c t -> joins s1 t u ->
  disciplined_run s1 l2 -> sch_run s1 l2 = Ok s2 -> (exists x, h_thr s2 !! u = Some x) ->
  joins s2 t u /\ alive s2 c t /\ ~ ready s2 c t /\ ~ runs s2 c t.
Proof.
  intros H1 E1 A J H2 E2 Hu. destruct (disc_reach _ _ H1 E1) as [D U]. clear H1 E1 l1.
  assert (G : forall s l s', di s -> uni s -> disciplined_run s l -> sch_run s l = Ok s' -> alive s c t -> joins s t u ->
     (exists x, h_thr s' !! u = Some x) -> di s' /\ joins s' t u /\ alive s' c t).
  2: { destruct (G _ _ _ D U H2 E2 A J Hu) as (D' & J' & A'). split; [done|]. split; [done|].
       pose proof J' as (y & Hy & Ht). apply elem_of_list_fmap in Ht as ([t' a] & -> & He). simpl in *.
       destruct (d_join _ D' _ _ _ _ Hy He) as (A'' & X1 & X2 & X3). assert (a = c) as -> by (by eapply alive_fun). done. }
  clear. intros s l. revert s. induction l as [|a l IH]; intros s s' D U H E A J Hu; simpl in E; [by injection E as <-|].
  destruct H as [Ha Hr]. destruct (di_step s a D U Ha) as (s1 & E1 & D1 & _). rewrite E1 in E. simpl in E.
  pose proof (uni_step _ _ _ U E1) as U1. pose proof J as (y & Hy & Ht). destruct (thr_step_ok _ _ _ U E1) as (TN & _ & TH).
  apply (IH s1); try done; [by apply Hr| |].
  - destruct A as (x & Hx & Hax). destruct (TH _ _ Hx) as [(x' & Hx' & Ha' & _)|(c' & -> & Rt)].
    + exists x'. split; [done|congruence].
    + exfalso. apply (di_nojoin s c' t D (d_cur _ D _ _ Rt) ltac:(by right; left) u J).
  - destruct (h_thr s1 !! u) as [y'|] eqn:Hy'.
    + destruct (TH _ _ Hy) as [(y2 & Hy2 & _ & Hj)|(c' & -> & Ru)].
      * rewrite Hy' in Hy2. injection Hy2 as <-. exists y'. split; [done|]. apply elem_of_list_fmap in Ht as (e & -> & He).
        apply elem_of_list_fmap. exists e. auto.
      * exfalso. destruct (C37_exit_wakes_joiners _ _ _ _ _ Ru Hy E1) as (_ & X & _). congruence.
    + exfalso. destruct Hu as [x Hx]. pose proof (un_tid _ U _ _ Hy). rewrite (gone_stays l s1 s' u U1 E) in Hx; [done|lia|done].
Qed.

(** Threads are dispatched on each core in the order in which they became runnable, as long as
    no thread takes another one (or itself, pending) out of the queue. *)
Fixpoint no_removal_run (s : sch) (l : list schact) : Prop :=
  match l with
  | [] => True
  | a :: l => no_removal s a /\ forall s', sch_step s a = Ok s' -> no_removal_run s' l
  end.
Theorem C37_dispatch_in_order l s c :
  disciplined_run sch_init l -> no_removal_run sch_init l -> sch_run sch_init l = Ok s ->
  readied c (h_tr s) = dispatched c (h_tr s) ++ h_run s c.
Proof.
  intros H N E. assert (G : forall l s0, di s0 -> uni s0 -> fifo s0 -> disciplined_run s0 l -> no_removal_run s0 l -> sch_run s0 l = Ok s -> fifo s).
  { clear. induction l as [|a l IH]; intros s0 D U F H N E; simpl in E; [by injection E as <-|].
    destruct H as [Ha Hr], N as [Na Nr]. destruct (di_step s0 a D U Ha) as (s1 & E1 & D1 & F1). rewrite E1 in E. simpl in E.
    apply (IH s1); auto. by eapply uni_step. }
  eapply (G l sch_init); auto using di_init, uni_init. intros c'. done.
Qed.

(** At most 2049 threads exist at a time, in all histories. *)
Theorem C37_capacity l s : sch_run sch_init l = Ok s -> size (h_thr s) <= 2049.
Proof. intros E. pose proof (un_size _ (uni_run _ _ _ uni_init E)) as H. unfold MAX_THREADS in H. lia. Qed.

(** The limit is stated as 2048 (threads/mod.rs), but one more thread is admitted. *)
Theorem C37_limit_2048_refuted : exists l s, sch_run sch_init l = Ok s /\ size (h_thr s) = 2049.
Proof.
  assert (G : forall n, n <= 2049 -> exists s, sch_run sch_init (replicate n (HSpawn 0 None)) = Ok s /\ uni s /\ size (h_thr s) = n).
  { induction n as [|n IH]; intros Hn; [exists sch_init; split; [done|]; split; [apply uni_init|done]|].
    destruct IH as (s & E & U & Hs); [lia|]. rewrite replicate_S_end, sch_run_app, E. cbn [sbind sch_run].
    destruct (sch_step s (HSpawn 0 None)) as [s'| |] eqn:E1.
    - exists s'. split; [done|]. split; [by eapply uni_step|]. pose proof (un_tid _ U) as T. cbn [sch_step] in E1. dstr s. unfold sch_spawn in E1.
      cbn [h_thr] in *. destruct (th !! nx) as [y|] eqn:En; [exfalso; apply T in En; lia|]. destruct (decide (size th <= MAX_THREADS)) as [|X];
        [|exfalso; apply X; unfold MAX_THREADS; lia].
      unfold mark_runnable in E1. destruct (decide (0 < SCH_CORES)); [|done]. simpl in E1. injection E1 as <-. cbn [h_thr].
      rewrite map_size_insert_None; [lia|done].
    - exfalso. cbn [sch_step] in E1. dstr s. unfold sch_spawn in E1. destruct (th !! nx) as [y|] eqn:En; [done|].
      destruct (decide (size th <= MAX_THREADS)); [|done]. unfold mark_runnable in E1. destruct (decide (0 < SCH_CORES)); done.
    - exfalso. pose proof (un_tid _ U) as T. cbn [sch_step] in E1. dstr s. unfold sch_spawn in E1. cbn [h_thr] in *.
      destruct (th !! nx) as [y|] eqn:En; [apply T in En; lia|]. destruct (decide (size th <= MAX_THREADS)); [|done].
      unfold mark_runnable in E1. destruct (decide (0 < SCH_CORES)) as [|X]; [done|]. apply X. unfold SCH_CORES. lia. }
  destruct (G 2049 (le_n _)) as (s & E & _ & Hs). eauto.
Qed.

(** ** Without the discipline *)

(** A thread that is woken before it goes to sleep is dispatched before its wake-up time,
    and stays in the list of sleepers. *)
Theorem C37_early_dispatch_refuted : exists l s, sch_run sch_init l = Ok s /\
  runs s 0 0 /\ sleeps s 0 0 100 /\ forall c now, HWake c now ∉ l.
Proof.
  exists [HSpawn 0 None; HSpawn 1 None; HDispatch 0; HDispatch 1; HYield 1 (YRunnable 0); HYield 0 (YTimeout 100); HDispatch 0].
  eexists. split; [reflexivity|]. split; [reflexivity|]. split; [left|]. intros c now. set_solver.
Qed.
(** The scheduler panics when it dispatches a thread that has ended: ... after a thread in a
    join was also woken explicitly and ended before the thread it had joined, *)
Theorem C37_ended_joiner_panics :
  sch_run sch_init [HSpawn 0 None; HSpawn 0 None; HSpawn 1 None; HDispatch 0; HYield 0 (YJoinOn 1); HDispatch 1;
                    HYield 1 (YRunnable 0); HDispatch 0; HYield 0 YNone; HDispatch 0; HYield 0 YExit;
                    HDispatch 0; HYield 0 YExit; HDispatch 0] = Panic.
Proof. reflexivity. Qed.
(** ... when a thread is made runnable that has ended, *)
Theorem C37_wake_ended_panics :
  sch_run sch_init [HSpawn 0 None; HSpawn 0 None; HDispatch 0; HYield 0 YExit; HDispatch 0; HYield 0 (YRunnable 0)] = Panic.
Proof. reflexivity. Qed.
(** ... and when an interrupt is delivered on another core than the one of its handler. *)
Theorem C37_irq_elsewhere_panics :
  sch_run sch_init [HSpawn 0 (Some 33%N); HDispatch 0; HIrq 1 33; HDispatch 1] = Panic.
Proof. reflexivity. Qed.

(** ** A disciplined run: sleeping, joining, waking, on two cores *)
Definition sch_demo : list schact :=
  [HSpawn 0 None; HSpawn 0 None; HSpawn 1 None; HDispatch 0; HYield 0 (YTimeout 100); HDispatch 0;
   HYield 0 (YJoinOn 2); HWake 0 50; HDispatch 0; HDispatch 1; HWake 0 100; HYield 1 YExit; HDispatch 0].
Definition demo_state (k : nat) : sch :=
  match sch_run sch_init (take k sch_demo) with Ok s => s | _ => sch_init end.
Lemma demo_step k a : sch_step (demo_state k) a = Ok (demo_state (S k)) ->
  forall s', sch_step (demo_state k) a = Ok s' -> s' = demo_state (S k).
Proof. intros -> s' [= <-]. done. Qed.
Lemma sch_demo_disciplined : disciplined_run sch_init sch_demo /\ no_removal_run sch_init sch_demo.
Proof.
  change sch_init with (demo_state 0).
  split; unfold sch_demo; repeat (cbn [disciplined_run no_removal_run]; split;
    [|let s' := fresh in let E := fresh in intros s' E; apply demo_step in E; [subst s'|vm_compute; reflexivity]]); try exact I;
    cbn [disciplined no_removal]; try (vm_compute; lia).
  all: unfold runs, ready; intros t H; vm_compute in H; try discriminate H; injection H as <-; vm_compute; try exact I; try done.
  all: repeat match goal with |- (exists _, _) -> _ => intros _ end; intros H; repeat (apply elem_of_cons in H as [H|H]; [discriminate H|]); by apply elem_of_nil in H.
Qed.
Example C37_hyps_met :
  disciplined_run sch_init sch_demo /\ no_removal_run sch_init sch_demo /\
  exists s, sch_run sch_init sch_demo = Ok s /\ spawned (h_tr s) = [0; 1; 2] /\
    runs s 0 0 /\ ready s 0 1 /\ h_wait s 0 = [] /\ readied 0 (h_tr s) = [0; 1; 0; 1].
Proof.
  split; [apply sch_demo_disciplined|]. split; [apply sch_demo_disciplined|].
  eexists. split; [reflexivity|]. split_and!; try reflexivity. left.
Qed.
(** The states in the middle: thread 0 sleeps, thread 1 joins thread 2. *)
Example C37_hyps_met_mid : exists s, sch_run sch_init (take 8 sch_demo) = Ok s /\ sleeps s 0 0 100 /\ joins s 1 2 /\ alive s 0 1 /\
  h_cur s 0 = None.
Proof.
  eexists. split; [reflexivity|]. split; [left|]. split; [|split; [|reflexivity]].
  - eexists. split; [reflexivity|left].
  - eexists. split; reflexivity.
Qed.

Print Assumptions C37_ids_never_reused.
Print Assumptions C37_wakeups_in_order.
Print Assumptions C37_sleeper_leaves_only_when_due.
Print Assumptions C37_exit_wakes_joiners.
Print Assumptions C37_join_ended_returns.
Print Assumptions C37_no_panic.
Print Assumptions C37_one_place.
Print Assumptions C37_sleeps_until_due.
Print Assumptions C37_joins_until_exit.
Print Assumptions C37_dispatch_in_order.
Print Assumptions C37_capacity.
Print Assumptions C37_limit_2048_refuted.
Print Assumptions C37_early_dispatch_refuted.
Print Assumptions C37_ended_joiner_panics.
Print Assumptions C37_wake_ended_panics.
Print Assumptions C37_irq_elsewhere_panics.
