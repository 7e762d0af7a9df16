(** C34: the user-level mutex. *)
From Verif Require Import Base CntLib MtxModel MtxProofs.

Lemma own_use_exit_held s i a : own_use s i a -> exit_held s i a.
Proof. intros H ->. simpl in H. eauto. Qed.
Lemma sched_ok_mono (P Q : mst -> nat -> mact -> Prop) f s l :
  (forall s i a, P s i a -> Q s i a) -> sched_ok P f s l -> sched_ok Q f s l.
Proof.
  intros H. revert s. induction l as [|[i a] l IH]; intros s; simpl; [done|].
  intros [H1 H2]. split; [auto|]. intros s' E. auto.
Qed.

(** Mutual exclusion: for every kind of mutex, number of threads, interleaving, and mix of
    enter, enter_nowrap, try_enter and exit: as long as exit is called only while the mutex
    is held (by the caller or another thread), acquisitions and releases alternate - the
    mutex is never acquired while it is held; and while it is held, the owner recorded in
    it is the thread that acquired it. *)
Theorem C34_mutual_exclusion f n l s :
  m_run_sched f (m_init n) l = Some s -> sched_ok exit_held f (m_init n) l ->
  lk (m_tr s) <> Broken /\ forall i, lk (m_tr s) = HeldBy i -> m_own s = Some i.
Proof.
  intros E H. pose proof (m_run_inv _ _ _ _ (minv_init n) H E) as I.
  split; [apply (mi_nb _ I)|apply (mi_owner _ I)].
Qed.

Lemma occ_queued_split tr i l : queued tr = granted tr ++ l -> occ i (queued tr) = occ i (granted tr) + occ i l.
Proof. intros ->. apply occ_app. Qed.
Lemma occ_x3s th i : occ i (x3s th) = cnt (x3_pc i) th.
Proof.
  induction th as [|p th IH]; [done|]. unfold x3s in *. simpl.
  destruct p; simpl; try exact IH. unfold occ in *. simpl. f_equal. exact IH.
Qed.

(** The mutex is handed to blocked threads in the order in which they queued up, and a
    blocked thread goes on exactly if it was handed the mutex. *)
Theorem C34_fifo_handoff f n l s :
  m_run_sched f (m_init n) l = Some s -> sched_ok exit_held f (m_init n) l ->
  granted (m_tr s) `prefix_of` queued (m_tr s) /\
  forall i, m_th s !! i = Some ME2 ->
    ((exists s', m_step f s i AGo = Some s') <->
     occ i (granted (m_tr s)) = occ i (queued (m_tr s))).
Proof.
  intros E H. pose proof (m_run_inv _ _ _ _ (minv_init n) H E) as I. split.
  - exists (x3s (m_th s) ++ m_q s). apply (mi_fifo _ I).
  - intros i Hi. pose proof (occ_queued_split _ i _ (mi_fifo _ I)) as Q. rewrite occ_app, occ_x3s in Q.
    pose proof (mi_occ _ I i) as O. unfold blocked in O. rewrite Hi in O.
    unfold m_step. rewrite Hi. simpl. split.
    + intros [s' Hs]. destruct (run_take i (m_run s)) as [r'|] eqn:ER; [|done].
      destruct (run_take_Some _ _ _ ER) as [_ R]. specialize (R i). rewrite Nat.eqb_refl in R. simpl in R. lia.
    + intros Hq. assert (Hin : i ∈ m_run s) by (apply occ_in; lia).
      destruct (run_take_in _ _ Hin) as [r' ->]. eauto.
Qed.

(** No waiter is forgotten: if the mutex is free and every thread is either outside or
    blocked, then one of the blocked threads (if any) has been handed the mutex and can go on. *)
Theorem C34_no_lost_waiter f n l s i :
  m_run_sched f (m_init n) l = Some s -> sched_ok exit_held f (m_init n) l ->
  lk (m_tr s) = Free -> (forall j p, m_th s !! j = Some p -> p = MIdle \/ p = ME2) ->
  m_th s !! i = Some ME2 ->
  exists j s', m_th s !! j = Some ME2 /\ m_step f s j AGo = Some s'.
Proof.
  intros E H HF Hp Hi. pose proof (m_run_inv _ _ _ _ (minv_init n) H E) as I.
  pose proof (cnt_pos wait_pc _ _ _ Hi eq_refl) as W. pose proof (mi_wait _ I W) as O.
  unfold heldn in O. rewrite HF in O.
  rewrite (cnt_zero own_pc), (cnt_zero hand_pc) in O
    by (intros j p Hj; destruct (Hp _ _ Hj) as [-> | ->]; done).
  destruct (m_run s) as [|j r] eqn:ER; [simpl in O; lia|].
  pose proof (mi_occ _ I j) as Oj. rewrite ER in Oj.
  change (occ j (j :: r)) with (Nat.b2n (j =? j) + occ j r) in Oj. rewrite Nat.eqb_refl in Oj. simpl in Oj.
  assert (Hj : m_th s !! j = Some ME2).
  { unfold blocked in Oj. destruct (m_th s !! j) as [p|]; [|lia]. destruct p; try lia. done. }
  exists j. unfold m_step. rewrite Hj. simpl. rewrite ER. simpl. rewrite decide_True by done. eauto.
Qed.

(** When everything was released and no operation is running, the mutex is as new. *)
Theorem C34_all_released f n l s :
  m_run_sched f (m_init n) l = Some s -> sched_ok exit_held f (m_init n) l ->
  lk (m_tr s) = Free -> (forall j p, m_th s !! j = Some p -> p = MIdle) ->
  m_c s = 0 /\ m_own s = None /\ m_q s = [] /\ m_run s = [].
Proof.
  intros E H HF Hp. pose proof (m_run_inv _ _ _ _ (minv_init n) H E) as I.
  assert (Z : forall P, P MIdle = false -> cnt P (m_th s) = 0).
  { intros P HP. apply cnt_zero. intros j p Hj. by rewrite (Hp _ _ Hj). }
  assert (B : forall j, occ j (m_q s) = 0 /\ occ j (m_run s) = 0).
  { intros j. pose proof (mi_occ _ I j) as O. unfold blocked in O.
    destruct (m_th s !! j) as [p|] eqn:Ej; [rewrite (Hp _ _ Ej) in O|]; lia. }
  split; [|split; [|split]].
  - rewrite (mi_c _ I). unfold heldn. by rewrite HF, !Z.
  - destruct (m_own s) as [k|] eqn:EO; [|done]. destruct (mi_owner' _ I k EO) as [Hk|[j Hj]]; [congruence|].
    by apply Hp in Hj.
  - destruct (m_q s) as [|j q]; [done|]. destruct (B j) as [Bq _]. unfold occ in Bq. simpl in Bq.
    rewrite Nat.eqb_refl in Bq. simpl in Bq. lia.
  - destruct (m_run s) as [|j q]; [done|]. destruct (B j) as [_ Bq]. unfold occ in Bq. simpl in Bq.
    rewrite Nat.eqb_refl in Bq. simpl in Bq. lia.
Qed.

Lemma m_run_cons f s i a l s' : m_step f s i a = Some s' ->
  m_run_sched f s ((i, a) :: l) = m_run_sched f s' l.
Proof. intros H. simpl. by rewrite H. Qed.

(** Handing over takes a bounded number of steps: when the mutex is held, any thread outside
    that calls exit and runs alone finishes, and the thread at the head of the wait list
    then has the mutex after two steps of its own. *)
Theorem C34_handoff_bounded f n l s i j q h :
  m_run_sched f (m_init n) l = Some s -> sched_ok exit_held f (m_init n) l ->
  lk (m_tr s) = HeldBy h -> m_th s !! i = Some MIdle -> m_q s = j :: q ->
  exists s', m_run_sched f s [(i, AExit); (i, AGo); (i, AGo); (i, AGo); (i, AGo); (j, AGo); (j, AGo)] = Some s' /\
             lk (m_tr s') = HeldBy j /\ m_th s' !! i = Some MIdle /\ m_th s' !! j = Some MIdle.
Proof.
  intros E H HH Hi Hq. pose proof (m_run_inv _ _ _ _ (minv_init n) H E) as I.
  pose proof (mi_occ _ I j) as O. rewrite Hq in O.
  change (occ j (j :: q)) with (Nat.b2n (j =? j) + occ j q) in O. rewrite Nat.eqb_refl in O. simpl in O.
  assert (Hj : m_th s !! j = Some ME2).
  { unfold blocked in O. destruct (m_th s !! j) as [p|]; [|lia]. destruct p; try lia. done. }
  assert (Hij : i <> j) by (intros ->; congruence).
  pose proof (cnt_pos wait_pc _ _ _ Hj eq_refl) as W. pose proof (mi_one _ I) as O1.
  pose proof (mi_c _ I) as C. unfold heldn in *. rewrite HH in *.
  assert (Hr : m_run s = []) by (destruct (m_run s); simpl in *; [done|lia]).
  assert (Hc : exists c, m_c s = S (S c)) by (exists (m_c s - 2); lia). destruct Hc as [c Hc].
  assert (Hl : i < length (m_th s)) by (by eapply lookup_lt_Some).
  assert (Hl' : j < length (m_th s)) by (by eapply lookup_lt_Some).
  clear I E H O W O1 C. destruct s as [c0 o q0 r th tr]. cbn [m_c m_own m_q m_run m_th m_tr] in *. subst c0 q0 r.
  erewrite m_run_cons by (unfold m_step; cbn [m_th]; rewrite Hi; cbn [m_exec m_c m_own m_q m_run m_tr]; reflexivity).
  unfold mset. cbn [m_th].
  do 4 (erewrite m_run_cons by (unfold m_step; cbn [m_th]; rewrite list_lookup_insert by done;
          cbn [m_exec m_c m_own m_q m_run m_tr]; reflexivity);
        unfold mset; cbn [m_th]; rewrite list_insert_insert).
  erewrite m_run_cons by (unfold m_step; cbn [m_th]; rewrite list_lookup_insert_ne by done; rewrite Hj;
     cbn [m_exec m_c m_own m_q m_run m_tr app run_take]; rewrite decide_True by done; reflexivity).
  unfold mset. cbn [m_th].
  erewrite m_run_cons by (unfold m_step; cbn [m_th]; rewrite list_lookup_insert by (by rewrite insert_length);
     cbn [m_exec m_c m_own m_q m_run m_tr]; reflexivity).
  unfold mset. cbn [m_th]. rewrite list_insert_insert. cbn [m_run_sched].
  eexists. split; [reflexivity|]. cbn [m_tr m_th]. rewrite !app_nil_r. split; [|split].
  - rewrite !lk_app, HH. done.
  - rewrite list_lookup_insert_ne by done. by rewrite list_lookup_insert.
  - rewrite list_lookup_insert; [done|by rewrite insert_length].
Qed.

(** ** No panic *)

Record minv2 (n : nat) (s : mst) : Prop := {
  m2_len : length (m_th s) = n;
  m2_idle : forall h, lk (m_tr s) = HeldBy h -> m_th s !! h = Some MIdle;
  m2_x0 : forall j, m_th s !! j = Some MX0 -> m_own s = Some j;
  m2_ok : forall j p, m_th s !! j = Some p -> p <> MPanic /\ p <> MFull }.

Lemma pigeon (q : list nat) (n : nat) : NoDup q -> (forall x, x ∈ q -> x < n) -> length q <= n.
Proof.
  intros N H. rewrite <- (seq_length n 0). apply submseteq_length, NoDup_submseteq; [done|].
  intros x Hx. apply elem_of_seq. specialize (H x Hx). lia.
Qed.

Lemma minv2_step f n s i a s' : (mf_spin f || mf_kmutex f) = true -> n <= S MTX_WAITLIST ->
  minv s -> minv2 n s -> own_use s i a -> m_step f s i a = Some s' -> minv2 n s'.
Proof.
  intros Hf Hn I [J1 J2 J3 J4] U E.
  pose proof (minv_step _ _ _ _ _ I (own_use_exit_held _ _ _ U) E) as I'.
  unfold m_step in E. destruct (m_th s !! i) as [pc|] eqn:Ei; [|done].
  assert (Hil : i < length (m_th s)) by (by eapply lookup_lt_Some).
  assert (L : forall p j q, <[i:=p]> (m_th s) !! j = Some q ->
            (j = i /\ q = p) \/ (j <> i /\ m_th s !! j = Some q)).
  { intros p j q Hj. destruct (decide (j = i)) as [->|Hne].
    - left. rewrite list_lookup_insert in Hj by done. by injection Hj as ->.
    - right. by rewrite list_lookup_insert_ne in Hj by done. }
  pose proof (mi_one _ I) as O1. unfold heldn in O1.
  assert (OWN : own_pc pc = true -> forall j, m_th s !! j = Some MX0 -> j = i).
  { intros Hp j Hj. destruct (decide (j = i)) as [|Hne]; [done|].
    pose proof (cnt_two own_pc _ _ _ _ _ Ei Hj ltac:(congruence) Hp eq_refl). lia. }
  assert (HF : own_pc pc = true -> lk (m_tr s) = Free).
  { intros H. pose proof (cnt_pos own_pc _ _ _ Ei H) as CP. pose proof (mi_nb _ I).
    destruct (lk (m_tr s)); [done|lia|done]. }
  (* the wait list has room *)
  assert (HM : pc = ME1 -> length (m_q s) < MTX_WAITLIST).
  { intros ->. pose proof (mi_wait _ I (cnt_pos wait_pc _ _ _ Ei eq_refl)) as W. unfold heldn in W.
    assert (Q : forall x, x ∈ m_q s -> m_th s !! x = Some ME2 /\ occ x (m_run s) = 0 /\ occ x (m_q s) = 1).
    { intros x Hx%occ_in. pose proof (mi_occ _ I x) as O. unfold blocked in O.
      destruct (m_th s !! x) as [p|]; [|lia]. destruct p; try lia. split; [done|lia]. }
    assert (ND : NoDup (m_q s)).
    { apply occ_NoDup. intros x. pose proof (mi_occ _ I x) as O. unfold blocked in O.
      destruct (m_th s !! x) as [p|]; [|lia]. destruct p; lia. }
    assert (X : exists o, o < n /\ o <> i /\ o ∉ m_q s).
    { destruct (cnt own_pc (m_th s)) eqn:E1.
      2: { destruct (cnt_ex own_pc (m_th s) ltac:(lia)) as (o & p & Ho & Hp). exists o.
           split; [rewrite <- J1; by eapply lookup_lt_Some|].
           split; [intros ->; rewrite Ei in Ho; injection Ho as <-; done|].
           intros Hq. destruct (Q _ Hq) as [H2 _]. rewrite H2 in Ho. injection Ho as <-. done. }
      destruct (cnt hand_pc (m_th s)) eqn:E2.
      2: { destruct (cnt_ex hand_pc (m_th s) ltac:(lia)) as (o & p & Ho & Hp). exists o.
           split; [rewrite <- J1; by eapply lookup_lt_Some|].
           split; [intros ->; rewrite Ei in Ho; injection Ho as <-; done|].
           intros Hq. destruct (Q _ Hq) as [H2 _]. rewrite H2 in Ho. injection Ho as <-. done. }
      destruct (m_run s) as [|o r] eqn:E3.
      2: { exists o. pose proof (mi_occ _ I o) as O. rewrite E3 in O.
           change (occ o (o :: r)) with (Nat.b2n (o =? o) + occ o r) in O. rewrite Nat.eqb_refl in O. simpl in O.
           unfold blocked in O. destruct (m_th s !! o) as [p|] eqn:Eo; [|lia].
           destruct p; try lia.
           split; [rewrite <- J1; by eapply lookup_lt_Some|]. split; [intros ->; congruence|].
           intros Hq%occ_in. lia. }
      destruct (lk (m_tr s)) as [|h|] eqn:EL; [simpl in W; lia| |simpl in W; lia].
      pose proof (J2 _ eq_refl) as Hh. exists h.
      split; [rewrite <- J1; by eapply lookup_lt_Some|]. split; [intros ->; congruence|].
      intros Hq. destruct (Q _ Hq) as [H2 _]. congruence. }
    destruct X as (o & Ho & Hoi & Hoq).
    assert (length (i :: o :: m_q s) <= n).
    { apply pigeon.
      - apply stdpp.list.NoDup_cons. split.
        + intros [->|Hq]%elem_of_cons; [done|]. destruct (Q _ Hq) as [H2 _]. congruence.
        + apply stdpp.list.NoDup_cons. done.
      - intros x [->|[->|Hq]%elem_of_cons]%elem_of_cons; [lia|done|].
        destruct (Q _ Hq) as [H2 _]. rewrite <- J1. by eapply lookup_lt_Some. }
    simpl in *. lia. }
  (* try_enter's assertion *)
  assert (HT : pc = MT0 -> m_own s <> Some i).
  { intros -> Ho. destruct (mi_owner' _ I i Ho) as [Hl|[j Hj]].
    - apply J2 in Hl. congruence.
    - pose proof (J3 _ Hj). assert (i = j) as -> by congruence. congruence. }
  assert (HX : pc = MX1 -> m_c s <> 0).
  { intros -> Hc. pose proof (cnt_pos own_pc _ _ _ Ei eq_refl). pose proof (mi_c _ I). lia. }
  pose proof (mi_owner _ I) as MO.
  destruct pc, a; simpl in E; try discriminate E.
  all: repeat match type of E with
       | context [if ?b then _ else _] => destruct b eqn:?
       | context [match run_take ?x ?y with _ => _ end] => destruct (run_take x y) as [r'|] eqn:ER
       | context [match m_c ?x with _ => _ end] => destruct (m_c x) as [|[|c']] eqn:EC
       | context [match m_q ?x with _ => _ end] => destruct (m_q x) as [|j0 q'] eqn:EQ
       end; try discriminate E; try (by destruct (HX eq_refl)); try (by destruct (HT eq_refl)).
  all: try (specialize (HM eq_refl); simpl in HM; lia).
  all: try (simpl in Hf; discriminate Hf).
  all: injection E as <-; unfold mset in *; split; cbn [m_c m_own m_q m_run m_th m_tr] in *;
       rewrite ?app_nil_r, ?lk_app, ?insert_length; try assumption.
  all: try (intros jj p Hj; apply L in Hj as [[-> ->]|[_ Hj]]; [done|by eapply J4]).
  all: try (intros h Hh; cbn [lk_step] in Hh; first
       [ rewrite (HF eq_refl) in Hh; injection Hh as <-; by apply list_lookup_insert
       | rewrite (HF eq_refl) in Hh; discriminate Hh
       | destruct (decide (h = i)) as [->|Hne];
         [ exfalso; pose proof (J2 _ Hh); congruence || (simpl in U; congruence)
         | rewrite list_lookup_insert_ne by done; apply J2; exact Hh ] ]).
  all: try (intros jj Hj; apply L in Hj as [[-> Hj]|[Hne Hj]]; [done || (simpl in U; by apply MO)
            |first [by apply J3 | by destruct (Hne (OWN eq_refl _ Hj))]]).
  (* exit: nobody holds it afterwards *)
  intros h Hh. cbn [lk_step] in Hh. simpl in U. rewrite U in Hh. discriminate Hh.
Qed.

Lemma m_run_inv2 f n s l s' : (mf_spin f || mf_kmutex f) = true -> n <= S MTX_WAITLIST ->
  minv s -> minv2 n s -> sched_ok own_use f s l -> m_run_sched f s l = Some s' -> minv2 n s'.
Proof.
  intros Hf Hn. revert s. induction l as [|[i a] l IH]; intros s I J H E; simpl in E; [by injection E as <-|].
  destruct (m_step f s i a) as [s1|] eqn:E1; [|done]. destruct H as [H1 H2].
  eapply IH; [| |by apply H2|done].
  - eapply minv_step; [done| |done]. by apply own_use_exit_held.
  - by eapply minv2_step.
Qed.

(** No operation panics if the mutex is a spin or kernel mutex, at most 97 threads use it,
    and each thread releases what it acquired and does not acquire what it holds. *)
Theorem C34_no_panic f n l s i p :
  (mf_spin f || mf_kmutex f) = true -> n <= 97 ->
  m_run_sched f (m_init n) l = Some s -> sched_ok own_use f (m_init n) l ->
  m_th s !! i = Some p -> p <> MPanic /\ p <> MFull.
Proof.
  intros Hf Hn E H Hi. eapply m2_ok; [|exact Hi].
  eapply m_run_inv2; [exact Hf|exact Hn|apply minv_init| |exact H|exact E].
  split; simpl; [apply replicate_length|done| |];
    intros j; [intros Hj|intros q Hj]; apply lookup_replicate in Hj as [Hj _]; [done|by subst].
Qed.

(** The use condition as a test. *)
Fixpoint own_use_chk (f : mflags) (s : mst) (l : list (nat * mact)) : bool :=
  match l with
  | [] => true
  | (i, a) :: l =>
      (match a with
       | AExit => bool_decide (lk (m_tr s) = HeldBy i)
       | AGo => true
       | _ => negb (bool_decide (lk (m_tr s) = HeldBy i)) end) &&
      match m_step f s i a with Some s' => own_use_chk f s' l | None => true end
  end.
Lemma own_use_chk_ok f l s : own_use_chk f s l = true -> sched_ok own_use f s l.
Proof.
  revert s. induction l as [|[i a] l IH]; intros s Hc; [done|]. simpl in Hc. apply andb_true_iff in Hc as [H1 H2].
  split.
  - destruct a; simpl; try done; try (apply negb_true_iff in H1; by apply bool_decide_eq_false in H1).
    by apply bool_decide_eq_true in H1.
  - intros s' Es. rewrite Es in H2. by apply IH.
Qed.
Definition many_sched : list (nat * mact) :=
  flat_map (fun i => [(i, AEnter); (i, AGo); (i, AGo)]) (seq 0 98).
Lemma many_sched_chk : own_use_chk new_kmutex (m_init 98) many_sched &&
  match m_run_sched new_kmutex (m_init 98) many_sched with
  | Some s => bool_decide (m_th s !! 97 = Some MFull) | None => false end = true.
Proof. vm_compute. reflexivity. Qed.

(** The wait list has room for as many threads as there are cores, not threads: the 98th
    thread that wants the mutex panics. *)
Theorem C34_many_threads_refuted : exists l s,
  m_run_sched new_kmutex (m_init 98) l = Some s /\ sched_ok own_use new_kmutex (m_init 98) l /\
  m_th s !! 97 = Some MFull.
Proof.
  exists many_sched. pose proof many_sched_chk as H. apply andb_true_iff in H as [H1 H2].
  apply own_use_chk_ok in H1. revert H2.
  generalize (m_run_sched new_kmutex (m_init 98) many_sched). intros [s|] H2; [|done].
  exists s. split; [done|]. split; [done|]. by apply bool_decide_eq_true in H2.
Qed.

(** Mutex::new() makes a mutex that is neither a spin nor a kernel mutex; entering it panics. *)
Theorem C34_plain_mutex_refuted : exists l s,
  m_run_sched new_plain (m_init 1) l = Some s /\ sched_ok own_use new_plain (m_init 1) l /\
  m_th s !! 0 = Some MPanic.
Proof.
  eexists [(0, AEnter)], _. split; [vm_compute; reflexivity|]. split; [|done].
  split; [done|]. done.
Qed.

(** try_enter does not always return: it reads the counter once before its loop, so if the
    mutex is taken between this and the compare-exchange it spins as long as it is held. *)
Theorem C34_try_enter_spins_refuted f k : (mf_spin f || mf_kmutex f) = true -> exists l s,
  m_run_sched f (m_init 2) l = Some s /\ sched_ok own_use f (m_init 2) l /\
  lk (m_tr s) = HeldBy 0 /\ m_th s !! 1 = Some (MT2 0) /\
  m_run_sched f s (replicate k (1, AGo)) = Some s.
Proof.
  intros Hf.
  assert (Hk : forall s, m_th s !! 1 = Some (MT2 0) -> m_c s <> 0 -> m_step f s 1 AGo = Some s).
  { intros [c o q r th tr] Ht Hc. simpl in *. unfold m_step. simpl. rewrite Ht. simpl.
    rewrite decide_False by done. unfold mset. simpl. rewrite list_insert_id by done. by rewrite app_nil_r. }
  exists ([(1, ATryEnter); (1, AGo); (1, AGo); (0, ATryEnter)] ++ replicate 4 (0, AGo)).
  eexists. split; [vm_compute; reflexivity|]. split; [|split; [reflexivity|split; [reflexivity|]]].
  - apply own_use_chk_ok. vm_compute. reflexivity.
  - induction k as [|k IH]; [done|]. cbn [replicate m_run_sched]. rewrite Hk; [exact IH|done|done].
Qed.

(** The hypotheses are met: three threads, two of them blocked; the mutex is handed on in
    the order of arrival and ends up free. *)
Example C34_hyps_met : exists l1 l2 s1 s2,
  m_run_sched new_kmutex (m_init 3) l1 = Some s1 /\ sched_ok own_use new_kmutex (m_init 3) (l1 ++ l2) /\
  lk (m_tr s1) = HeldBy 0 /\ m_q s1 = [2; 1] /\ m_th s1 !! 0 = Some MIdle /\ m_th s1 !! 1 = Some ME2 /\
  m_run_sched new_kmutex s1 l2 = Some s2 /\
  m_tr s2 = [EvAcq 0; EvQueue 2; EvQueue 1; EvRel 0; EvGrant 2; EvAcq 2; EvRel 2; EvGrant 1; EvAcq 1; EvRel 1] /\
  lk (m_tr s2) = Free /\ m_th s2 = [MIdle; MIdle; MIdle].
Proof.
  exists [(0, AEnter); (0, AGo); (0, AGo); (2, AEnter); (2, AGo); (1, AEnter); (1, AGo); (2, AGo); (1, AGo)],
    ([(0, AExit); (0, AGo); (0, AGo); (0, AGo); (0, AGo); (2, AGo); (2, AGo); (2, AExit)] ++
     replicate 4 (2, AGo) ++ [(1, AGo); (1, AGo); (1, AExit); (1, AGo); (1, AGo)]).
  eexists _, _. split; [vm_compute; reflexivity|]. split.
  { apply own_use_chk_ok. vm_compute. reflexivity. }
  split; [reflexivity|]. split; [reflexivity|]. split; [reflexivity|]. split; [reflexivity|].
  split; [vm_compute; reflexivity|]. split; [reflexivity|]. done.
Qed.

Print Assumptions C34_mutual_exclusion.
Print Assumptions C34_fifo_handoff.
Print Assumptions C34_no_lost_waiter.
Print Assumptions C34_all_released.
Print Assumptions C34_handoff_bounded.
Print Assumptions C34_no_panic.
Print Assumptions C34_many_threads_refuted.
Print Assumptions C34_plain_mutex_refuted.
Print Assumptions C34_try_enter_spins_refuted.
