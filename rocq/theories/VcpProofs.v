(** Proofs for C74. *)
From Verif Require Import Base VcpModel VcpSpec.

Lemma fset_eq {A} (f : nat -> A) i x : fset f i x i = x.
Proof. unfold fset. by rewrite Nat.eqb_refl. Qed.
Lemma fset_ne {A} (f : nat -> A) i x j : j <> i -> fset f i x j = f j.
Proof. unfold fset. intros H. destruct (Nat.eqb_spec j i); [done|reflexivity]. Qed.

Inductive kind := Kidle | Khold | Kgone (n : nat) | Kkeep | Kbad.
Definition kd (p : pcs) : kind :=
  match p with
  | Run => Kidle
  | E1 _ | S1 => Khold
  | W1 _ _ WNowrap => Kbad
  | W1 _ _ _ => Khold
  | E2 _ n | E3 _ n | E4 _ n | W4 _ _ n | W6 _ n | S2 n | S3 n | N1 _ (NSched _ n) => Kgone n
  | N1 _ _ | X1 _ XRet => Kkeep
  | X1 _ (XBlock _ n k) | W2 _ _ n k | W3 _ _ n k => match k with WNowrap => Kkeep | _ => Kgone n end
  end.

(** What is true of thread [t], apart from its place. *)
Definition kinv (s : st) (t : nat) (k : kind) : Prop :=
  let x := g_thr s t in
  match k with
  | Kidle => t_call x = None
  | Khold => (exists c, t_call x = Some (c, locks s t, true)) /\ t_cpu x = true
  | Kgone n => (exists c, t_call x = Some (c, n, true)) /\ t_cpu x = false
  | Kkeep => exists c, t_call x = Some (c, locks s t, t_cpu x) /\ (wraps c = true -> t_cpu x = true)
  | Kbad => False
  end.
Definition tinv (s : st) (t : nat) : Prop := kinv s t (kd (t_pc (g_thr s t))).

Definition retok (r : ret) : Prop := r_locks1 r = r_locks0 r /\ r_cpu1 r = r_cpu0 r /\ (wraps (r_call r) = true -> r_cpu0 r = true).

Record ginv (N ncpu : nat) (t : nat) (s : st) : Prop := MkG {
  i_oth : forall u, u <> t -> tinv s u;
  i_big : forall h k, g_big s = Some (h, k) -> t_cpu (g_thr s h) = true /\ 0 < k;
  i_cnt : with_cpu s N + g_free s = ncpu;
  i_log : Forall retok (g_log s);
  i_bug : g_bug s <> Some BadUpcall }.
Definition inv (N ncpu : nat) (s : st) : Prop := exists t, ginv N ncpu t s /\ (g_bug s = None -> tinv s t).

Lemma inv_at N ncpu s t : inv N ncpu s -> g_bug s = None -> ginv N ncpu t s /\ tinv s t.
Proof.
  intros (u & [G1 G2 G3 G4 G5] & T) B. specialize (T B).
  assert (A : forall v, tinv s v) by (intros v; destruct (decide (v = u)) as [->|H]; [exact T|apply G1, H]).
  split; [|apply A]. constructor; try assumption. intros v _. apply A.
Qed.

(** Only the core of the state matters. *)
Lemma count_ext N s s' : (forall u, t_cpu (g_thr s' u) = t_cpu (g_thr s u)) -> with_cpu s' N = with_cpu s N.
Proof.
  intros H. unfold with_cpu. f_equal. apply list_filter_iff. intros u. rewrite H. reflexivity.
Qed.

Lemma count_upd N s s' t : t < N -> (forall u, u <> t -> t_cpu (g_thr s' u) = t_cpu (g_thr s u)) ->
  t_cpu (g_thr s t) = true -> t_cpu (g_thr s' t) = false -> S (with_cpu s' N) = with_cpu s N.
Proof.
  intros Ht H E E'. unfold with_cpu. replace (seq 0 N) with (seq 0 t ++ t :: seq (S t) (N - S t)).
  2:{ change (t :: seq (S t) (N - S t)) with (seq t (S (N - S t))). rewrite <- seq_app. f_equal. lia. }
  rewrite !filter_app, !app_length. rewrite (filter_cons_True (fun u => t_cpu (g_thr s u) = true)) by exact E.
  rewrite (filter_cons_False (fun u => t_cpu (g_thr s' u) = true)) by (rewrite E'; discriminate). cbn [length].
  assert (K : forall l, (forall u, u ∈ l -> u <> t) -> length (filter (fun u => t_cpu (g_thr s' u) = true) l) = length (filter (fun u => t_cpu (g_thr s u) = true) l)).
  { induction l as [|a l IH]; intros Hl; [reflexivity|]. rewrite !filter_cons.
    pose proof (H a (Hl a (elem_of_list_here _ _))) as Ha. specialize (IH (fun u Hu => Hl u (elem_of_list_further _ _ _ Hu))).
    destruct (decide (t_cpu (g_thr s a) = true)), (decide (t_cpu (g_thr s' a) = true)); cbn [length]; first [congruence|rewrite IH; reflexivity]. }
  rewrite !K; [lia| |]; intros u Hu; apply elem_of_seq in Hu; lia.
Qed.

(** Steps of [t] that leave cpu, call, big lock, free, log and bug alone. *)
Definition core (s s' : st) (t : nat) : Prop :=
  g_big s' = g_big s /\ g_free s' = g_free s /\ g_log s' = g_log s /\ g_bug s' = g_bug s /\
  (forall u, t_cpu (g_thr s' u) = t_cpu (g_thr s u) /\ t_call (g_thr s' u) = t_call (g_thr s u)) /\
  (forall u, u <> t -> t_pc (g_thr s' u) = t_pc (g_thr s u)).

Lemma core_locks s s' t u : core s s' t -> locks s' u = locks s u.
Proof. intros (B & _). unfold locks. rewrite B. reflexivity. Qed.
Lemma core_kinv s s' t u k : core s s' t -> kinv s u k -> kinv s' u k.
Proof.
  intros C. pose proof (core_locks s s' t u C) as L. destruct C as (_ & _ & _ & _ & C & _). destruct (C u) as [C1 C2].
  unfold kinv. rewrite C1, C2, L. exact (fun x => x).
Qed.
Lemma core_ginv N ncpu s s' t : core s s' t -> ginv N ncpu t s -> ginv N ncpu t s'.
Proof.
  intros C [G1 G2 G3 G4 G5]. pose proof C as (B & F & L & U & T & P). constructor.
  - intros u Hu. unfold tinv. rewrite (P u Hu). eapply core_kinv; [exact C|apply G1, Hu].
  - intros h k Hh. rewrite B in Hh. destruct (T h) as [-> _]. apply G2, Hh.
  - rewrite (count_ext N s s'); [rewrite F; exact G3|]. intros u. apply T.
  - rewrite L. exact G4.
  - rewrite U. exact G5.
Qed.
Lemma core_refl s t : core s s t.
Proof. repeat split. Qed.
Lemma core_trans s1 s2 s3 t : core s1 s2 t -> core s2 s3 t -> core s1 s3 t.
Proof.
  intros (a1 & b1 & c1 & d1 & e1 & f1) (a2 & b2 & c2 & d2 & e2 & f2). repeat split; try congruence.
  - rewrite (proj1 (e2 u)). apply e1.
  - rewrite (proj2 (e2 u)). apply e1.
  - intros u Hu. rewrite f2 by exact Hu. apply f1, Hu.
Qed.
Lemma core_set_pc s t p : core s (set_pc s t p) t.
Proof.
  repeat split; cbn; intros; destruct (decide (u = t)) as [->|Hu]; first [congruence|rewrite fset_eq; reflexivity|rewrite fset_ne by exact Hu; reflexivity].
Qed.
Lemma core_add_rdy s w t : core s (add_rdy s w) t.
Proof.
  repeat split; cbn; intros; destruct (decide (u = w)) as [->|Hu]; try (rewrite fset_eq; reflexivity); rewrite fset_ne by exact Hu; reflexivity.
Qed.
Lemma core_sub_rdy s w t : core s (sub_rdy s w) t.
Proof.
  repeat split; cbn; intros; destruct (decide (u = w)) as [->|Hu]; try (rewrite fset_eq; reflexivity); rewrite fset_ne by exact Hu; reflexivity.
Qed.
Lemma core_add_rdys l : forall s t, core s (add_rdys s l) t.
Proof.
  induction l as [|w l IH]; intros s t; cbn; [apply core_refl|]. eapply core_trans; [apply core_add_rdy|]. apply IH.
Qed.
Lemma core_with_cnt s f t : core s (with_cnt s f) t. Proof. repeat split. Qed.
Lemma core_with_wait s f t : core s (with_wait s f) t. Proof. repeat split. Qed.
Lemma core_with_cv s f t : core s (with_cv s f) t. Proof. repeat split. Qed.

Lemma pc_set_pc s t p : t_pc (g_thr (set_pc s t p) t) = p.
Proof. cbn. rewrite fset_eq. reflexivity. Qed.

(** The ways in which a step ends. *)
Lemma end_set_pc N ncpu s t p : ginv N ncpu t s -> kinv s t (kd p) -> inv N ncpu (set_pc s t p).
Proof.
  intros G K. pose proof (core_set_pc s t p) as C. exists t. split.
  - eapply core_ginv; [exact C|exact G].
  - intros _. unfold tinv. rewrite pc_set_pc. eapply core_kinv; [exact C|exact K].
Qed.

Lemma end_bug N ncpu s t b : ginv N ncpu t s -> b <> BadUpcall -> inv N ncpu (with_bug s b).
Proof.
  intros [G1 G2 G3 G4 G5] Hb. exists t. split; [|cbn; discriminate].
  constructor; [exact G1|exact G2|exact G3|exact G4|]. cbn. congruence.
Qed.

Lemma end_finish N ncpu s t ok : ginv N ncpu t s -> kinv s t Kkeep -> inv N ncpu (finish s t ok).
Proof.
  intros [G1 G2 G3 G4 G5] (c & Hc & Hw). unfold finish. rewrite Hc.
  set (s' := St _ _ _ _ _ _ _ _).
  assert (O : forall u, u <> t -> g_thr s' u = g_thr s u) by (intros u Hu; cbn; apply fset_ne, Hu).
  exists t. split.
  - constructor.
    + intros u Hu. unfold tinv, kinv. rewrite (O u Hu). apply (G1 u Hu).
    + intros h k Hh. cbn in *. destruct (decide (h = t)) as [->|Hht]; [rewrite fset_eq|rewrite fset_ne by exact Hht]; apply (G2 _ _ Hh).
    + rewrite (count_ext N s s'); [exact G3|]. intros u. cbn. destruct (decide (u = t)) as [->|Hu]; [rewrite fset_eq|rewrite fset_ne by exact Hu]; reflexivity.
    + cbn. apply stdpp.list.Forall_app. split; [exact G4|]. apply stdpp.list.Forall_singleton. split; [reflexivity|]. split; [reflexivity|exact Hw].
    + exact G5.
  - intros _. unfold tinv, kinv. cbn. rewrite fset_eq. reflexivity.
Qed.

(** ** The upcalls *)
Lemma unsched_spec N ncpu s t k r : t < N -> ginv N ncpu t s -> t_cpu (g_thr s t) = true -> unsched s t k = r ->
  exists s', r = k (locks s t) s' /\ ginv N ncpu t s' /\ t_cpu (g_thr s' t) = false /\ t_call (g_thr s' t) = t_call (g_thr s t) /\ t_pc (g_thr s' t) = t_pc (g_thr s t) /\ locks s' t = 0 /\ g_bug s' = g_bug s.
Proof.
  intros HN [G1 G2 G3 G4 G5] Hcpu <-. unfold unsched. rewrite Hcpu. set (s' := St _ _ _ _ _ _ _ _). exists s'.
  assert (O : forall u, u <> t -> g_thr s' u = g_thr s u) by (intros u Hu; cbn; apply fset_ne, Hu).
  assert (L : forall u, u <> t -> locks s' u = locks s u).
  { intros u Hu. unfold locks. cbn. destruct (g_big s) as [[h l]|]; [|reflexivity]. destruct (Nat.eqb_spec h t) as [->|Hht]; [|reflexivity].
    destruct (Nat.eqb_spec t u); [congruence|reflexivity]. }
  split; [reflexivity|]. split; [|split; [cbn; rewrite fset_eq; reflexivity|split; [cbn; rewrite fset_eq; reflexivity|split; [cbn; rewrite fset_eq; reflexivity|split; [|reflexivity]]]]].
  - constructor.
    + intros u Hu. unfold tinv, kinv. rewrite (O u Hu), (L u Hu). apply (G1 u Hu).
    + intros h l Hh. cbn in Hh. destruct (g_big s) as [[h' l']|] eqn:Eb; [|discriminate Hh]. destruct (Nat.eqb_spec h' t) as [->|Hht]; [discriminate Hh|].
      injection Hh as -> ->. cbn. rewrite fset_ne by exact Hht. apply (G2 _ _ eq_refl).
    + assert (S (with_cpu s' N) = with_cpu s N); [|cbn [g_free s']; lia].
      apply (count_upd N s s' t HN); [|exact Hcpu|cbn; rewrite fset_eq; reflexivity]. intros u Hu. rewrite (O u Hu). reflexivity.
    + exact G4.
    + exact G5.
  - unfold locks. cbn. destruct (g_big s) as [[h l]|]; [|reflexivity]. destruct (Nat.eqb_spec h t) as [->|Hht]; [reflexivity|].
    destruct (Nat.eqb_spec h t); [congruence|reflexivity].
Qed.

Lemma nolocks N ncpu s t : ginv N ncpu t s -> t_cpu (g_thr s t) = false -> locks s t = 0.
Proof.
  intros G H. unfold locks. destruct (g_big s) as [[h l]|] eqn:E; [|reflexivity]. destruct (Nat.eqb_spec h t) as [->|]; [|reflexivity].
  destruct (i_big _ _ _ _ G _ _ E). congruence.
Qed.

Lemma sched_spec N ncpu s t n k r : t < N -> ginv N ncpu t s -> t_cpu (g_thr s t) = false -> sched s t n k = Some r ->
  exists s', k s' = Some r /\ ginv N ncpu t s' /\ t_cpu (g_thr s' t) = true /\ t_call (g_thr s' t) = t_call (g_thr s t) /\ t_pc (g_thr s' t) = t_pc (g_thr s t) /\ locks s' t = n /\ g_bug s' = g_bug s.
Proof.
  intros HN G Hcpu E. pose proof (nolocks _ _ _ _ G Hcpu) as L0. destruct G as [G1 G2 G3 G4 G5].
  unfold sched in E. rewrite Hcpu in E. destruct (g_free s) as [|f] eqn:Ef; [discriminate E|].
  assert (K : forall b, (b = g_big s /\ n = 0 \/ g_big s = None /\ b = Some (t, n) /\ 0 < n) ->
    let s' := St f b (fset (g_thr s) t (Thr (t_pc (g_thr s t)) true (t_rdy (g_thr s t)) (t_call (g_thr s t)))) (g_cnt s) (g_wait s) (g_cv s) (g_log s) (g_bug s) in
    ginv N ncpu t s' /\ t_cpu (g_thr s' t) = true /\ t_call (g_thr s' t) = t_call (g_thr s t) /\ t_pc (g_thr s' t) = t_pc (g_thr s t) /\ locks s' t = n /\ g_bug s' = g_bug s).
  { intros b Hb s'.
    assert (O : forall u, u <> t -> g_thr s' u = g_thr s u) by (intros u Hu; cbn; apply fset_ne, Hu).
    assert (L : forall u, u <> t -> locks s' u = locks s u).
    { intros u Hu. unfold locks. cbn. destruct Hb as [[-> _]|(-> & -> & _)]; [reflexivity|]. destruct (Nat.eqb_spec t u); [congruence|reflexivity]. }
    split; [|split; [cbn; rewrite fset_eq; reflexivity|split; [cbn; rewrite fset_eq; reflexivity|split; [cbn; rewrite fset_eq; reflexivity|split; [|reflexivity]]]]].
    - constructor.
      + intros u Hu. unfold tinv, kinv. rewrite (O u Hu), (L u Hu). apply (G1 u Hu).
      + intros h l Hh. cbn in Hh. destruct (decide (h = t)) as [->|Hht].
        * cbn. rewrite fset_eq. split; [reflexivity|]. destruct Hb as [[-> _]|(_ & -> & Hn)]; [apply (G2 _ _ Hh)|]. injection Hh as <-. exact Hn.
        * cbn. rewrite fset_ne by exact Hht. destruct Hb as [[-> _]|(_ & -> & _)]; [apply (G2 _ _ Hh)|]. injection Hh as -> _. congruence.
      + assert (S (with_cpu s N) = with_cpu s' N); [|cbn [g_free s']; lia].
        apply (count_upd N s' s t HN); [|cbn; rewrite fset_eq; reflexivity|exact Hcpu]. intros u Hu. rewrite (O u Hu). reflexivity.
      + exact G4.
      + exact G5.
    - unfold locks. cbn. destruct Hb as [[-> ->]|(_ & -> & _)]; [exact L0|]. rewrite Nat.eqb_refl. reflexivity. }
  destruct n as [|n].
  - eexists. split; [exact E|]. apply K. left. split; reflexivity.
  - destruct (g_big s) eqn:Eb; [discriminate E|]. eexists. split; [exact E|]. apply K. right. split; [reflexivity|]. split; [reflexivity|lia].
Qed.

(** ** The steps *)
Lemma kinv_keep_of_hold s t : kinv s t Khold -> kinv s t Kkeep.
Proof. intros [[c Hc] Hcpu]. exists c. rewrite Hcpu. split; [exact Hc|reflexivity]. Qed.

Lemma mexit_inv N ncpu s t m k (after : st -> st) : ginv N ncpu t s -> kinv s t (kd (X1 m k)) ->
  (forall s', ginv N ncpu t s' -> kinv s' t (kd (X1 m k)) -> inv N ncpu (after s')) -> inv N ncpu (mexit s t m k after).
Proof.
  intros G K H. unfold mexit. destruct (g_cnt s m) as [|[|n]].
  - apply (end_bug N ncpu s t); [exact G|discriminate].
  - apply H; [eapply core_ginv; [apply core_with_cnt|exact G]|eapply core_kinv; [apply (core_with_cnt s _ t)|exact K]].
  - apply end_set_pc; [eapply core_ginv; [apply core_with_cnt|exact G]|eapply core_kinv; [apply (core_with_cnt s _ t)|exact K]].
Qed.

Lemma start_inv fl N ncpu t c s : ginv N ncpu t s -> t_call (g_thr s t) = Some (c, locks s t, t_cpu (g_thr s t)) ->
  (wraps c = true -> t_cpu (g_thr s t) = true) -> inv N ncpu (start fl t c s).
Proof.
  intros G Hc Hw.
  assert (K : kinv s t Kkeep) by (exists c; split; assumption).
  assert (H : wraps c = true -> kinv s t Khold).
  { intros W. specialize (Hw W). split; [exists c; rewrite Hw in Hc; exact Hc|exact Hw]. }
  assert (KF : forall s', core s s' t -> forall ok, inv N ncpu (finish s' t ok)).
  { intros s' C ok. apply end_finish; [eapply core_ginv; eassumption|eapply core_kinv; eassumption]. }
  assert (KP : forall s' p, core s s' t -> kinv s t (kd p) -> inv N ncpu (set_pc s' t p)).
  { intros s' p C Kp. apply end_set_pc; [eapply core_ginv; eassumption|eapply core_kinv; eassumption]. }
  destruct c; cbn [start wraps] in *.
  - destruct (f_spin (fl m)); [apply end_set_pc; [exact G|exact K]|]. destruct (negb (f_km (fl m))); [apply (end_bug N ncpu s t); [exact G|discriminate]|].
    destruct (g_cnt s m); [apply KF, core_with_cnt|]. apply KP; [apply core_with_cnt|apply H; reflexivity].
  - apply end_set_pc; [exact G|exact K].
  - destruct (g_cnt s m); [apply KF, core_with_cnt|apply KF, core_refl].
  - apply mexit_inv; [exact G|exact K|]. intros s' G' K'. apply end_finish; assumption.
  - apply KP; [apply core_with_cv|apply H; reflexivity].
  - apply KP; [apply core_with_cv|exact K].
  - apply KP; [apply core_with_cv|apply H; reflexivity].
  - destruct (reverse (g_cv s c)); [apply KF, core_refl|]. apply KF. eapply core_trans; [apply core_with_cv|apply core_add_rdy].
  - apply KF. eapply core_trans; [apply core_with_cv|apply core_add_rdys].
  - apply end_set_pc; [exact G|apply H; reflexivity].
Qed.

Lemma woken_inv fl N ncpu t c m n k s : ginv N ncpu t s -> kinv s t (kd (W3 c m n k)) -> inv N ncpu (woken fl t c m n k s).
Proof.
  intros G K. destruct k; cbn [woken].
  - destruct (f_spin (fl m) && f_km (fl m)); [apply end_set_pc; [exact G|exact K]|].
    destruct (negb (f_spin (fl m)) && negb (f_km (fl m))); [apply (end_bug N ncpu s t); [exact G|discriminate]|apply end_set_pc; [exact G|exact K]].
  - destruct (f_spin (fl m) && f_km (fl m)); [apply end_set_pc; [exact G|exact K]|].
    destruct (negb (f_spin (fl m)) && negb (f_km (fl m))); [apply (end_bug N ncpu s t); [exact G|discriminate]|apply end_set_pc; [exact G|exact K]].
  - apply end_set_pc; [exact G|exact K].
Qed.

Lemma tinv_pc s t p : tinv s t -> t_pc (g_thr s t) = p -> kinv s t (kd p).
Proof. unfold tinv. intros H E. rewrite E in H. exact H. Qed.

Lemma step_inv fl N ncpu t a s s' : t < N -> inv N ncpu s -> vstep fl t a s = Some s' -> inv N ncpu s'.
Proof.
  intros HN I E. unfold vstep in E. destruct (g_bug s) eqn:B; [discriminate E|]. destruct (inv_at N ncpu s t I B) as [G T].
  assert (KF : forall s1, core s s1 t -> kinv s t Kkeep -> forall ok, inv N ncpu (finish s1 t ok)).
  { intros s1 C K ok. apply end_finish; [eapply core_ginv; eassumption|eapply core_kinv; eassumption]. }
  assert (KP : forall s1 p, core s s1 t -> kinv s t (kd p) -> inv N ncpu (set_pc s1 t p)).
  { intros s1 p C Kp. apply end_set_pc; [eapply core_ginv; eassumption|eapply core_kinv; eassumption]. }
  assert (KU : forall p (q : nat -> pcs), t_pc (g_thr s t) = p -> kd p = Khold -> (forall n, kd (q n) = Kgone n) ->
             unsched s t (fun n s => Some (set_pc s t (q n))) = Some s' -> inv N ncpu s').
  { intros p q Hp Hk Hq Eu. pose proof (tinv_pc s t p T Hp) as K. rewrite Hk in K. destruct K as [[c Hc] Hcpu].
    destruct (unsched_spec N ncpu s t _ _ HN G Hcpu Eu) as (s1 & E1 & G1 & C1 & C2 & _ & _ & _). injection E1 as ->.
    apply end_set_pc; [exact G1|]. rewrite Hq. split; [exists c; rewrite C2; exact Hc|exact C1]. }
  assert (KS : forall p n (f : st -> option st), t_pc (g_thr s t) = p -> kd p = Kgone n -> sched s t n f = Some s' ->
             (forall s1, ginv N ncpu t s1 -> kinv s1 t Khold -> f s1 = Some s' -> inv N ncpu s') -> inv N ncpu s').
  { intros p n f Hp Hk Eu Hf. pose proof (tinv_pc s t p T Hp) as K. rewrite Hk in K. destruct K as [[c Hc] Hcpu].
    destruct (sched_spec N ncpu s t n f s' HN G Hcpu Eu) as (s1 & E1 & G1 & C1 & C2 & _ & L & _).
    apply (Hf s1 G1); [|exact E1]. split; [exists c; rewrite C2, L; exact Hc|exact C1]. }
  destruct (t_pc (g_thr s t)) as [|m|m n|m n|m n|m k|m k|c m k|c m n k|c m n k|c m n|c n| |n|n] eqn:Ep; pose proof (tinv_pc s t _ T Ep) as K.
  - (* Run *) destruct a; try discriminate E.
    + destruct (wraps c && negb (t_cpu (g_thr s t))) eqn:Ew; [discriminate E|]. injection E as <-.
      set (s1 := with_thr s _). assert (O : forall u, u <> t -> g_thr s1 u = g_thr s u) by (intros u Hu; cbn; apply fset_ne, Hu).
      assert (Et : g_thr s1 t = Thr Run (t_cpu (g_thr s t)) (t_rdy (g_thr s t)) (Some (c, locks s t, t_cpu (g_thr s t)))) by (cbn; apply fset_eq).
      assert (Cp : forall u, t_cpu (g_thr s1 u) = t_cpu (g_thr s u)).
      { intros u. destruct (decide (u = t)) as [->|Hu]; [rewrite Et; reflexivity|rewrite O by exact Hu; reflexivity]. }
      apply start_inv.
      * destruct G as [G1 G2 G3 G4 G5]. constructor.
        -- intros u Hu. unfold tinv, kinv. rewrite (O u Hu). apply (G1 u Hu).
        -- intros h k Hh. rewrite Cp. apply (G2 _ _ Hh).
        -- rewrite (count_ext N s s1 Cp). exact G3.
        -- exact G4.
        -- exact G5.
      * rewrite Et. reflexivity.
      * rewrite Et. cbn [t_cpu]. intros W. rewrite W in Ew. destruct (t_cpu (g_thr s t)); [reflexivity|discriminate Ew].
    + destruct (t_cpu (g_thr s t)) eqn:Ec; [|discriminate E].
      assert (K2 : forall k, 0 < k -> (forall h l, g_big s = Some (h, l) -> h = t) ->
        inv N ncpu (St (g_free s) (Some (t, k)) (g_thr s) (g_cnt s) (g_wait s) (g_cv s) (g_log s) None)).
      { intros k Hk Hb. exists t. set (s1 := St _ _ _ _ _ _ _ _).
        assert (L : forall u, u <> t -> locks s1 u = locks s u).
        { intros u Hu. unfold locks. cbn. destruct (Nat.eqb_spec t u); [congruence|]. destruct (g_big s) as [[h l]|]; [|reflexivity].
          destruct (Nat.eqb_spec h u) as [->|]; [|reflexivity]. rewrite (Hb _ _ eq_refl) in Hu. congruence. }
        destruct G as [G1 G2 G3 G4 G5]. split.
        - constructor; [|intros h l [= <- <-]; split; [exact Ec|exact Hk]|exact G3|exact G4|cbn; discriminate].
          intros u Hu. pose proof (G1 u Hu) as X. unfold tinv, kinv in *. cbn [g_thr s1]. rewrite (L u Hu). exact X.
        - intros _. unfold tinv. cbn [g_thr s1]. rewrite Ep. exact K. }
      destruct (g_big s) as [[h k]|] eqn:Eb.
      * destruct (Nat.eqb_spec h t) as [->|]; [|discriminate E]. injection E as <-. apply K2; [lia|]. intros ? ? [= -> _]. reflexivity.
      * injection E as <-. apply K2; [lia|]. intros ? ? X. discriminate X.
    + destruct (g_big s) as [[h k]|] eqn:Eb; [|discriminate E]. destruct (Nat.eqb_spec h t) as [->|]; [|discriminate E]. injection E as <-.
      exists t. set (s1 := St _ _ _ _ _ _ _ _).
      assert (L : forall u, u <> t -> locks s1 u = locks s u).
      { intros u Hu. unfold locks. cbn [g_big s1]. rewrite Eb. destruct (Nat.eqb_spec t u); [congruence|].
        destruct k as [|[|k]]; [reflexivity|reflexivity|]. destruct (Nat.eqb_spec t u); [congruence|reflexivity]. }
      destruct G as [G1 G2 G3 G4 G5]. split.
      * constructor; [| |exact G3|exact G4|cbn; discriminate].
        -- intros u Hu. pose proof (G1 u Hu) as X. unfold tinv, kinv in *. cbn [g_thr s1]. rewrite (L u Hu). exact X.
        -- intros h l Hh. cbn [g_big s1] in Hh. destruct k as [|[|k]]; [discriminate Hh|discriminate Hh|]. injection Hh as <- <-.
           split; [apply (G2 _ _ Eb)|lia].
      * intros _. unfold tinv. cbn [g_thr s1]. rewrite Ep. exact K.
    + destruct (t_cpu (g_thr s t)) eqn:Ec; [discriminate E|].
      destruct (sched_spec N ncpu s t 0 Some s' HN G Ec E) as (s1 & [= ->] & G1 & _ & C2 & C3 & _). exists t. split; [exact G1|].
      intros _. unfold tinv. rewrite C3, Ep. cbn. rewrite C2. exact K.
    + destruct (t_cpu (g_thr s t)) eqn:Ec; [|discriminate E]. destruct (locks s t); [|discriminate E].
      destruct (unsched_spec N ncpu s t _ _ HN G Ec E) as (s1 & [= ->] & G1 & _ & C2 & C3 & _). exists t. split; [exact G1|].
      intros _. unfold tinv. rewrite C3, Ep. cbn. rewrite C2. exact K.
  - destruct a; try discriminate E. exact (KU (E1 m) (fun n => E2 m n) eq_refl eq_refl (fun n => eq_refl) E).
  - destruct a; try discriminate E. injection E as <-. apply KP; [apply core_with_wait|exact K].
  - destruct a; try discriminate E. destruct (t_rdy (g_thr s t)); [discriminate E|]. injection E as <-. apply KP; [apply core_sub_rdy|exact K].
  - destruct a; try discriminate E. eapply (KS (E4 m n) n); [reflexivity|reflexivity|exact E|]. intros s1 G1 H1 [= <-]. apply end_finish; [exact G1|apply kinv_keep_of_hold, H1].
  - destruct a; try discriminate E. destruct (g_cnt s m); [|injection E as <-; exact I]. injection E as <-. destruct k as [|c|c n].
    + apply KF; [apply core_with_cnt|exact K].
    + apply KF; [eapply core_trans; [apply core_with_cnt|apply core_with_cv]|exact K].
    + apply KP; [apply core_with_cnt|exact K].
  - destruct a; try discriminate E. destruct (g_wait s m) as [|w l]; [injection E as <-; exact I|]. injection E as <-.
    assert (C : core s (add_rdy (with_wait s (fset (g_wait s) m l)) w) t) by (eapply core_trans; [apply core_with_wait|apply core_add_rdy]).
    destruct k as [|c n k]; [apply KF; [exact C|exact K]|apply KP; [exact C|exact K]].
  - destruct a; try discriminate E. destruct k; [| |destruct K].
    + exact (KU (W1 c m WWrap) (fun n => W2 c m n WWrap) eq_refl eq_refl (fun n => eq_refl) E).
    + exact (KU (W1 c m WTimed) (fun n => W2 c m n WTimed) eq_refl eq_refl (fun n => eq_refl) E).
  - destruct a; try discriminate E. injection E as <-. apply mexit_inv; [exact G|exact K|]. intros s1 G1 K1. apply end_set_pc; [exact G1|exact K1].
  - destruct a; try discriminate E; try (destruct k; discriminate E).
    + assert (Go : forall k', k' = k -> inv N ncpu (woken fl t c m n k' (sub_rdy s t))).
      { intros k' ->. apply woken_inv; [eapply core_ginv; [apply core_sub_rdy|exact G]|eapply core_kinv; [apply (core_sub_rdy s t t)|exact K]]. }
      destruct k, (t_rdy (g_thr s t)); try discriminate E; injection E as <-; exact (Go _ eq_refl).
    + destruct k; try discriminate E. injection E as <-. exact (woken_inv fl N ncpu t c m n WTimed s G K).
  - destruct a; try discriminate E. eapply (KS (W4 c m n) n); [reflexivity|reflexivity|exact E|]. intros s1 G1 H1 [= <-]. apply end_set_pc; [exact G1|apply kinv_keep_of_hold, H1].
  - destruct a; try discriminate E. eapply (KS (W6 c n) n); [reflexivity|reflexivity|exact E|]. intros s1 G1 H1 [= <-].
    apply end_finish; [eapply core_ginv; [apply core_with_cv|exact G1]|eapply core_kinv; [apply (core_with_cv s1 _ t)|apply kinv_keep_of_hold, H1]].
  - destruct a; try discriminate E. exact (KU S1 (fun n => S2 n) eq_refl eq_refl (fun n => eq_refl) E).
  - destruct a; try discriminate E. injection E as <-. apply KP; [apply core_refl|exact K].
  - destruct a; try discriminate E. eapply (KS (S3 n) n); [reflexivity|reflexivity|exact E|]. intros s1 G1 H1 [= <-]. apply end_finish; [exact G1|apply kinv_keep_of_hold, H1].
Qed.

Lemma run_inv fl N ncpu l : forall s s', Forall (fun x => x.1 < N) l -> inv N ncpu s -> vrun fl l s = Some s' -> inv N ncpu s'.
Proof.
  induction l as [|[t a] l IH]; intros s s' HN I E; cbn [vrun] in E; [injection E as <-; exact I|].
  apply stdpp.list.Forall_cons in HN as [Ht HN]. destruct (vstep fl t a s) as [s1|] eqn:Es; [|discriminate E].
  eapply IH; [exact HN| |exact E]. eapply step_inv; eassumption.
Qed.

Lemma init_inv N ncpu : inv N ncpu (st0 ncpu).
Proof.
  exists 0. split; [|intros _; reflexivity]. constructor.
  - intros u _. reflexivity.
  - intros h k [=].
  - unfold with_cpu. cbn. assert (K : forall l : list nat, filter (fun _ => false = true) l = []).
    { induction l; [reflexivity|]. rewrite filter_cons_False by discriminate. assumption. }
    rewrite K. reflexivity.
  - constructor.
  - cbn. discriminate.
Qed.

(** ** Which call a thread is in *)
Definition pcok (fl : nat -> flags) (x : thr) : Prop :=
  match t_pc x with
  | N1 m NRet => exists n b, t_call x = Some (CEnterNowrap m, n, b) \/ t_call x = Some (CEnter m, n, b) /\ f_spin (fl m) = true
  | N1 m (NCv c) => (exists n b, t_call x = Some (CWaitNowrap c m, n, b)) \/ f_spin (fl m) = true
  | W2 c m _ WNowrap | W3 c m _ WNowrap | X1 m (XBlock c _ WNowrap) => exists n b, t_call x = Some (CWaitNowrap c m, n, b)
  | X1 m XRet => exists n b, t_call x = Some (CExit m, n, b)
  | W4 c m _ => f_spin (fl m) = true
  | _ => True
  end.
Definition pinv (fl : nat -> flags) (s : st) : Prop := g_bug s = None -> forall t, pcok fl (g_thr s t).

Lemma pcok_rdy fl p c r cl r' : pcok fl (Thr p c r cl) -> pcok fl (Thr p c r' cl).
Proof. exact (fun x => x). Qed.
Lemma pcok_cpu fl p c r cl c' r' : pcok fl (Thr p c r cl) -> pcok fl (Thr p c' r' cl).
Proof. exact (fun x => x). Qed.

(** All threads but [t] are fine. *)
Definition poth (fl : nat -> flags) (t : nat) (s : st) : Prop := forall u, u <> t -> pcok fl (g_thr s u).
Lemma poth_upd fl t s s' : poth fl t s -> (forall u, u <> t -> t_pc (g_thr s' u) = t_pc (g_thr s u) /\ t_call (g_thr s' u) = t_call (g_thr s u)) -> poth fl t s'.
Proof. intros P H u Hu. specialize (P u Hu). unfold pcok in *. destruct (H u Hu) as [-> ->]. exact P. Qed.
Lemma poth_core fl t s s' : poth fl t s -> core s s' t -> poth fl t s'.
Proof. intros P (_ & _ & _ & _ & C & D). eapply poth_upd; [exact P|]. intros u Hu. split; [apply D, Hu|apply C]. Qed.
Lemma core_call s s' t : core s s' t -> t_call (g_thr s' t) = t_call (g_thr s t).
Proof. intros (_ & _ & _ & _ & C & _). apply C. Qed.

Lemma p_set_pc fl t s p : poth fl t s -> pcok fl (Thr p true 0 (t_call (g_thr s t))) -> pinv fl (set_pc s t p).
Proof.
  intros P H _ u. destruct (decide (u = t)) as [->|Hu].
  - cbn. rewrite fset_eq. exact H.
  - cbn. rewrite fset_ne by exact Hu. apply P, Hu.
Qed.
Lemma p_finish fl t s ok : poth fl t s -> t_call (g_thr s t) <> None -> pinv fl (finish s t ok).
Proof.
  intros P H _ u. unfold finish. destruct (t_call (g_thr s t)) as [[[c n] b]|]; [|congruence]. cbn [g_thr].
  destruct (decide (u = t)) as [->|Hu]; [rewrite fset_eq; exact Logic.I|rewrite fset_ne by exact Hu; apply P, Hu].
Qed.
Lemma p_bug fl s b : pinv fl (with_bug s b).
Proof. intros X. discriminate X. Qed.

Lemma p_mexit fl t s m k after : poth fl t s -> pcok fl (Thr (X1 m k) true 0 (t_call (g_thr s t))) ->
  (forall s', poth fl t s' -> t_call (g_thr s' t) = t_call (g_thr s t) -> pinv fl (after s')) -> pinv fl (mexit s t m k after).
Proof.
  intros P H A. unfold mexit. destruct (g_cnt s m) as [|[|n]]; [apply p_bug|apply A; [exact P|reflexivity]|].
  apply p_set_pc; [exact P|exact H].
Qed.

Lemma p_start fl t c s : poth fl t s -> (exists n b, t_call (g_thr s t) = Some (c, n, b)) -> pinv fl (start fl t c s).
Proof.
  intros P (n & b & Hc).
  assert (KF : forall s', core s s' t -> forall ok, pinv fl (finish s' t ok)).
  { intros s' C ok. apply p_finish; [eapply poth_core; eassumption|]. rewrite (core_call _ _ _ C), Hc. discriminate. }
  assert (KP : forall s' p, core s s' t -> pcok fl (Thr p true 0 (Some (c, n, b))) -> pinv fl (set_pc s' t p)).
  { intros s' p C H. apply p_set_pc; [eapply poth_core; eassumption|]. rewrite (core_call _ _ _ C), Hc. exact H. }
  destruct c; cbn [start].
  - destruct (f_spin (fl m)) eqn:Es; [apply KP; [apply core_refl|]; exists n, b; right; split; [reflexivity|exact Es]|].
    destruct (negb (f_km (fl m))); [apply p_bug|]. destruct (g_cnt s m); [apply KF, core_with_cnt|apply KP; [apply core_with_cnt|exact Logic.I]].
  - apply KP; [apply core_refl|]. exists n, b. left. reflexivity.
  - destruct (g_cnt s m); [apply KF, core_with_cnt|apply KF, core_refl].
  - apply p_mexit; [exact P|rewrite Hc; exists n, b; reflexivity|]. intros s' P' C'. apply p_finish; [exact P'|]. rewrite C', Hc. discriminate.
  - apply KP; [apply core_with_cv|exact Logic.I].
  - apply KP; [apply core_with_cv|]. exists n, b. reflexivity.
  - apply KP; [apply core_with_cv|exact Logic.I].
  - destruct (reverse (g_cv s c)); [apply KF, core_refl|]. apply KF. eapply core_trans; [apply core_with_cv|apply core_add_rdy].
  - apply KF. eapply core_trans; [apply core_with_cv|apply core_add_rdys].
  - apply KP; [apply core_refl|exact Logic.I].
Qed.

Lemma p_woken fl t c m n k s : poth fl t s -> pcok fl (Thr (W3 c m n k) true 0 (t_call (g_thr s t))) -> pinv fl (woken fl t c m n k s).
Proof.
  intros P H. destruct k; cbn [woken].
  1, 2: destruct (f_spin (fl m) && f_km (fl m)) eqn:Es; [apply p_set_pc; [exact P|]; apply andb_true_iff in Es as [Es _]; exact Es|];
    destruct (negb (f_spin (fl m)) && negb (f_km (fl m))); [apply p_bug|apply p_set_pc; [exact P|exact Logic.I]].
  apply p_set_pc; [exact P|]. left. exact H.
Qed.

Lemma p_unsched fl t s k s' : poth fl t s -> t_cpu (g_thr s t) = true -> unsched s t k = Some s' ->
  exists s1 n, k n s1 = Some s' /\ poth fl t s1 /\ t_call (g_thr s1 t) = t_call (g_thr s t) /\ t_pc (g_thr s1 t) = t_pc (g_thr s t).
Proof.
  intros P Hc E. unfold unsched in E. rewrite Hc in E. eexists _, _. split; [exact E|]. split; [|cbn; rewrite fset_eq; split; reflexivity].
  eapply poth_upd; [exact P|]. intros u Hu. cbn. rewrite fset_ne by exact Hu. split; reflexivity.
Qed.
Lemma p_sched fl t s n k s' : poth fl t s -> t_cpu (g_thr s t) = false -> sched s t n k = Some s' ->
  exists s1, k s1 = Some s' /\ poth fl t s1 /\ t_call (g_thr s1 t) = t_call (g_thr s t) /\ t_pc (g_thr s1 t) = t_pc (g_thr s t).
Proof.
  intros P Hc E. unfold sched in E. rewrite Hc in E. destruct (g_free s); [discriminate E|].
  assert (K : forall b f, let s1 := St f b (fset (g_thr s) t (Thr (t_pc (g_thr s t)) true (t_rdy (g_thr s t)) (t_call (g_thr s t)))) (g_cnt s) (g_wait s) (g_cv s) (g_log s) (g_bug s) in
    poth fl t s1 /\ t_call (g_thr s1 t) = t_call (g_thr s t) /\ t_pc (g_thr s1 t) = t_pc (g_thr s t)).
  { intros b f s1. split; [|cbn; rewrite fset_eq; split; reflexivity].
    eapply poth_upd; [exact P|]. intros u Hu. cbn. rewrite fset_ne by exact Hu. split; reflexivity. }
  destruct n; [eexists; split; [exact E|apply K]|]. destruct (g_big s); [discriminate E|]. eexists; split; [exact E|apply K].
Qed.

Lemma p_step fl N ncpu t a s s' : inv N ncpu s -> pinv fl s -> vstep fl t a s = Some s' -> pinv fl s'.
Proof.
  intros I Pi E. unfold vstep in E. destruct (g_bug s) eqn:B; [discriminate E|]. destruct (inv_at N ncpu s t I B) as [G T].
  specialize (Pi B). assert (P : poth fl t s) by (intros u _; apply Pi). pose proof (Pi t) as Pt.
  assert (Call : kinv s t Khold \/ (exists n, kinv s t (Kgone n)) \/ kinv s t Kkeep -> t_call (g_thr s t) <> None).
  { intros [[[c H] _]|[[n [[c H] _]]|(c & H & _)]]; rewrite H; discriminate. }
  assert (KF : forall s1, core s s1 t -> t_call (g_thr s t) <> None -> forall ok, pinv fl (finish s1 t ok)).
  { intros s1 C Hc ok. apply p_finish; [eapply poth_core; eassumption|]. rewrite (core_call _ _ _ C). exact Hc. }
  assert (KP : forall s1 p, core s s1 t -> pcok fl (Thr p true 0 (t_call (g_thr s t))) -> pinv fl (set_pc s1 t p)).
  { intros s1 p C H. apply p_set_pc; [eapply poth_core; eassumption|]. rewrite (core_call _ _ _ C). exact H. }
  unfold pcok in Pt.
  destruct (t_pc (g_thr s t)) as [|m|m n|m n|m n|m k|m k|c m k|c m n k|c m n k|c m n|c n| |n|n] eqn:Ep; pose proof (tinv_pc s t _ T Ep) as K.
  - destruct a; try discriminate E.
    + destruct (wraps c && negb (t_cpu (g_thr s t))); [discriminate E|]. injection E as <-. apply p_start.
      * eapply poth_upd; [exact P|]. intros u Hu. cbn. rewrite fset_ne by exact Hu. split; reflexivity.
      * cbn. rewrite fset_eq. cbn. eauto.
    + destruct (t_cpu (g_thr s t)); [|discriminate E]. destruct (g_big s) as [[h k]|]; [destruct (Nat.eqb h t); [|discriminate E]|]; injection E as <-; intros _ u; apply Pi.
    + destruct (g_big s) as [[h k]|]; [|discriminate E]. destruct (Nat.eqb h t); [|discriminate E]. injection E as <-. intros _ u. apply Pi.
    + destruct (t_cpu (g_thr s t)) eqn:Ec; [discriminate E|]. destruct (p_sched fl t s 0 Some s' P Ec E) as (s1 & [= ->] & P1 & C1 & C2).
      intros _ u. destruct (decide (u = t)) as [->|Hu]; [|apply P1, Hu]. unfold pcok. rewrite C2, Ep. exact Logic.I.
    + destruct (t_cpu (g_thr s t)) eqn:Ec; [|discriminate E]. destruct (locks s t); [|discriminate E].
      destruct (p_unsched fl t s _ s' P Ec E) as (s1 & n1 & [= ->] & P1 & C1 & C2).
      intros _ u. destruct (decide (u = t)) as [->|Hu]; [|apply P1, Hu]. unfold pcok. rewrite C2, Ep. exact Logic.I.
  - destruct a; try discriminate E. destruct K as [_ Kc]. destruct (p_unsched fl t s _ s' P Kc E) as (s1 & n1 & [= <-] & P1 & C1 & C2). apply p_set_pc; [exact P1|exact Logic.I].
  - destruct a; try discriminate E. injection E as <-. apply KP; [apply core_with_wait|exact Logic.I].
  - destruct a; try discriminate E. destruct (t_rdy (g_thr s t)); [discriminate E|]. injection E as <-. apply KP; [apply core_sub_rdy|exact Logic.I].
  - destruct a; try discriminate E. destruct K as [[c Kk] Kc]. destruct (p_sched fl t s _ _ s' P Kc E) as (s1 & [= <-] & P1 & C1 & C2). apply p_finish; [exact P1|rewrite C1, Kk; discriminate].
  - destruct a; try discriminate E. destruct (g_cnt s m); [|injection E as <-; intros _; exact Pi]. injection E as <-. destruct k as [|c|c n].
    + apply KF; [apply core_with_cnt|apply Call; right; right; exact K].
    + apply KF; [eapply core_trans; [apply core_with_cnt|apply core_with_cv]|apply Call; right; right; exact K].
    + apply KP; [apply core_with_cnt|exact Logic.I].
  - destruct a; try discriminate E. destruct (g_wait s m) as [|w l]; [injection E as <-; intros _; exact Pi|]. injection E as <-.
    assert (C : core s (add_rdy (with_wait s (fset (g_wait s) m l)) w) t) by (eapply core_trans; [apply core_with_wait|apply core_add_rdy]).
    destruct k as [|c n k]; [apply KF; [exact C|apply Call; right; right; exact K]|apply KP; [exact C|]]. destruct k; first [exact Logic.I|exact Pt].
  - destruct a; try discriminate E. destruct k; [| |destruct K]; destruct K as [_ Kc];
      destruct (p_unsched fl t s _ s' P Kc E) as (s1 & n1 & [= <-] & P1 & C1 & C2); apply p_set_pc; [exact P1|exact Logic.I|exact P1|exact Logic.I].
  - destruct a; try discriminate E. injection E as <-. apply p_mexit; [exact P|exact Pt|]. intros s1 P1 C1. apply p_set_pc; [exact P1|]. rewrite C1. exact Pt.
  - destruct a; try discriminate E; try (destruct k; discriminate E).
    + assert (Go : pinv fl (woken fl t c m n k (sub_rdy s t))).
      { apply p_woken; [eapply poth_core; [exact P|apply core_sub_rdy]|]. rewrite (core_call _ _ _ (core_sub_rdy s t t)). exact Pt. }
      destruct k, (t_rdy (g_thr s t)); try discriminate E; injection E as <-; exact Go.
    + destruct k; try discriminate E. injection E as <-. exact (p_woken fl t c m n WTimed s P Pt).
  - destruct a; try discriminate E. destruct K as [[c' Kk] Kc]. destruct (p_sched fl t s _ _ s' P Kc E) as (s1 & [= <-] & P1 & C1 & C2). apply p_set_pc; [exact P1|]. right. exact Pt.
  - destruct a; try discriminate E. destruct K as [[c' Kk] Kc]. destruct (p_sched fl t s _ _ s' P Kc E) as (s1 & [= <-] & P1 & C1 & C2).
    apply p_finish; [exact P1|]. cbn. rewrite C1, Kk. discriminate.
  - destruct a; try discriminate E. destruct K as [_ Kc]. destruct (p_unsched fl t s _ s' P Kc E) as (s1 & n1 & [= <-] & P1 & C1 & C2). apply p_set_pc; [exact P1|exact Logic.I].
  - destruct a; try discriminate E. injection E as <-. apply KP; [apply core_refl|exact Logic.I].
  - destruct a; try discriminate E. destruct K as [[c Kk] Kc]. destruct (p_sched fl t s _ _ s' P Kc E) as (s1 & [= <-] & P1 & C1 & C2). apply p_finish; [exact P1|rewrite C1, Kk; discriminate].
Qed.

Lemma p_run fl N ncpu l : forall s s', Forall (fun x => x.1 < N) l -> inv N ncpu s -> pinv fl s -> vrun fl l s = Some s' -> inv N ncpu s' /\ pinv fl s'.
Proof.
  induction l as [|[t a] l IH]; intros s s' HN I P E; cbn [vrun] in E; [injection E as <-; split; assumption|].
  apply stdpp.list.Forall_cons in HN as [Ht HN]. destruct (vstep fl t a s) as [s1|] eqn:Es; [|discriminate E].
  eapply IH; [exact HN| | |exact E]; [eapply step_inv; eassumption|eapply p_step; eassumption].
Qed.

Lemma enabled_unsched fl s t k (q : nat -> pcs) : g_bug s = None -> t_pc (g_thr s t) = k -> (forall n, q n <> k) ->
  vstep fl t Go s = unsched s t (fun n s => Some (set_pc s t (q n))) -> t_cpu (g_thr s t) = true -> enabled fl s t.
Proof.
  intros B Ep Hq Ev Hc. eexists. split; [rewrite Ev; unfold unsched; rewrite Hc; reflexivity|]. cbn. rewrite !fset_eq. intros X.
  pose proof (f_equal t_pc X) as X2. cbn in X2. eapply Hq. rewrite X2. exact Ep.
Qed.

(** ** Every thread that has a virtual CPU can go on. *)
Lemma hold_enabled fl N ncpu s t : inv N ncpu s -> pinv fl s -> g_bug s = None -> (forall m, f_spin (fl m) = false) ->
  t_cpu (g_thr s t) = true ->
  (forall c m n b, t_call (g_thr s t) <> Some (CEnterNowrap m, n, b) /\ t_call (g_thr s t) <> Some (CWaitNowrap c m, n, b)) ->
  t_pc (g_thr s t) = Run \/ enabled fl s t \/ exists m n b, t_call (g_thr s t) = Some (CExit m, n, b).
Proof.
  intros I Pi B Hs Hcpu Hn. destruct (inv_at N ncpu s t I B) as [G T]. pose proof (Pi B t) as Pt. unfold pcok in Pt.
  assert (Ev : forall p, t_pc (g_thr s t) = p -> match p with E1 _ | W1 _ _ _ | S1 => kd p = Khold -> enabled fl s t | _ => True end).
  { intros p Ep. destruct p; try exact Logic.I; intros _.
    - apply (enabled_unsched fl s t (E1 m) (fun n => E2 m n)); [exact B|exact Ep|discriminate|unfold vstep; rewrite B, Ep; reflexivity|exact Hcpu].
    - apply (enabled_unsched fl s t (W1 c m k) (fun n => W2 c m n k)); [exact B|exact Ep|discriminate|unfold vstep; rewrite B, Ep; reflexivity|exact Hcpu].
    - apply (enabled_unsched fl s t S1 (fun n => S2 n)); [exact B|exact Ep|discriminate|unfold vstep; rewrite B, Ep; reflexivity|exact Hcpu]. }
  pose proof (Ev _ eq_refl) as Ev'. clear Ev.
  assert (K : kinv s t (kd (t_pc (g_thr s t)))) by exact T.
  destruct (t_pc (g_thr s t)) as [|m|m n|m n|m n|m k|m k|c m k|c m n k|c m n k|c m n|c n| |n|n] eqn:Ep; cbn [kd] in K;
    try (destruct K as [_ K]; rewrite Hcpu in K; discriminate K).
  - left. reflexivity.
  - right. left. apply Ev'. reflexivity.
  - destruct k as [|c|c n]; [| |destruct K as [_ K]; rewrite Hcpu in K; discriminate K].
    + destruct Pt as (n & b & [Pt|[_ Pt]]); [destruct (Hn 0 m n b) as [X _]; congruence|rewrite Hs in Pt; discriminate Pt].
    + destruct Pt as [(n & b & Pt)|Pt]; [destruct (Hn c m n b) as [_ X]; congruence|rewrite Hs in Pt; discriminate Pt].
  - destruct k as [|c n k]; [right; right; eauto|]. destruct k; try (destruct K as [_ K]; rewrite Hcpu in K; discriminate K).
    destruct Pt as (n' & b & Pt). destruct (Hn c m n' b) as [_ X]. congruence.
  - right. left. apply Ev'. destruct k; [reflexivity|reflexivity|destruct K].
  - destruct k; try (destruct K as [_ K]; rewrite Hcpu in K; discriminate K). destruct Pt as (n' & b & Pt). destruct (Hn c m n' b) as [_ X]. congruence.
  - destruct k; try (destruct K as [_ K]; rewrite Hcpu in K; discriminate K). destruct Pt as (n' & b & Pt). destruct (Hn c m n' b) as [_ X]. congruence.
  - right. left. apply Ev'. reflexivity.
Qed.
