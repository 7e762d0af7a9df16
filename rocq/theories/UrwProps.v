(** C35: the user-level reader-writer lock. *)
From Verif Require Import Base CntLib UrwModel UrwProofs.

(** ** Specification *)

Definition at_u (s : ust) (i : nat) (p : upc) : Prop := u_th s !! i = Some p.
(** Thread [i] holds the lock for reading or writing. *)
Definition reads (s : ust) (i : nat) : Prop := at_u s i UR.
Definition writes (s : ust) (i : nat) : Prop := at_u s i UW.
(** It is in a downgrade or a try_upgrade that has not returned yet. *)
Definition downgrading (s : ust) (i : nat) : Prop := at_u s i UD0 \/ at_u s i UD1 \/ at_u s i UD2.
Definition upgrading (s : ust) (i : nat) : Prop := at_u s i UU0 \/ at_u s i UU1.

Lemma u_run_inv s l s' : uinv s -> u_run s l = Some s' -> uinv s'.
Proof.
  revert s. induction l as [|[i a] l IH]; intros s I E; simpl in E; [by injection E as <-|].
  destruct (u_step s i a) as [s1|] eqn:E1; [|done]. eapply IH; [|done]. by eapply uinv_step.
Qed.
Lemma u_reach n l s : u_run (u_init n) l = Some s -> uinv s.
Proof. apply u_run_inv, uinv_init. Qed.

(** For every number of threads and every interleaving of enter, try_enter, exit, downgrade
    and try_upgrade: while a thread holds the lock for writing, no other thread holds it,
    nor is any other thread in the middle of a downgrade (so no writer gets in between) or
    of an upgrade. *)
Theorem C35_exclusion n l s i j :
  u_run (u_init n) l = Some s -> writes s i -> i <> j ->
  ~ writes s j /\ ~ reads s j /\ ~ downgrading s j /\ ~ upgrading s j.
Proof.
  intros E Hi Hn. pose proof (u_reach _ _ _ E) as I. unfold writes, at_u in Hi.
  pose proof (cnt_pos om _ _ _ Hi eq_refl) as O. pose proof (ui_one _ I) as O1. pose proof (ui_om _ I O) as R.
  assert (X : forall p, u_th s !! j = Some p -> om p = false /\ rho p = false /\ del p = false).
  { intros p Hj. split_and!.
    - destruct (om p) eqn:Ep; [|done]. pose proof (cnt_two om _ _ _ _ _ Hi Hj Hn eq_refl Ep). lia.
    - destruct (rho p) eqn:Ep; [|done]. pose proof (cnt_pos rho _ _ _ Hj Ep). lia.
    - destruct (del p) eqn:Ep; [|done]. pose proof (cnt_pos del _ _ _ Hj Ep). lia. }
  unfold writes, reads, downgrading, upgrading, at_u.
  split_and!; [| |intros [H|[H|H]]|intros [H|H]]; try intros H; apply X in H; simpl in H; intuition done.
Qed.

(** try_upgrade succeeds exactly if the caller is the only reader: whenever its one decisive
    step fails, another thread holds the lock for reading, or has announced itself as a
    reader in an enter, try_enter, downgrade, exit or try_upgrade that is still running. *)
Theorem C35_upgrade_fails_only_if_shared n l s s' i :
  u_run (u_init n) l = Some s -> at_u s i UU0 -> u_step s i UGo = Some s' ->
  (at_u s' i UU1 /\ (forall j, j <> i -> ~ reads s j /\ ~ writes s j)) \/
  (at_u s' i UR /\ exists j p, j <> i /\ at_u s j p /\
     (p = UR \/ p = UER2 \/ p = UER3 \/ p = UER4 \/ p = UTR4 \/ p = UTR5 \/ p = UX0 false \/
      p = UX1 \/ p = UU0 \/ p = UD2)).
Proof.
  intros E Hi St. pose proof (u_reach _ _ _ E) as I. unfold at_u in *.
  pose proof (cnt_pos rho _ _ _ Hi eq_refl) as R. pose proof (ui_rd _ I) as RD.
  assert (Hl : i < length (u_th s)) by (by eapply lookup_lt_Some).
  assert (O : cnt om (u_th s) = 0).
  { destruct (cnt om (u_th s)) eqn:Eo; [done|]. pose proof (ui_om _ I ltac:(lia)). lia. }
  unfold u_step in St. rewrite Hi in St. destruct s as [w ac ow rd lt th]. cbn [u_exec] in St.
  cbn [u_wait u_acc u_own u_rd u_lt u_th] in *. destruct (decide (rd = 1%Z)) as [E1|E1]; injection St as <-.
  - left. cbn [u_th]. split; [by apply list_lookup_insert|]. intros j Hj. unfold reads, writes, at_u. cbn [u_th]. split; intros H.
    + pose proof (cnt_two rho _ _ _ _ _ Hi H ltac:(congruence) eq_refl eq_refl). lia.
    + pose proof (cnt_pos om _ _ _ H eq_refl). lia.
  - right. cbn [u_th]. split; [by apply list_lookup_insert|].
    assert (D : 1 < cnt rho th + cnt sig th + cnt del th) by lia.
    pose proof (cnt_insert rho th i UU0 UIdle Hi) as C1. pose proof (cnt_insert sig th i UU0 UIdle Hi) as C2.
    pose proof (cnt_insert del th i UU0 UIdle Hi) as C3. simpl in C1, C2, C3.
    assert (X : exists j p, <[i := UIdle]> th !! j = Some p /\ (rho p || sig p || del p) = true).
    { destruct (cnt rho (<[i:=UIdle]> th)) eqn:E2.
      2: { destruct (cnt_ex rho (<[i:=UIdle]> th) ltac:(lia)) as (j & p & Hj & Hp). exists j, p. by rewrite Hp. }
      destruct (cnt sig (<[i:=UIdle]> th)) eqn:E3.
      2: { destruct (cnt_ex sig (<[i:=UIdle]> th) ltac:(lia)) as (j & p & Hj & Hp). exists j, p. by rewrite Hp, orb_true_r. }
      destruct (cnt_ex del (<[i:=UIdle]> th) ltac:(lia)) as (j & p & Hj & Hp). exists j, p. by rewrite Hp, orb_true_r. }
    destruct X as (j & p & Hj & Hp). exists j, p. destruct (decide (j = i)) as [->|Hne].
    { rewrite list_lookup_insert in Hj by done. injection Hj as <-. done. }
    rewrite list_lookup_insert_ne in Hj by done. split; [done|]. split; [done|].
    destruct p; try match goal with b : bool |- _ => destruct b end; simpl in Hp; try discriminate Hp; tauto.
Qed.

(** exit releases what the caller holds: a writer's exit and the last reader's exit free
    [access]; no exit of another reader does.  And the inner mutexes are never exited when
    they are not held.  The only panic an operation can run into is the assertion of
    try_enter (below). *)
Theorem C35_no_panic n l s i :
  u_run (u_init n) l = Some s -> ~ at_u s i UPanic.
Proof.
  intros E. assert (G : forall l s s', uinv s -> (forall j, ~ at_u s j UPanic) -> u_run s l = Some s' ->
                         forall j, ~ at_u s' j UPanic).
  2: { eapply G; [apply uinv_init| |done]. intros j Hj. unfold at_u in Hj. simpl in Hj.
       apply lookup_replicate in Hj as [Hj _]. done. }
  clear. induction l as [|[k a] l IH]; intros s s' I P E; simpl in E; [by injection E as <-|].
  destruct (u_step s k a) as [s1|] eqn:E1; [|done]. eapply IH; [by eapply uinv_step| |done].
  intros j Hj. unfold at_u in *. unfold u_step in E1. destruct (u_th s !! k) as [pc|] eqn:Ek; [|done].
  assert (Hl : k < length (u_th s)) by (by eapply lookup_lt_Some).
  pose proof (ui_wait _ I _ _ Ek) as W. pose proof (ui_acc1 _ I) as A.
  pose proof (fun P => cnt_pos P (u_th s) k pc Ek) as CP.
  destruct s as [w ac ow rd lt th]. cbn [u_wait u_acc u_own u_rd u_lt u_th] in *.
  assert (L : forall q, q <> UPanic -> <[k := q]> th !! j <> Some UPanic).
  { intros q Hq H. destruct (decide (j = k)) as [->|Hne].
    - rewrite list_lookup_insert in H by done. congruence.
    - rewrite list_lookup_insert_ne in H by done. by apply (P j). }
  destruct pc, a; cbn [u_exec] in E1; try discriminate E1.
  all: repeat match type of E1 with
       | context [if decide ?b then _ else _] => destruct (decide b)
       | context [if ?b then _ else _] => destruct b eqn:?
       | context [match ?b with Some _ => _ | None => _ end] => destruct b eqn:?
       end; try discriminate E1.
  all: injection E1 as <-; cbn [u_th] in Hj.
  all: try (revert Hj; apply L; done).
  all: try (simpl in W; destruct W as [W1 W2]; first [discriminate (W1 eq_refl) | discriminate (W2 ltac:(congruence))]).
  all: try (pose proof (CP om eq_refl); specialize (A ltac:(lia)); discriminate A).
  all: try (pose proof (CP del eq_refl); specialize (A ltac:(lia)); discriminate A).
Qed.

(** When nobody holds the lock and no operation is running, it is free. *)
Theorem C35_all_released n l s :
  u_run (u_init n) l = Some s -> (forall i p, u_th s !! i = Some p -> p = UIdle) ->
  u_wait s = None /\ u_acc s = false /\ u_rd s = 0%Z.
Proof.
  intros E H. pose proof (u_reach _ _ _ E) as I.
  assert (Z : forall P, P UIdle = false -> cnt P (u_th s) = 0).
  { intros P HP. apply cnt_zero. intros i p Hi. by rewrite (H _ _ Hi). }
  split_and!.
  - destruct (u_wait s) as [i|] eqn:Ew; [|done]. pose proof (ui_wlt _ I _ Ew) as Hl.
    apply lookup_lt_is_Some in Hl as [p Hp]. pose proof (ui_wait _ I _ _ Hp) as W. rewrite (H _ _ Hp), Ew in W.
    simpl in W. by destruct W as [_ W]; specialize (W eq_refl).
  - destruct (u_acc s) eqn:Ea; [|done]. pose proof (ui_acc3 _ I) as A. rewrite Ea, !Z in A by done.
    simpl in A. specialize (A eq_refl). lia.
  - rewrite (ui_rd _ I), !Z by done. done.
Qed.

(** No deadlock inside the lock: if no thread holds it (or panicked) and some thread is in an
    operation, then some thread can take a step; so threads only ever wait for the holders. *)
Theorem C35_no_deadlock n l s :
  u_run (u_init n) l = Some s ->
  (forall j p, u_th s !! j = Some p -> p <> UR /\ p <> UW /\ p <> UTPanic) ->
  (exists i p, u_th s !! i = Some p /\ p <> UIdle) ->
  exists k s', u_step s k UGo = Some s'.
Proof.
  intros E H (i & p & Hi & Hp). pose proof (u_reach _ _ _ E) as I.
  pose proof (fun j => C35_no_panic _ _ _ j E) as NP.
  (* a thread with access can go on *)
  assert (ACC : u_acc s = true -> exists k s', u_step s k UGo = Some s').
  { intros Ha. assert (X : exists k q, u_th s !! k = Some q /\ (om q || del q || rho q) = true).
    { pose proof (ui_acc3 _ I) as A. rewrite Ha in A. simpl in A. specialize (A eq_refl).
      destruct (cnt om (u_th s)) eqn:E1.
      2: { destruct (cnt_ex om (u_th s) ltac:(lia)) as (k & q & Hk & Hq). exists k, q. by rewrite Hq. }
      destruct (cnt del (u_th s)) eqn:E2.
      2: { destruct (cnt_ex del (u_th s) ltac:(lia)) as (k & q & Hk & Hq). exists k, q. by rewrite Hq, orb_true_r. }
      destruct (cnt_ex rho (u_th s) ltac:(lia)) as (k & q & Hk & Hq). exists k, q. by rewrite Hq, orb_true_r. }
    destruct X as (k & q & Hk & Hq). exists k. unfold u_step. rewrite Hk. destruct (H _ _ Hk) as (N1 & N2 & N3).
    destruct s as [w ac ow rd lt th]. cbn [u_acc] in Ha. subst ac.
    destruct q; try discriminate Hq; try done; cbn [u_exec];
      repeat match goal with
       | |- context [if decide ?b then _ else _] => destruct (decide b)
       | |- context [match ?b with Some _ => _ | None => _ end] => destruct b eqn:?
       end; eauto. }
  (* a thread that is not blocked can go on *)
  assert (GO : forall k q, u_th s !! k = Some q -> q <> UIdle ->
            (exists s', u_step s k UGo = Some s') \/
            ((q = UEW0 \/ q = UER0) /\ exists j, u_wait s = Some j) \/
            ((q = UEW1 \/ q = UER2) /\ u_acc s = true)).
  { intros k q Hk Hq. destruct (H _ _ Hk) as (N1 & N2 & N3).
    assert (N4 : q <> UPanic) by (intros ->; by apply (NP k)).
    unfold u_step. rewrite Hk. destruct s as [w ac ow rd lt th]. cbn [u_wait u_acc].
    destruct q; try done; cbn [u_exec];
      repeat match goal with
       | |- context [if decide ?b then _ else _] => destruct (decide b)
       | |- context [if ?b then _ else _] => destruct b eqn:?
       | |- context [match ?b with Some _ => _ | None => _ end] => destruct b eqn:?
       end; eauto 8. }
  destruct (GO _ _ Hi Hp) as [[s' Hs]|[[_ [j Hj]]|[_ Ha]]]; [eauto| |by apply ACC].
  pose proof (ui_wlt _ I _ Hj) as Hl. apply lookup_lt_is_Some in Hl as [q Hq].
  pose proof (ui_wait _ I _ _ Hq) as W. destruct W as [_ W]. specialize (W Hj).
  destruct (GO _ _ Hq ltac:(intros ->; discriminate W)) as [[s' Hs]|[[Hx _]|[_ Ha]]]; [eauto| |by apply ACC].
  destruct Hx as [-> | ->]; discriminate W.
Qed.

Lemma u_run_cons s i a l s' : u_step s i a = Some s' -> u_run s ((i, a) :: l) = u_run s' l.
Proof. intros H. simpl. by rewrite H. Qed.

(** Readers share: while the only activity is that some threads hold the lock for reading,
    another thread that enters for reading gets it within three steps of its own. *)
Theorem C35_readers_share n l s i j :
  u_run (u_init n) l = Some s -> (forall k p, u_th s !! k = Some p -> p = UIdle \/ p = UR) ->
  reads s i -> at_u s j UIdle ->
  exists s', u_run s [(j, UEnterR); (j, UGo); (j, UGo); (j, UGo)] = Some s' /\
             forall k, reads s k \/ k = j -> reads s' k.
Proof.
  intros E H Hi Hj. pose proof (u_reach _ _ _ E) as I. unfold reads, at_u in *.
  assert (Hw : u_wait s = None).
  { destruct (u_wait s) as [k|] eqn:Ew; [|done]. pose proof (ui_wlt _ I _ Ew) as Hl.
    apply lookup_lt_is_Some in Hl as [p Hp]. pose proof (ui_wait _ I _ _ Hp) as [_ W].
    specialize (W Ew). destruct (H _ _ Hp) as [-> | ->]; discriminate W. }
  pose proof (cnt_pos rho _ _ _ Hi eq_refl) as R. pose proof (ui_rd _ I) as RD.
  assert (Hl : j < length (u_th s)) by (by eapply lookup_lt_Some).
  clear I E. destruct s as [w ac ow rd lt th]. cbn [u_wait u_acc u_own u_rd u_lt u_th] in *. subst w.
  erewrite u_run_cons by (unfold u_step; cbn [u_th]; rewrite Hj; cbn [u_exec]; reflexivity).
  erewrite u_run_cons by (unfold u_step; cbn [u_th]; rewrite list_lookup_insert by done; cbn [u_exec]; reflexivity).
  rewrite list_insert_insert.
  erewrite u_run_cons by (unfold u_step; cbn [u_th]; rewrite list_lookup_insert by done; cbn [u_exec];
    rewrite decide_False by lia; reflexivity).
  rewrite list_insert_insert.
  erewrite u_run_cons by (unfold u_step; cbn [u_th]; rewrite list_lookup_insert by done; cbn [u_exec]; reflexivity).
  rewrite list_insert_insert. cbn [u_run].
  eexists. split; [reflexivity|]. intros k Hk. cbn [u_th]. destruct (decide (k = j)) as [->|Hn].
  - by apply list_lookup_insert.
  - rewrite list_lookup_insert_ne by done. by destruct Hk.
Qed.

(** A free lock is granted: writing takes four steps, reading five. *)
Theorem C35_available n l s i :
  u_run (u_init n) l = Some s -> (forall k p, u_th s !! k = Some p -> p = UIdle) -> at_u s i UIdle ->
  (exists s', u_run s ((i, UEnterW) :: replicate 4 (i, UGo)) = Some s' /\ writes s' i) /\
  (exists s', u_run s ((i, UEnterR) :: replicate 5 (i, UGo)) = Some s' /\ reads s' i).
Proof.
  intros E H Hi. destruct (C35_all_released _ _ _ E H) as (Hw & Ha & Hr). unfold reads, writes, at_u in *.
  assert (Hl : i < length (u_th s)) by (by eapply lookup_lt_Some).
  clear E H. destruct s as [w ac ow rd lt th]. cbn [u_wait u_acc u_own u_rd u_lt u_th] in *. subst w ac rd.
  split; cbn [replicate].
  - erewrite u_run_cons by (unfold u_step; cbn [u_th]; rewrite Hi; cbn [u_exec]; reflexivity).
    do 4 (erewrite u_run_cons by (unfold u_step; cbn [u_th]; rewrite list_lookup_insert by done; cbn [u_exec]; reflexivity);
          rewrite list_insert_insert).
    cbn [u_run]. eexists. split; [reflexivity|]. cbn [u_th]. by apply list_lookup_insert.
  - erewrite u_run_cons by (unfold u_step; cbn [u_th]; rewrite Hi; cbn [u_exec]; reflexivity).
    do 5 (erewrite u_run_cons by (unfold u_step; cbn [u_th]; rewrite list_lookup_insert by done; cbn [u_exec]; reflexivity);
          rewrite list_insert_insert).
    cbn [u_run]. eexists. split; [reflexivity|]. cbn [u_th]. by apply list_lookup_insert.
Qed.

(** try_enter is meant to return false while the lock is held.  But the inner mutex records
    as its owner the reader that came first, even after this reader left while others stay:
    if that thread then calls try_enter(Write), it panics ("Locking mutex against itself"). *)
Theorem C35_try_enter_panics_refuted : exists l s,
  u_run (u_init 2) l = Some s /\ reads s 1 /\ at_u s 0 UTPanic.
Proof.
  eexists ((0, UEnterR) :: replicate 5 (0, UGo) ++ (1, UEnterR) :: replicate 3 (1, UGo) ++
           [(0, UExit); (0, UGo); (0, UGo); (0, UTryW); (0, UGo); (0, UGo)]), _.
  split; [vm_compute; reflexivity|]. split; reflexivity.
Qed.

(** Without try_enter nothing panics. *)
Theorem C35_no_try_no_panic n l s i :
  (forall k a, In (k, a) l -> a <> UTryR /\ a <> UTryW) ->
  u_run (u_init n) l = Some s -> ~ at_u s i UTPanic /\ ~ at_u s i UPanic.
Proof.
  intros H E. split; [|by eapply C35_no_panic]. clear -H E. revert i. unfold at_u.
  set (bad p := match p with UTW0 | UTW1 | UTW2 | UTW3 | UTW4 | UTR0 | UTR1 | UTR2 _ | UTR3 | UTR4 | UTR5
                           | UTR6 | UTPanic => true | _ => false end).
  assert (G : forall l s s', (forall k a, In (k, a) l -> a <> UTryR /\ a <> UTryW) ->
                 (forall j p, u_th s !! j = Some p -> bad p = false) -> u_run s l = Some s' ->
                 forall j p, u_th s' !! j = Some p -> bad p = false).
  { clear. induction l as [|[k a] l IH]; intros s s' H P E; simpl in E; [by injection E as <-|].
    destruct (u_step s k a) as [s1|] eqn:E1; [|done].
    eapply IH; [intros; apply (H k0); by right| |done]. destruct (H k a (or_introl eq_refl)) as [N1 N2].
    intros j p Hj. unfold u_step in E1. destruct (u_th s !! k) as [pc|] eqn:Ek; [|done].
    assert (Hl : k < length (u_th s)) by (by eapply lookup_lt_Some). pose proof (P _ _ Ek) as B.
    destruct s as [w ac ow rd lt th]. cbn [u_th] in *.
    assert (L : forall q, bad q = false -> <[k := q]> th !! j = Some p -> bad p = false).
    { intros q Hq Hp. destruct (decide (j = k)) as [->|Hne].
      - rewrite list_lookup_insert in Hp by done. congruence.
      - rewrite list_lookup_insert_ne in Hp by done. by eapply P. }
    destruct pc, a; try discriminate B; try done; cbn [u_exec] in E1; try discriminate E1.
    all: repeat match type of E1 with
         | context [if decide ?b then _ else _] => destruct (decide b)
         | context [if ?b then _ else _] => destruct b eqn:?
         | context [match ?b with Some _ => _ | None => _ end] => destruct b eqn:?
         end; try discriminate E1.
    all: injection E1 as <-; cbn [u_th] in Hj; revert Hj; by apply L. }
  intros i Hi. assert (X : bad UTPanic = false); [|done]. eapply (G l (u_init n)); [done| |done|done].
  intros j p Hj. simpl in Hj. by apply lookup_replicate in Hj as [-> _].
Qed.

(** The counter of readers never wraps, and never gets below the number of threads that
    hold the lock for reading. *)
Theorem C35_reader_count n l s :
  u_run (u_init n) l = Some s ->
  (Z.of_nat (cnt (fun p => bool_decide (p = UR)) (u_th s)) <= u_rd s <= Z.of_nat n)%Z.
Proof.
  intros E. pose proof (u_reach _ _ _ E) as I. rewrite (ui_rd _ I). split.
  - pose proof (cnt_sub (fun p => bool_decide (p = UR)) rho (u_th s)) as C. assert (X : cnt (fun p => bool_decide (p = UR)) (u_th s) <= cnt rho (u_th s)).
    { apply C. intros x Hx. apply bool_decide_eq_true in Hx. by subst x. } lia.
  - assert (Hn : length (u_th s) = n).
    { clear -E. assert (G : forall l s s', u_run s l = Some s' -> length (u_th s') = length (u_th s)).
      { clear. induction l as [|[k a] l IH]; intros s s' E; simpl in E; [by injection E as <-|].
        destruct (u_step s k a) as [s1|] eqn:E1; [|done]. rewrite (IH _ _ E). unfold u_step in E1.
        destruct (u_th s !! k) as [pc|]; [|done]. destruct s as [w ac ow rd lt th].
        destruct pc, a; cbn [u_exec] in E1; try discriminate E1.
        all: repeat match type of E1 with
         | context [if decide ?b then _ else _] => destruct (decide b)
         | context [if ?b then _ else _] => destruct b eqn:?
         | context [match ?b with Some _ => _ | None => _ end] => destruct b eqn:?
         end; try discriminate E1.
        all: injection E1 as <-; cbn [u_th]; apply insert_length. }
      rewrite (G _ _ _ E). simpl. apply replicate_length. }
    assert (X : cnt rho (u_th s) + cnt sig (u_th s) + cnt del (u_th s) <= length (u_th s)); [|lia].
    clear. induction (u_th s) as [|z l IH]; [done|]. simpl.
    destruct z; try match goal with b : bool |- _ => destruct b end; simpl; lia.
Qed.

(** The hypotheses are met: a writer downgrades while a first reader waits; both read; the
    reader cannot upgrade until the other left; then it can. *)
Example C35_hyps_met : exists l1 l2 l3 s1 s2 s3,
  u_run (u_init 2) l1 = Some s1 /\ downgrading s1 0 /\ at_u s1 1 UER2 /\
  u_run s1 l2 = Some s2 /\ reads s2 0 /\ at_u s2 1 UU0 /\
  u_run s2 l3 = Some s3 /\ writes s3 1 /\ at_u s3 0 UIdle.
Proof.
  exists ((0, UEnterW) :: replicate 4 (0, UGo) ++ [(1, UEnterR); (1, UGo); (1, UGo); (0, UDowngrade); (0, UGo)]),
    [(0, UGo); (0, UGo); (1, UGo); (1, UGo); (1, UGo); (1, UUpgrade)],
    [(1, UGo); (0, UExit); (0, UGo); (0, UGo); (1, UUpgrade); (1, UGo); (1, UGo)].
  eexists _, _, _. split; [vm_compute; reflexivity|]. split; [right; left; reflexivity|]. split; [reflexivity|].
  split; [vm_compute; reflexivity|]. split; [reflexivity|]. split; [reflexivity|].
  split; [vm_compute; reflexivity|]. split; reflexivity.
Qed.

Print Assumptions C35_exclusion.
Print Assumptions C35_upgrade_fails_only_if_shared.
Print Assumptions C35_no_panic.
Print Assumptions C35_all_released.
Print Assumptions C35_no_deadlock.
Print Assumptions C35_readers_share.
Print Assumptions C35_available.
Print Assumptions C35_try_enter_panics_refuted.
Print Assumptions C35_no_try_no_panic.
Print Assumptions C35_reader_count.
