(** C30: the TLB shootdown protocol. *)
From Verif Require Import Base TlbModel.
From stdpp Require Import functions.
From stdpp Require Import list.

Lemma upd_eq {A} (f : nat -> A) i x : upd f i x i = x.
Proof. unfold upd. by rewrite Nat.eqb_refl. Qed.
Lemma upd_ne {A} (f : nat -> A) i j x : j <> i -> upd f i x j = f j.
Proof. unfold upd. intros H. by destruct (Nat.eqb_spec j i). Qed.

(** [made s ids cs]: the objects [ids] were made for the cores [cs]. *)
Definition made (s : tst) (ids cs : list nat) : Prop :=
  Forall2 (fun id c => t_tgt s !! id = Some c) ids cs.

Definition others (i : nat) (cs : list nat) : list nat := base.filter (fun c => c <> i) cs.

Definition ph_ok (s : tst) (i : nat) : Prop :=
  match t_ph s i with
  | PUser => True
  | PEnq todo _ ids all => exists pre, t_goal s i = pre ++ todo /\ made s all (others i pre) /\ ids = all
  | PIpi _ ids all => made s all (others i (t_goal s i)) /\ ids = all
  | PWait _ ids all => made s all (others i (t_goal s i) ++ [i]) /\
      (forall id, id ∈ all -> id ∈ ids \/ id ∈ t_ack s)
  end.

Record tinv (s : tst) : Prop := {
  ti_ack : forall id, id ∈ t_ack s -> exists j, t_tgt s !! id = Some j /\
      ((j, id) ∈ t_flushed s \/ t_h s j = HFlush id);
  ti_q : forall j id, IShoot id ∈ t_q s j -> t_tgt s !! id = Some j;
  ti_ph : forall i, ph_ok s i;
  ti_done : forall i cs ids, (i, cs, ids) ∈ t_done s ->
      made s ids (others i cs ++ [i]) /\ (forall id, id ∈ ids -> id ∈ t_ack s) }.

Lemma made_mono s s' ids cs :
  (forall id c, t_tgt s !! id = Some c -> t_tgt s' !! id = Some c) -> made s ids cs -> made s' ids cs.
Proof. unfold made. intros H Hm. eapply Forall2_impl; [exact Hm|]. eauto. Qed.

Lemma ph_ok_mono s s' i :
  (forall id c, t_tgt s !! id = Some c -> t_tgt s' !! id = Some c) ->
  (forall id, id ∈ t_ack s -> id ∈ t_ack s') ->
  t_ph s' i = t_ph s i -> t_goal s' i = t_goal s i -> ph_ok s i -> ph_ok s' i.
Proof.
  intros Ht Ha Hp Hg. unfold ph_ok. rewrite Hp, Hg.
  destruct (t_ph s i).
  - done.
  - intros (pre&?&?&?). exists pre. eauto using made_mono.
  - intros [??]. eauto using made_mono.
  - intros [? H]. split; [by eapply made_mono|]. intros id Hid. destruct (H id Hid); auto.
Qed.

Lemma tinv_init : tinv t_init.
Proof.
  split; simpl.
  - intros id H. by apply elem_of_nil in H.
  - intros j id H. by apply elem_of_nil in H.
  - done.
  - intros i cs ids H. by apply elem_of_nil in H.
Qed.

Lemma tinv_crash s : tinv s -> tinv (set_crash s).
Proof.
  intros [H1 H2 H3 H4]. split; try done.
Qed.

(** Dequeue on a core that is not in the middle of a flush. *)
Lemma tinv_dequeue s j : t_h s j = HNone -> tinv s -> tinv (t_dequeue s j).
Proof.
  intros Hh [H1 H2 H3 H4]. unfold t_dequeue.
  destruct (t_q s j) as [|[id|] q] eqn:Hq; [by split| |].
  - assert (t_tgt s !! id = Some j) as Hid by (apply H2; rewrite Hq; left).
    split; simpl.
    + intros id' [->|Hin]%elem_of_cons.
      { exists j. split; [done|]. right. by rewrite upd_eq. }
      destruct (H1 _ Hin) as (k&Hk&Hor). exists k. split; [done|].
      destruct Hor as [?|Hf]; [by left|]. right.
      rewrite upd_ne; [done|]. intros ->. congruence.
    + intros k id' Hin. apply H2. destruct (decide (k = j)) as [->|].
      * rewrite upd_eq in Hin. rewrite Hq. by right.
      * by rewrite upd_ne in Hin.
    + intros i. eapply ph_ok_mono; [..|apply H3]; simpl; try done. intros. by right.
    + intros i cs ids Hin. destruct (H4 _ _ _ Hin) as [Hm Ha]. split; [done|].
      intros id' Hi. right. by apply Ha.
  - split; simpl; try done.
    intros k id' Hin. apply H2. destruct (decide (k = j)) as [->|].
    * rewrite upd_eq in Hin. rewrite Hq. by right.
    * by rewrite upd_ne in Hin.
Qed.

Lemma tinv_step rs cap n apic s i s' :
  tinv s -> t_step rs cap n apic s i = Some s' -> tinv s'.
Proof.
  intros Hinv. pose proof Hinv as [H1 H2 H3 H4]. unfold t_step.
  destruct (t_h s i) as [|hid] eqn:Hh.
  2:{ intros [= <-]. split; simpl; try done.
      intros id Hin. destruct (H1 _ Hin) as (j&Hj&Hor). exists j. split; [done|].
      destruct Hor as [Hf|Hf]; [left; by right|].
      destruct (decide (j = i)) as [->|].
      + left. rewrite Hh in Hf. simplify_eq. by left.
      + right. by rewrite upd_ne. }
  destruct (t_ph s i) as [|todo cl ids all|vs ids all|b ids all] eqn:Hph; [done| | |].
  - pose proof (H3 i) as Hi. unfold ph_ok in Hi. rewrite Hph in Hi.
    destruct Hi as (pre&Hg&Hm&->).
    destruct todo as [|c todo].
    + intros [= <-]. split; simpl; try done.
      intros j. destruct (decide (j = i)) as [->|].
      * unfold ph_ok; simpl. rewrite upd_eq. rewrite Hg, app_nil_r. done.
      * eapply ph_ok_mono; [..|apply H3]; try done. simpl. by rewrite upd_ne.
    + destruct (Nat.eqb_spec c i) as [->|Hci].
      { intros [= <-]. split; simpl; try done.
        intros j. destruct (decide (j = i)) as [->|].
        * unfold ph_ok; simpl. rewrite upd_eq. exists (pre ++ [i]).
          split; [by rewrite Hg, <- app_assoc|]. split; [|done].
          unfold others in *. rewrite filter_app, filter_cons_False by naive_solver.
          rewrite filter_nil, app_nil_r. done.
        * eapply ph_ok_mono; [..|apply H3]; try done. simpl. by rewrite upd_ne. }
      destruct (negb (Nat.ltb c n)); [intros [= <-]; by apply tinv_crash|].
      destruct (ldr_add cl (apic c)) as [cl'|]; [|intros [= <-]; by apply tinv_crash].
      intros [= <-].
      set (id := length (t_tgt s)).
      assert (forall x d, t_tgt s !! x = Some d -> (t_tgt s ++ [c]) !! x = Some d) as Hmono
        by (intros x d Hx; by apply lookup_app_l_Some).
      assert ((t_tgt s ++ [c]) !! id = Some c) as Hnew
        by (unfold id; by apply list_lookup_middle).
      set (s1 := set_tgt s (t_tgt s ++ [c])).
      set (s2 := t_enqueue rs cap s1 c (IShoot id)).
      assert (t_ack s2 = t_ack s /\ t_ph s2 = t_ph s /\ t_h s2 = t_h s /\
              t_flushed s2 = t_flushed s /\ t_tgt s2 = t_tgt s ++ [c] /\
              t_done s2 = t_done s /\ t_goal s2 = t_goal s /\
              forall k x, IShoot x ∈ t_q s2 k -> IShoot x ∈ t_q s k \/ (x = id /\ k = c))
        as (E1&E2&E3&E4&E5&E6&E7&E8).
      { unfold s2, t_enqueue. destruct (Nat.ltb _ cap).
        - simpl. do 7 (split; [done|]). intros k x Hin.
          destruct (decide (k = c)) as [->|].
          + rewrite upd_eq in Hin. apply elem_of_app in Hin as [?|Hin]; [by left|].
            apply elem_of_list_singleton in Hin. right. naive_solver.
          + rewrite upd_ne in Hin by done. by left.
        - destruct rs; simpl; do 7 (split; [done|]); intros; by left. }
      split; simpl.
      * rewrite E1, E3, E4, E5. intros x Hx. destruct (H1 _ Hx) as (j&Hj&Hor). eauto.
      * rewrite E5. intros k x Hx. destruct (E8 _ _ Hx) as [Hx'|[-> ->]]; [|done].
        by apply Hmono, H2.
      * intros j. destruct (decide (j = i)) as [->|].
        -- unfold ph_ok; simpl. rewrite upd_eq. rewrite E7. exists (pre ++ [c]).
           split; [by rewrite Hg, <- app_assoc|]. split; [|done].
           unfold others in *. rewrite filter_app, filter_cons_True, filter_nil by done.
           apply Forall2_app; [|by constructor; [simpl; rewrite E5|constructor]].
           eapply made_mono; [|exact Hm]. simpl. rewrite E5. done.
        -- eapply ph_ok_mono; [..|apply (H3 j)]; simpl; rewrite ?E1, ?E5, ?E7, ?E2;
             try done. by rewrite upd_ne.
      * rewrite E6, E1. intros k cs ids Hin. destruct (H4 _ _ _ Hin) as [Hmk Ha].
        split; [|done]. eapply made_mono; [|exact Hmk]. simpl. by rewrite E5.
  - pose proof (H3 i) as Hi. unfold ph_ok in Hi. rewrite Hph in Hi. destruct Hi as [Hm ->].
    destruct vs as [|v vs].
    + intros [= <-]. set (id := length (t_tgt s)).
      assert (forall x d, t_tgt s !! x = Some d -> (t_tgt s ++ [i]) !! x = Some d) as Hmono
        by (intros x d Hx; by apply lookup_app_l_Some).
      assert ((t_tgt s ++ [i]) !! id = Some i) as Hnew
        by (unfold id; by apply list_lookup_middle).
      split; simpl.
      * intros x [->|Hx]%elem_of_cons.
        { exists i. split; [done|]. left. by left. }
        destruct (H1 _ Hx) as (j&Hj&Hor). exists j. split; [auto|].
        destruct Hor; [left; by right|by right].
      * intros k x Hx. by apply Hmono, H2.
      * intros j. destruct (decide (j = i)) as [->|].
        -- unfold ph_ok; simpl. rewrite upd_eq. split.
           ++ apply Forall2_app; [|by constructor; [|constructor]].
              eapply made_mono; [|exact Hm]. done.
           ++ intros x [?|Hx]%elem_of_app; [by left|].
              apply elem_of_list_singleton in Hx as ->. right. by left.
        -- eapply ph_ok_mono; [..|apply (H3 j)]; simpl; try done.
           ++ intros. by right.
           ++ by rewrite upd_ne.
      * intros k cs ids Hin. destruct (H4 _ _ _ Hin) as [Hmk Ha].
        split; [by eapply made_mono; [|exact Hmk]|]. intros x Hx. right. auto.
    + intros [= <-]. split; simpl.
      * destruct (ldr_sent v); done.
      * destruct (ldr_sent v); done.
      * intros j. destruct (decide (j = i)) as [->|].
        -- unfold ph_ok; simpl. rewrite upd_eq. destruct (ldr_sent v); done.
        -- eapply ph_ok_mono; [..|apply (H3 j)]; destruct (ldr_sent v); simpl; try done;
             by rewrite upd_ne.
      * destruct (ldr_sent v); done.
  - pose proof (H3 i) as Hi. unfold ph_ok in Hi. rewrite Hph in Hi. destruct Hi as [Hm Hin].
    destruct b.
    + intros [= <-]. split; simpl; try done.
      intros j. destruct (decide (j = i)) as [->|].
      * unfold ph_ok; simpl. rewrite upd_eq. split; [done|].
        intros id Hid. destruct (Hin id Hid) as [Hw|]; [|by right].
        destruct (decide (id ∈ t_ack s)); [by right|]. left.
        apply elem_of_list_filter. done.
      * eapply ph_ok_mono; [..|apply (H3 j)]; simpl; try done. by rewrite upd_ne.
    + destruct ids as [|w ids].
      * intros [= <-]. split; simpl; try done.
        -- intros j. destruct (decide (j = i)) as [->|].
           ++ unfold ph_ok; simpl. by rewrite upd_eq.
           ++ eapply ph_ok_mono; [..|apply (H3 j)]; simpl; try done. by rewrite upd_ne.
        -- intros k cs ids' [Heq|Hx]%elem_of_cons; [|by apply H4].
           simplify_eq. split; [done|]. intros id Hid.
           destruct (Hin id Hid) as [Hn|]; [by apply elem_of_nil in Hn|done].
      * intros [= <-].
        pose proof (tinv_dequeue s i Hh Hinv) as [D1 D2 D3 D4].
        set (s1 := t_dequeue s i) in *.
        assert (t_ph s1 = t_ph s) as E1.
        { unfold s1, t_dequeue. by destruct (t_q s i) as [|[]]. }
        split; simpl; try done.
        intros j. destruct (decide (j = i)) as [->|].
        -- pose proof (D3 i) as Hi. unfold ph_ok in *. simpl.
           rewrite E1, Hph in Hi. rewrite upd_eq. exact Hi.
        -- eapply ph_ok_mono; [..|apply (D3 j)]; simpl; try done. by rewrite upd_ne.
Qed.

Lemma tinv_label rs cap n apic s l s' :
  tinv s -> t_label rs cap n apic s l = Some s' -> tinv s'.
Proof.
  intros Hinv. pose proof Hinv as [H1 H2 H3 H4]. unfold t_label.
  destruct (t_crash s); [done|].
  destruct l as [i|i cores|j|j|j].
  - by apply tinv_step.
  - destruct (t_ph s i) eqn:Hph; [|done..]. destruct (t_h s i); [|done].
    intros [= <-]. split; simpl; try done.
    intros j. destruct (decide (j = i)) as [->|].
    + unfold ph_ok; simpl. rewrite !upd_eq. exists []. split; [done|]. split; [constructor|done].
    + eapply ph_ok_mono; [..|apply (H3 j)]; simpl; try done; by rewrite upd_ne.
  - destruct (t_ph s j) eqn:Hph; [|done..]. destruct (t_h s j) eqn:Hh; [|done].
    destruct (t_pend s j); [|done]. intros [= <-].
    apply tinv_dequeue; [done|]. by split.
  - intros [= <-]. unfold t_enqueue. destruct (Nat.ltb _ cap).
    + split; simpl; try done. intros k id Hin. apply H2.
      destruct (decide (k = j)) as [->|].
      * rewrite upd_eq in Hin. apply elem_of_app in Hin as [?|Hin]; [done|].
        apply elem_of_list_singleton in Hin. done.
      * by rewrite upd_ne in Hin.
    + destruct rs; [by apply tinv_crash|done].
  - destruct (t_ph s j) eqn:Hph; [|done..]. destruct (t_h s j) eqn:Hh; [|done].
    intros [= <-]. by apply tinv_dequeue.
Qed.

Lemma tinv_run rs cap n apic tr s : tinv s -> tinv (t_run rs cap n apic s tr).
Proof.
  revert s. induction tr as [|l tr IH]; intros s Hs; [done|]. simpl. apply IH.
  destruct (t_label rs cap n apic s l) eqn:E; simpl; [|done]. by eapply tinv_label.
Qed.

Definition t_reach rs cap n apic tr : tst := t_run rs cap n apic t_init tr.

(** A core executes its process (or idles in user context). *)
Definition in_user (s : tst) (j : nat) : Prop := t_ph s j = PUser /\ t_h s j = HNone.

(** C30 (waiting): whatever the interleaving of cores, interrupts and other work, when a
    shootdown call has returned, every core it was asked to notify, and the calling core
    itself, has acknowledged its request; and each such core that has got back to running
    its process has flushed its TLB after the request was made. *)
Theorem C30_returns_only_after_flush rs cap n apic tr i cores ids c :
  let s := t_reach rs cap n apic tr in
  (i, cores, ids) ∈ t_done s -> c ∈ cores \/ c = i ->
  exists id, id ∈ ids /\ id ∈ t_ack s /\ t_tgt s !! id = Some c /\
    (in_user s c -> (c, id) ∈ t_flushed s).
Proof.
  simpl. set (s := t_reach rs cap n apic tr).
  assert (tinv s) as [H1 _ _ H4] by (apply tinv_run, tinv_init).
  intros Hd Hc. destruct (H4 _ _ _ Hd) as [Hm Ha].
  assert (c ∈ others i cores ++ [i]) as Hin.
  { apply elem_of_app. destruct (decide (c = i)) as [->|Hne].
    - right. by apply elem_of_list_singleton.
    - left. apply elem_of_list_filter. destruct Hc; done. }
  apply elem_of_list_lookup in Hin as [k Hk].
  destruct (Forall2_lookup_r _ _ _ _ _ Hm Hk) as (id&Hid&Ht).
  exists id. assert (id ∈ ids) by (eapply elem_of_list_lookup_2, Hid).
  split; [done|]. split; [auto|]. split; [done|].
  intros [_ Hh]. destruct (H1 id) as (j&Hj&Hor); [auto|].
  assert (j = c) as -> by congruence. destruct Hor as [|Hf]; [done|congruence].
Qed.

(** The acknowledgement precedes the flush: a call can return while a target still holds
    the old translation (it is then inside the interrupt handler). *)
Theorem C30_return_before_flush_refuted :
  exists tr, let s := t_reach false 384 2 (fun i => N.of_nat i) tr in
    exists ids id, (0, [1], ids) ∈ t_done s /\ id ∈ ids /\ t_tgt s !! id = Some 1 /\
      (1, id) ∉ t_flushed s.
Proof.
  exists ([LStart 0 [1]] ++ replicate 20 (LStep 0) ++ [LIrq 1] ++ replicate 6 (LStep 0)).
  vm_compute. exists [0; 1], 0. split; [left|]. split; [left|]. split; [done|].
  intros H. inversion H; subst. inversion H2.
Qed.

(** ** Interrupts sent *)

(** C30 (coverage): for every set of target cores the multicast interrupts that are sent
    reach exactly the target cores of those clusters (groups of 16 APIC ids) in which some
    target has an address below 4. *)
Lemma ldr_add_spec cl apic cl' :
  ldr_add cl apic = Some cl' ->
  exists v, cl !! N.to_nat (cluster_of apic) = Some v /\
    cl' = <[N.to_nat (cluster_of apic) := N.setbit v (addr_of apic)]> cl.
Proof.
  unfold ldr_add. destruct (cl !! N.to_nat (cluster_of apic)) as [v|] eqn:E; [|done].
  simpl. intros [= <-]. eauto.
Qed.

(** Content of the array during the loop: cluster number in the upper half, the targets'
    addresses in the lower. *)
Definition ldr_ok (apic : nat -> N) (cs : list nat) (cl : list N) : Prop :=
  length cl = 16 /\
  forall k v, cl !! k = Some v ->
    N.shiftr v 16 = N.of_nat k /\
    (forall b, (b < 16)%N -> N.testbit v b = true <->
       exists c, c ∈ cs /\ cluster_of (apic c) = N.of_nat k /\ addr_of (apic c) = b).

Lemma ldr_init_ok apic : ldr_ok apic [] ldr_init.
Proof.
  split; [done|]. intros k v Hk. unfold ldr_init in Hk.
  change (map ?f ?l) with (f <$> l) in Hk.
  apply list_lookup_fmap_Some in Hk as (x&Hx&->).
  apply lookup_seq in Hx as [-> Hk]. change (0 + k) with k. split.
  - rewrite N.shiftr_shiftl_l by done. by rewrite N.shiftl_0_r.
  - intros b Hb. rewrite N.shiftl_spec_low by done. split; [done|].
    intros (c&Hc&_). by apply elem_of_nil in Hc.
Qed.

Lemma addr_lt a : (addr_of a < 16)%N.
Proof. unfold addr_of. by apply N.mod_lt. Qed.

Lemma ldr_fold_ok apic cs : forall pre cl cl',
  ldr_ok apic pre cl -> ldr_fold apic cs cl = Some cl' -> ldr_ok apic (pre ++ cs) cl'.
Proof.
  induction cs as [|c cs IH]; intros pre cl cl' Hok; simpl.
  { intros [= <-]. by rewrite app_nil_r. }
  destruct (ldr_add cl (apic c)) as [cl1|] eqn:Ha; [|done]. simpl. intros Hf.
  replace (pre ++ c :: cs) with ((pre ++ [c]) ++ cs) by (by rewrite <- app_assoc).
  eapply IH; [|exact Hf].
  apply ldr_add_spec in Ha as (v&Hv&->). destruct Hok as [Hlen Hok].
  split; [by rewrite insert_length|].
  intros k w Hk. destruct (decide (k = N.to_nat (cluster_of (apic c)))) as [->|Hne].
  - rewrite list_lookup_insert in Hk by (by eapply lookup_lt_Some). simplify_eq.
    destruct (Hok _ _ Hv) as [Hs Hb]. rewrite N2Nat.id in *. split.
    + apply N.bits_inj. intros b. rewrite N.shiftr_spec', N.setbit_neq.
      * by rewrite <- N.shiftr_spec', Hs.
      * pose proof (addr_lt (apic c)). lia.
    + intros b Hlt. rewrite N.setbit_eqb.
      destruct (N.eqb_spec (addr_of (apic c)) b) as [<-|Hne]; simpl.
      * split; [|done]. intros _. exists c. split; [|done].
        apply elem_of_app; right. by apply elem_of_list_singleton.
      * rewrite Hb by done. split.
        -- intros (d&Hd&?&?). exists d. split; [|done]. apply elem_of_app; by left.
        -- intros (d&Hd&?&?). exists d. split; [|done].
           apply elem_of_app in Hd as [?|Hd]; [done|].
           apply elem_of_list_singleton in Hd as ->. done.
  - rewrite list_lookup_insert_ne in Hk by done.
    destruct (Hok _ _ Hk) as [Hs Hb]. split; [done|]. intros b Hlt. rewrite Hb by done.
    split.
    + intros (d&Hd&?&?). exists d. split; [|done]. apply elem_of_app; by left.
    + intros (d&Hd&?&?). exists d. split; [|done].
      apply elem_of_app in Hd as [?|Hd]; [done|].
      apply elem_of_list_singleton in Hd as ->. lia.
Qed.

Lemma land15_nonzero v : N.land v 15 <> 0%N <-> exists b, (b < 4)%N /\ N.testbit v b = true.
Proof.
  split.
  - intros H. pose proof (N.bit_log2 _ H) as Hl. rewrite N.land_spec in Hl.
    apply andb_prop in Hl as [Hv H15]. eexists. split; [|exact Hv].
    destruct (N.ltb_spec (N.log2 (N.land v 15)) 4); [done|].
    rewrite N.bits_above_log2 in H15; [done|]. simpl. lia.
  - intros (b&Hb&Hv) H.
    assert (N.testbit (N.land v 15) b = true) as Ht.
    { rewrite N.land_spec, Hv. simpl.
      destruct b as [|[[]|[]|]]; done || (exfalso; lia). }
    rewrite H, N.bits_0 in Ht. done.
Qed.

Lemma cluster_lt a : (cluster_of a < 2^16)%N.
Proof. unfold cluster_of. by apply N.mod_lt. Qed.

Theorem C30_interrupts_exactly apic cs vs c :
  shootdown_ipis apic cs = Some vs ->
  (exists v, v ∈ vs /\ ldr_reaches v (apic c) = true) <->
  (exists d, d ∈ cs /\ cluster_of (apic d) = cluster_of (apic c) /\ addr_of (apic d) = addr_of (apic c)) /\
  (exists d, d ∈ cs /\ cluster_of (apic d) = cluster_of (apic c) /\ (addr_of (apic d) < 4)%N).
Proof.
  unfold shootdown_ipis. destruct (ldr_fold apic cs ldr_init) as [cl|] eqn:Hf; [|done].
  simpl. intros [= <-].
  destruct (ldr_fold_ok _ _ _ _ _ (ldr_init_ok apic) Hf) as [Hlen Hok]. change ([] ++ cs) with cs in Hok.
  split.
  - intros (v&Hv&Hr). apply elem_of_list_filter in Hv as [Hs Hv].
    apply elem_of_list_lookup in Hv as [k Hk]. destruct (Hok _ _ Hk) as [Hc Hb].
    unfold ldr_reaches in Hr. apply andb_prop in Hr as [Hcl%N.eqb_eq Ht].
    rewrite Hc in Hcl. split.
    + destruct (proj1 (Hb _ (addr_lt _)) Ht) as (d&D1&D2&D3). exists d. split; [done|]. split; [congruence|done].
    + unfold ldr_sent in Hs. apply negb_true_iff, N.eqb_neq, land15_nonzero in Hs as (b&Hb4&Htb).
      destruct (proj1 (Hb b ltac:(lia)) Htb) as (d&D1&D2&<-). exists d. split; [done|]. split; [congruence|done].
  - intros [(d&Hd&Hdc&Hda) (e&He&Hec&Hea)].
    assert (exists v, cl !! N.to_nat (cluster_of (apic c)) = Some v) as [v Hv].
    { clear -Hf Hd Hdc. rewrite <- Hdc. revert Hf. generalize ldr_init.
      induction cs as [|x cs IH]; intros cl0; [by apply elem_of_nil in Hd|]. simpl.
      destruct (ldr_add cl0 (apic x)) as [cl1|] eqn:Ha; [|done]. simpl. intros Hf.
      apply elem_of_cons in Hd as [->|Hd]; [|by eapply IH].
      apply ldr_add_spec in Ha as (v&Hv&->).
      apply lookup_lt_is_Some. apply lookup_lt_Some in Hv.
      assert (length cl = length (<[N.to_nat (cluster_of (apic x)):=N.setbit v (addr_of (apic x))]> cl0)) as ->.
      { clear -Hf. revert Hf. generalize (<[N.to_nat (cluster_of (apic x)):=N.setbit v (addr_of (apic x))]> cl0).
        induction cs as [|y cs IH]; intros l; simpl; [by intros [= <-]|].
        destruct (ldr_add l (apic y)) as [l1|] eqn:E; [|done]. simpl. intros ->%IH.
        apply ldr_add_spec in E as (?&_&->). by rewrite insert_length. }
      by rewrite insert_length. }
    destruct (Hok _ _ Hv) as [Hs Hb]. rewrite N2Nat.id in *.
    exists v. split.
    + apply elem_of_list_filter. split; [|by eapply elem_of_list_lookup_2].
      unfold ldr_sent. apply negb_true_iff, N.eqb_neq, land15_nonzero.
      exists (addr_of (apic e)). split; [done|]. apply Hb; [lia|]. by exists e.
    + unfold ldr_reaches. rewrite Hs, N.eqb_refl. simpl. apply Hb; [apply addr_lt|]. by exists d.
Qed.

(** Consequence: with at most 4 cores per cluster in use (APIC id mod 16 below 4) every
    target is interrupted and nobody else. *)
Theorem C30_all_targets_interrupted_partial apic cs vs c :
  (forall d, d ∈ cs -> (apic d mod 16 < 4)%N) ->
  (forall d e, cluster_of (apic d) = cluster_of (apic e) -> addr_of (apic d) = addr_of (apic e) -> d = e) ->
  shootdown_ipis apic cs = Some vs ->
  (exists v, v ∈ vs /\ ldr_reaches v (apic c) = true) <-> c ∈ cs.
Proof.
  intros H4 Hinj Hs. rewrite (C30_interrupts_exactly apic cs vs c Hs). split.
  - intros [(d&Hd&E1&E2) _]. by rewrite <- (Hinj _ _ E1 E2).
  - intros Hc. split; exists c; split; [done|done|done|]. split; [done|]. by apply H4.
Qed.

(** The interrupts are computed without panicking exactly when all targets are in the
    first 16 clusters. *)
Theorem C30_cluster_limit apic cs :
  is_Some (shootdown_ipis apic cs) <-> (forall c, c ∈ cs -> (cluster_of (apic c) < 16)%N).
Proof.
  assert (forall cl, length cl = 16 ->
    is_Some (ldr_fold apic cs cl) <-> (forall c, c ∈ cs -> (cluster_of (apic c) < 16)%N)) as H.
  { induction cs as [|c cs IH]; intros cl Hl; simpl.
    { split; [|by eexists]. intros _ c Hc. by apply elem_of_nil in Hc. }
    unfold ldr_add. destruct (cl !! N.to_nat (cluster_of (apic c))) as [v|] eqn:E; simpl.
    - rewrite IH by (by rewrite insert_length). apply lookup_lt_Some in E.
      split.
      + intros H d [->|?]%elem_of_cons; [lia|auto].
      + intros H d Hd. apply H. by right.
    - apply lookup_ge_None in E. split; [by intros [? ?]|].
      intros H. specialize (H c ltac:(left)). lia. }
  specialize (H ldr_init eq_refl). unfold shootdown_ipis.
  rewrite <- H. destruct (ldr_fold apic cs ldr_init); simpl; split; intros [? ?]; try done; eauto.
Qed.

(** The full claim is false: a target whose APIC id is 5 gets no interrupt at all. *)
Theorem C30_core_not_interrupted_refuted :
  exists apic cs c, c ∈ cs /\ (forall i, apic i = N.of_nat i) /\ shootdown_ipis apic cs = Some [].
Proof.
  exists N.of_nat, [5], 5. split; [left|]. split; [done|]. reflexivity.
Qed.


(** ** Waiting forever *)

(** No new calls, no other subsystem queueing work. *)
Definition quiet (l : tlabel) : Prop :=
  match l with LStep _ | LIrq _ => True | _ => False end.

(** Core [i] waits for object [id], queued at most at core [c], and no interrupt is on
    its way to [c]. *)
Definition stuck (s : tst) (i c id : nat) : Prop :=
  c <> i /\ (exists b ids all, t_ph s i = PWait b ids all /\ id ∈ ids) /\ id ∉ t_ack s /\
  (forall j, j <> i -> t_ph s j = PUser) /\ t_pend s c = false /\ t_h s c = HNone /\
  (forall j, j <> c -> IShoot id ∉ t_q s j).

Lemma stuck_dequeue s i c id j :
  j <> c -> stuck s i c id -> stuck (t_dequeue s j) i c id.
Proof.
  intros Hj (H1&H2&H3&H4&H5&H6&H7). unfold t_dequeue.
  destruct (t_q s j) as [|[x|] q] eqn:Hq; [done| |].
  - assert (x <> id) by (intros ->; apply (H7 j Hj); rewrite Hq; left).
    split; [done|]. split; [done|]. split.
    { simpl. intros [?|?]%elem_of_cons; [congruence|done]. }
    split; [done|]. split; [done|]. split; [simpl; by rewrite upd_ne|].
    intros k Hk Hin. apply (H7 k Hk). simpl in Hin. destruct (decide (k = j)) as [->|].
    + rewrite upd_eq in Hin. rewrite Hq. by right.
    + by rewrite upd_ne in Hin.
  - split; [done|]. split; [done|]. split; [done|]. split; [done|]. split; [done|]. split; [done|].
    intros k Hk Hin. apply (H7 k Hk). simpl in Hin. destruct (decide (k = j)) as [->|].
    + rewrite upd_eq in Hin. rewrite Hq. by right.
    + by rewrite upd_ne in Hin.
Qed.

Lemma stuck_label rs cap n apic s i c id l s' :
  quiet l -> stuck s i c id -> t_label rs cap n apic s l = Some s' -> stuck s' i c id.
Proof.
  intros Hl Hs. pose proof Hs as (H1&(b&ids&all&H2&H2')&H3&H4&H5&H6&H7).
  unfold t_label. destruct (t_crash s); [done|].
  destruct l as [k|k cs|k|k|k]; simpl in Hl; try done.
  - unfold t_step. destruct (t_h s k) as [|x] eqn:Hh.
    2:{ intros [= <-]. split; [done|]. split; [eauto|]. split; [done|]. split; [done|]. split; [done|].
        split; [|done]. simpl. rewrite upd_ne; [done|]. intros ->. congruence. }
    destruct (decide (k = i)) as [->|Hk]; [|by rewrite H4].
    rewrite H2. destruct b.
    + intros [= <-]. split; [done|]. split.
      { simpl. rewrite upd_eq. do 3 eexists. split; [done|]. by apply elem_of_list_filter. }
      split; [done|]. split; [|done]. intros j Hj. simpl. rewrite upd_ne by done. auto.
    + destruct ids as [|w ids]; [by apply elem_of_nil in H2'|].
      intros [= <-]. destruct (stuck_dequeue s i c id i) as (D1&D2&D3&D4&D5&D6&D7); [done..|].
      split; [done|]. split; [simpl; rewrite upd_eq; eauto|]. split; [done|].
      split; [|done]. intros j Hj. simpl. rewrite upd_ne by done. auto.
  - destruct (t_ph s k) eqn:Hph; [|done..]. destruct (t_h s k); [|done].
    destruct (t_pend s k) eqn:Hp; [|done]. intros [= <-].
    assert (k <> c) by (intros ->; congruence).
    apply stuck_dequeue; [done|].
    split; [done|]. split; [by eauto|]. split; [done|]. split; [done|]. split; [|done].
    simpl. by rewrite upd_ne.
Qed.

Lemma stuck_run rs cap n apic i c id tr : forall s,
  Forall quiet tr -> stuck s i c id -> stuck (t_run rs cap n apic s tr) i c id.
Proof.
  induction tr as [|l tr IH]; intros s Hq Hs; [done|]. inversion Hq; subst. simpl.
  apply IH; [done|]. destruct (t_label rs cap n apic s l) eqn:E; simpl; [|done].
  by eapply stuck_label.
Qed.

(** Core 0 asks core 5 to flush: no interrupt is sent, and however the cores are scheduled
    afterwards core 0 stays in the call. *)
Theorem C30_call_hangs_uncovered_core_refuted :
  exists tr, forall tr', Forall quiet tr' ->
    t_done (t_reach false 384 8 N.of_nat tr) = [] /\
    exists b ids all, t_ph (t_run false 384 8 N.of_nat (t_reach false 384 8 N.of_nat tr) tr') 0
                      = PWait b ids all /\ 0 ∈ ids.
Proof.
  exists ([LStart 0 [5]] ++ replicate 20 (LStep 0)).
  intros tr' Hq. split; [vm_compute; done|].
  assert (stuck (t_reach false 384 8 N.of_nat ([LStart 0 [5]] ++ replicate 20 (LStep 0))) 0 5 0) as Hs.
  { split; [done|]. split; [vm_compute; do 3 eexists; split; [done|]; left|].
    split; [vm_compute; intros H; inversion H; subst; inversion H2|].
    split.
    { intros j Hj. vm_compute. destruct j; [done|]. done. }
    split; [done|]. split; [done|].
    intros j Hj. vm_compute. destruct j as [|[|[|[|[|[|j]]]]]]; try done; intros H; inversion H. }
  apply (stuck_run false 384 8 N.of_nat _ _ _ tr') in Hs; [|done]. apply Hs.
Qed.

(** Cores 0 and 1 both ask core 2: the two interrupts merge into one pending bit, the
    handler serves one request, and core 1 waits for ever. *)
Theorem C30_call_hangs_merged_interrupts_refuted :
  exists tr, forall tr', Forall quiet tr' ->
    exists b ids all, t_ph (t_run false 384 3 N.of_nat (t_reach false 384 3 N.of_nat tr) tr') 1
                      = PWait b ids all /\ 1 ∈ ids.
Proof.
  set (tr := [LStart 0 [2]; LStart 1 [2]; LStep 0; LStep 1] ++ replicate 18 (LStep 0)
               ++ replicate 18 (LStep 1) ++ [LIrq 2; LStep 2] ++ replicate 8 (LStep 0)).
  exists tr. intros tr' Hq.
  assert (stuck (t_reach false 384 3 N.of_nat tr) 1 2 1) as Hs.
  { split; [done|]. split; [vm_compute; do 3 eexists; split; [done|]; left|].
    split.
    { vm_compute. intros H. repeat (inversion H; clear H; subst; rename H2 into H). }
    split.
    { intros j Hj. vm_compute. destruct j as [|[|j]]; done. }
    split; [done|]. split; [done|].
    intros j Hj. vm_compute. destruct j as [|[|[|j]]]; try done; intros H; inversion H. }
  apply (stuck_run false 384 3 N.of_nat _ _ _ tr') in Hs; [|done]. apply Hs.
Qed.

(** A full queue drops the request silently, with the same effect. *)
Theorem C30_call_hangs_full_queue_refuted :
  exists tr, forall tr', Forall quiet tr' ->
    exists b ids all, t_ph (t_run false 2 2 N.of_nat (t_reach false 2 2 N.of_nat tr) tr') 0
                      = PWait b ids all /\ 0 ∈ ids.
Proof.
  set (tr := [LAdv 1; LAdv 1; LStart 0 [1]] ++ replicate 20 (LStep 0) ++ [LIrq 1; LGc 1; LGc 1]).
  exists tr. intros tr' Hq.
  assert (stuck (t_reach false 2 2 N.of_nat tr) 0 1 0) as Hs.
  { split; [done|]. split; [vm_compute; do 3 eexists; split; [done|]; left|].
    split.
    { vm_compute. intros H. repeat (inversion H; clear H; subst; rename H2 into H). }
    split.
    { intros j Hj. vm_compute. destruct j as [|[|j]]; done. }
    split; [done|]. split; [done|].
    intros j Hj. vm_compute. destruct j as [|[|[|j]]]; try done; intros H; inversion H. }
  apply (stuck_run false 2 2 N.of_nat _ _ _ tr') in Hs; [|done]. apply Hs.
Qed.

(** ** One call at a time makes progress *)

Record sinv (apic : nat -> N) (n : nat) (s : tst) (i : nat) (cs : list nat) : Prop := {
  si_crash : t_crash s = false;
  si_ph : forall j, j <> i -> t_ph s j = PUser;
  si_goal : t_goal s i = cs;
  si_q : t_q s i = [];
  si_h : t_h s i = HNone;
  si_un : forall id j, t_tgt s !! id = Some j -> id ∉ t_ack s -> t_q s j = [IShoot id] /\ t_h s j = HNone;
  si_one : forall j, t_q s j = [] \/ exists id, t_q s j = [IShoot id];
  si_work : match t_ph s i with
    | PUser => exists ids, (i, cs, ids) ∈ t_done s
    | PEnq todo cl ids all => exists pre, cs = pre ++ todo /\ ldr_ok apic (others i pre) cl /\
        (forall j, t_q s j <> [] -> j ∈ others i pre) /\
        (forall j, t_h s j = HNone /\ t_pend s j = false)
    | PIpi vs ids all => forall j, t_q s j <> [] -> (j < n)%nat /\
        (t_pend s j = true \/ exists v, v ∈ vs /\ ldr_sent v = true /\ ldr_reaches v (apic j) = true)
    | PWait b ids all => (forall j, t_q s j <> [] -> t_pend s j = true) /\
        (forall id, id ∈ ids -> is_Some (t_tgt s !! id))
    end }.

Lemma sinv_irq apic n s i cs j :
  sinv apic n s i cs -> j <> i -> t_h s j = HNone -> t_pend s j = true ->
  sinv apic n (t_dequeue (set_pend s (upd (t_pend s) j false)) j) i cs.
Proof.
  intros [H1 H2 H3 H4 H5 H6 H7 H8] Hj Hh Hp. unfold t_dequeue. simpl.
  destruct (H7 j) as [Hq|[id Hq]]; rewrite Hq.
  - split; try done. simpl. destruct (t_ph s i) eqn:Hph; [done|..].
    + destruct H8 as (pre&?&?&?&Hn). by rewrite (proj2 (Hn j)) in Hp.
    + intros k Hk. destruct (H8 k Hk) as [? [?|?]]; split; auto.
      left. rewrite upd_ne; [done|]. intros ->. done.
    + destruct H8 as [Ha Hb]. split; [|done]. intros k Hk. rewrite upd_ne; [auto|]. intros ->. done.
  - split; simpl; try done.
    + by rewrite upd_ne.
    + by rewrite upd_ne.
    + intros x k Hx Hn. apply not_elem_of_cons in Hn as [Hne Hn].
      destruct (H6 x k Hx Hn) as [Hqk Hhk].
      assert (k <> j) by (intros ->; rewrite Hq in Hqk; congruence).
      by rewrite !upd_ne.
    + intros k. destruct (decide (k = j)) as [->|]; [left; by rewrite upd_eq|]. rewrite upd_ne by done. auto.
    + destruct (t_ph s i) eqn:Hph; [done|..].
      * destruct H8 as (pre&?&?&?&Hn). by rewrite (proj2 (Hn j)) in Hp.
      * intros k Hk. destruct (decide (k = j)) as [->|]; [by rewrite upd_eq in Hk|].
        rewrite upd_ne in Hk by done. rewrite upd_ne by done. auto.
      * destruct H8 as [Ha Hb]. split; [|done].
        intros k Hk. destruct (decide (k = j)) as [->|]; [by rewrite upd_eq in Hk|].
        rewrite upd_ne in Hk by done. rewrite upd_ne by done. auto.
Qed.

Section single.
  Context (rs : bool) (cap n : nat) (apic : nat -> N) (i : nat) (cs : list nat).
  Context (Hcap : (0 < cap)%nat).
  Context (Hn : forall c, c ∈ cs -> (c < n)%nat).
  Context (Hnib : forall c, c ∈ cs -> (apic c mod 16 < 4)%N).
  Context (Hcl : forall c, c ∈ cs -> (cluster_of (apic c) < 16)%N).
  Context (Hnd : NoDup cs).

  Lemma sinv_label s l s' :
    quiet l -> tinv s -> sinv apic n s i cs -> t_label rs cap n apic s l = Some s' ->
    sinv apic n s' i cs.
  Proof using All.
    intros Hl [T1 T2 T3 T4] Hs. pose proof Hs as [H1 H2 H3 H4 H5 H6 H7 H8].
    unfold t_label. rewrite H1. destruct l as [k|k ?|k|k|k]; simpl in Hl; try done.
    - unfold t_step. destruct (decide (k = i)) as [->|Hk].
      2:{ rewrite H2 by done. destruct (t_h s k) as [|x] eqn:Hh; [done|]. intros [= <-].
          split; simpl; try done.
          - rewrite upd_ne; done.
          - intros id j Hj Hnot. destruct (H6 id j Hj Hnot) as [Hq Hhj]. split; [done|].
            rewrite upd_ne; [done|]. intros ->. congruence.
          - destruct (t_ph s i) eqn:Hph; try done. destruct H8 as (pre&?&?&?&Hno).
            by rewrite (proj1 (Hno k)) in Hh. }
      rewrite H5. pose proof (T3 i) as HT. unfold ph_ok in HT.
      destruct (t_ph s i) as [|todo cl ids all|vs ids all|b ids all] eqn:Hph; [done|..].
      + destruct H8 as (pre&Hcs&Hok&Hq&Hno). destruct HT as (_&_&_&->).
        destruct todo as [|c todo].
        { intros [= <-]. split; simpl; try done.
          - intros j Hj. rewrite upd_ne by done. auto.
          - rewrite upd_eq. intros j Hqj. specialize (Hq j Hqj).
            apply elem_of_list_filter in Hq as [Hji Hq]. rewrite app_nil_r in Hcs. subst pre.
            split; [by apply Hn|]. right.
            destruct Hok as [Hlen Hok]. specialize (Hcl j Hq).
            destruct (lookup_lt_is_Some_2 cl (N.to_nat (cluster_of (apic j)))) as [v Hv]; [lia|].
            destruct (Hok _ _ Hv) as [Hs1 Hb]. rewrite N2Nat.id in *.
            assert (N.testbit v (addr_of (apic j)) = true) as Ht.
            { apply Hb; [apply addr_lt|]. exists j. split; [|done]. by apply elem_of_list_filter. }
            exists v. split; [by eapply elem_of_list_lookup_2|]. split.
            + unfold ldr_sent. apply negb_true_iff, N.eqb_neq, land15_nonzero.
              exists (addr_of (apic j)). split; [|done]. by apply Hnib.
            + unfold ldr_reaches. rewrite Hs1, N.eqb_refl. done. }
        destruct (Nat.eqb_spec c i) as [->|Hci].
        { intros [= <-]. split; simpl; try done.
          - intros j Hj. rewrite upd_ne by done. auto.
          - rewrite upd_eq. exists (pre ++ [i]).
            assert (others i (pre ++ [i]) = others i pre) as ->.
            { unfold others. rewrite filter_app, filter_cons_False by naive_solver.
              by rewrite filter_nil, app_nil_r. }
            split; [by rewrite <- app_assoc|]. done. }
        assert (c ∈ cs) as Hc by (rewrite Hcs; apply elem_of_app; right; left).
        destruct (Nat.ltb_spec c n); [|specialize (Hn c Hc); lia]. simpl.
        destruct (ldr_add cl (apic c)) as [cl'|] eqn:Hadd.
        2:{ unfold ldr_add in Hadd. destruct Hok as [Hlen _].
            destruct (lookup_lt_is_Some_2 cl (N.to_nat (cluster_of (apic c)))) as [v Hv];
              [specialize (Hcl c Hc); lia|]. by rewrite Hv in Hadd. }
        intros [= <-]. set (id := length (t_tgt s)).
        assert (c ∉ pre) as Hcp.
        { intros Hin. rewrite Hcs in Hnd. apply NoDup_app in Hnd as (_&Hd&_).
          apply (Hd c Hin). left. }
        assert (t_q s c = []) as Hqc.
        { destruct (t_q s c) eqn:E; [done|]. exfalso.
          assert (c ∈ others i pre) as Hin by (apply Hq; by rewrite E).
          apply elem_of_list_filter in Hin as [_ ?]. done. }
        unfold t_enqueue. simpl. rewrite Hqc. simpl.
        destruct (Nat.ltb_spec 0 cap); [|lia]. simpl.
        assert (others i (pre ++ [c]) = others i pre ++ [c]) as Eo.
        { unfold others. by rewrite filter_app, filter_cons_True, filter_nil. }
        split; simpl; try done.
        * intros j Hj. rewrite upd_ne by done. auto.
        * by rewrite upd_ne.
        * intros x j Hx Hx'. apply lookup_app_Some in Hx as [Hx|[Hlen Hx]].
          -- destruct (H6 x j Hx Hx') as [Hqj Hhj]. split; [|done].
             rewrite upd_ne; [done|]. intros ->. by rewrite Hqc in Hqj.
          -- apply list_lookup_singleton_Some in Hx as [Hx <-].
             assert (x = id) as -> by (unfold id; lia). rewrite upd_eq. split; [done|]. apply Hno.
        * intros j. destruct (decide (j = c)) as [->|]; [rewrite upd_eq; eauto|]. by rewrite upd_ne.
        * rewrite upd_eq. exists (pre ++ [c]). rewrite Eo.
          split; [by rewrite <- app_assoc|]. split.
          { apply (ldr_fold_ok apic [c] (others i pre) cl); [done|]. simpl. by rewrite Hadd. }
          split; [|done]. intros j Hqj. apply elem_of_app.
          destruct (decide (j = c)) as [->|]; [right; by apply elem_of_list_singleton|].
          rewrite upd_ne in Hqj by done. left. auto.
      + destruct HT as [HT ->]. destruct vs as [|v vs].
        { intros [= <-]. set (id := length (t_tgt s)). split; simpl; try done.
          - intros j Hj. rewrite upd_ne by done. auto.
          - intros x j Hx Hx'. apply not_elem_of_cons in Hx' as [Hne Hx'].
            apply lookup_app_Some in Hx as [Hx|[Hlen Hx]]; [by apply H6|].
            apply list_lookup_singleton_Some in Hx as [Hx _]. unfold id in Hne. lia.
          - rewrite upd_eq. split.
            + intros j Hqj. destruct (H8 j Hqj) as [_ [?|(v&Hv&_)]]; [done|by apply elem_of_nil in Hv].
            + intros x Hx. unfold made in HT. apply elem_of_list_lookup in Hx as [k Hk].
              destruct (Forall2_lookup_l _ _ _ _ _ HT Hk) as (c&_&Hc).
              exists c. by apply lookup_app_l_Some. }
        intros [= <-]. split; simpl; try (destruct (ldr_sent v); done).
        * intros j Hj. rewrite upd_ne by done. destruct (ldr_sent v); by apply H2.
        * rewrite upd_eq. intros j Hqj.
          assert (t_q s j <> []) as Hq' by (destruct (ldr_sent v); done).
          destruct (H8 j Hq') as [Hjn Hor]. split; [done|].
          destruct Hor as [Hp|(w&Hw&Hs1&Hs2)].
          { left. destruct (ldr_sent v); [|done]. simpl. by rewrite Hp. }
          apply elem_of_cons in Hw as [->|Hw]; [|right; eauto].
          left. rewrite Hs1. simpl. destruct (Nat.ltb_spec j n); [|lia].
          rewrite Hs2. by destruct (t_pend s j).
      + destruct H8 as [Ha Hb]. destruct b.
        { intros [= <-]. split; simpl; try done.
          - intros j Hj. rewrite upd_ne by done. auto.
          - rewrite upd_eq. split; [done|]. intros x Hx. apply Hb.
            by apply elem_of_list_filter in Hx as [_ ?]. }
        destruct ids as [|w ids].
        { intros [= <-]. split; simpl; try done.
          - intros j Hj. rewrite upd_ne by done. auto.
          - rewrite upd_eq. eexists. rewrite H3. left. }
        unfold t_dequeue. rewrite H4. intros [= <-]. split; simpl; try done.
        * intros j Hj. rewrite upd_ne by done. auto.
        * rewrite upd_eq. done.
    - destruct (decide (k = i)) as [->|Hk].
      + destruct (t_ph s i) eqn:Hph; [|done..]. rewrite H5.
        destruct (t_pend s i); [|done]. intros [= <-]. unfold t_dequeue. simpl. rewrite H4.
        split; simpl; try done. by rewrite Hph.
      + rewrite H2 by done. destruct (t_h s k) eqn:Hh; [|done].
        destruct (t_pend s k) eqn:Hp; [|done]. intros [= <-]. by apply sinv_irq.
  Qed.

  Lemma sinv_run tr : forall s,
    Forall quiet tr -> tinv s -> sinv apic n s i cs -> sinv apic n (t_run rs cap n apic s tr) i cs.
  Proof using All.
    induction tr as [|l tr IH]; intros s Hq Ht Hs; [done|]. inversion Hq; subst. simpl.
    destruct (t_label rs cap n apic s l) as [s'|] eqn:E; simpl; [|by apply IH].
    apply IH; [done|by eapply tinv_label|by eapply sinv_label].
  Qed.

  (** C30 (progress): a call made while no other shootdown is going on, with every target
      in the first 16 clusters and with an address below 4: it does not panic, and whenever
      it is waiting for a core that has not acknowledged, that core is running user code
      with an interrupt pending that will make it acknowledge. *)
  Theorem C30_single_call_progress_partial tr :
    Forall quiet tr ->
    let s := t_reach rs cap n apic (LStart i cs :: tr) in
    t_crash s = false /\
    (t_ph s i = PUser -> exists ids, (i, cs, ids) ∈ t_done s) /\
    (forall b ids all id, t_ph s i = PWait b ids all -> id ∈ ids -> id ∉ t_ack s ->
       exists j s', t_tgt s !! id = Some j /\ in_user s j /\
         t_label rs cap n apic s (LIrq j) = Some s' /\ id ∈ t_ack s').
  Proof using All.
    intros Hq s.
    assert (sinv apic n s i cs) as [H1 H2 H3 H4 H5 H6 H7 H8].
    { unfold s, t_reach. cbn [t_run]. apply sinv_run; [done|..].
      - apply (tinv_label rs cap n apic t_init (LStart i cs)); [apply tinv_init|]. reflexivity.
      - split; simpl; try done.
        + intros j Hj. by rewrite upd_ne.
        + by rewrite upd_eq.
        + intros j. by left.
        + rewrite upd_eq. exists []. split; [done|]. split; [apply ldr_init_ok|].
          split; [|done]. done. }
    split; [done|]. split.
    { intros Hp. by rewrite Hp in H8. }
    intros b ids all id Hp Hid Hna. rewrite Hp in H8. destruct H8 as [Ha Hb].
    destruct (Hb id Hid) as [j Hj]. destruct (H6 id j Hj Hna) as [Hqj Hhj].
    assert (t_pend s j = true) as Hpj by (apply Ha; by rewrite Hqj).
    assert (j <> i) as Hji by (intros ->; by rewrite H4 in Hqj).
    exists j. eexists. split; [done|]. split; [split; [by apply H2|done]|].
    unfold t_label. rewrite H1, (H2 j Hji), Hhj, Hpj. split; [done|].
    unfold t_dequeue. simpl. rewrite Hqj. simpl. left.
  Qed.
End single.

Example C30_single_hyps_met :
  let s := t_reach false 384 4 N.of_nat (LStart 0 [1; 2; 3] :: replicate 24 (LStep 0)) in
  exists all, t_ph s 0 = PWait false [0; 1; 2] all \/ t_ph s 0 = PWait true [0; 1; 2] all.
Proof. vm_compute. eexists. by (left + right). Qed.

Example C30_hyps_met :
  let s := t_reach false 384 3 N.of_nat
    ([LStart 0 [0; 1; 2]] ++ replicate 22 (LStep 0) ++ [LIrq 1; LStep 1; LIrq 2; LStep 2]
       ++ replicate 6 (LStep 0)) in
  t_done s = [(0, [0; 1; 2], [0; 1; 2])] /\ in_user s 1 /\
  shootdown_ipis N.of_nat [1; 2; 17] = Some [6; 65538]%N.
Proof. vm_compute. done. Qed.

Print Assumptions C30_returns_only_after_flush.
Print Assumptions C30_interrupts_exactly.
Print Assumptions C30_all_targets_interrupted_partial.
Print Assumptions C30_cluster_limit.
Print Assumptions C30_single_call_progress_partial.
Print Assumptions C30_call_hangs_uncovered_core_refuted.
Print Assumptions C30_call_hangs_merged_interrupts_refuted.
Print Assumptions C30_call_hangs_full_queue_refuted.
