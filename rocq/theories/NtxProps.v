(** C56: the transmit queue of the network card. *)
From Verif Require Import Base NtxModel NtxSpec NtxProofs.

(** For every number of descriptors that is a power of two and every interleaving of the calls
    (with chains of 1 to 32 segments of 1 to 16384 bytes), of the stores an enqueue makes and of
    the steps of the card: no call panics, an enqueue is accepted exactly when there are
    descriptors, packets go on the wire as they were accepted, in order, each once and whole,
    a chain is given back once, in order, and after its packet was sent.  [can_enqueue] tells
    what the next enqueue does.  Partial: other chains, see below. *)
Theorem C56_sends_partial : forall k l q v es, k <= 63 -> Forall act_ok l ->
  x_run (tx_new (2 ^ k), dev_new) l = Some (q, v, es) ->
  XvPanic ∉ es /\
  exists s, nic_steps (2 ^ k) nic_init es s /\
    (q_enq q = None -> forall m,
       tx_can_enqueue q m = true <-> segments (n_wait s) + segments (n_sent s) + m < 2 ^ k).
Proof.
  intros k l q v es Hk OK R.
  destruct (x_run_sim k Hk l _ _ _ _ _ _ _ _ _ _ _ _ _ (inv_init k Hk) OK R) as (T & K & D & V & St & fw & fp & fq & I & N & _).
  split; [by eapply nic_fine|]. eexists. split; [exact N|].
  intros E m. destruct (inv_idle_len k Hk _ _ _ _ _ _ _ _ _ _ I E) as [_ L]. unfold tx_can_enqueue, tx_capacity.
  rewrite L, (I_ring _ _ _ _ _ _ _ _ _ _ _ I). cbn [absn n_wait n_sent]. rewrite Nat.ltb_lt. lia.
Qed.
Print Assumptions C56_sends_partial.

(** When every enqueue was followed by a flush and the card has come to rest, every packet
    accepted was sent; [can_dequeue(true)] finds all of them, the queue is empty and the next
    enqueue has all descriptors but one. *)
Theorem C56_delivers_partial : forall k l li q v es, k <= 63 -> Forall act_ok l -> flushes false l ->
  Forall x_internal li -> x_run (tx_new (2 ^ k), dev_new) (l ++ XFlush :: li) = Some (q, v, es) ->
  (forall a, x_internal a -> x_step (q, v) a = None) ->
  exists s q', nic_steps (2 ^ k) nic_init es s /\ n_wait s = [] /\
    tx_can_dequeue q true = Some (q', length (n_sent s)) /\ q_proc q' = n_ready s ++ n_sent s /\
    tx_len q' = 0 /\ (forall m, tx_can_enqueue q' m = true <-> m < 2 ^ k).
Proof.
  intros k l li q v es Hk OK F Hli R Q.
  assert (OK' : Forall act_ok (l ++ XFlush :: li)).
  { apply Forall_app. split; [done|]. apply Forall_cons. split; [done|].
    eapply Forall_impl; [exact Hli|]. intros a Ha. by destruct a. }
  assert (Fl : forall u l', Forall x_internal l' -> flushes u l' /\ foldl unext u l' = u).
  { intros u l' H'. induction H' as [|a l' Ha _ IH]; [done|]. destruct a; cbn in *; done. }
  assert (F' : forall u l', flushes u l' -> flushes u (l' ++ XFlush :: li)).
  { intros u l'. revert u. induction l' as [|a l' IH]; intros u.
    - intros _. cbn. by apply Fl.
    - destruct a; cbn; try apply IH. intros [-> H']. split; [done|]. by apply IH. }
  destruct (x_run_sim k Hk _ _ _ _ _ _ _ _ _ _ _ _ _ _ (inv_init k Hk) OK' R) as (T & K & D & V & St & fw & fp & fq & I & N & B & _).
  specialize (B false (F' _ _ F) (bell_init k Hk)). rewrite foldl_app in B. cbn [foldl unext] in B.
  destruct (Fl false li Hli) as [_ Efl]. rewrite Efl in B.
  destruct (quiet_empty k Hk _ _ _ _ _ _ _ _ _ _ I B Q) as (-> & -> & Eq).
  destruct (inv_can k Hk _ _ _ _ _ _ _ _ _ _ true I) as (q' & T' & K' & fc & fw' & E1 & E2 & _ & E4 & _ & E6 & _ & _ & E9 & I').
  specialize (E4 eq_refl). subst fw'. rewrite app_nil_r in E2. subst fc.
  exists (absn q fw [] []), q'. split; [done|]. split; [done|]. cbn [absn n_sent n_ready fmap list_fmap].
  rewrite app_nil_r, fmap_length. split; [done|]. split; [done|].
  destruct (inv_idle_len k Hk _ _ _ _ _ _ _ _ _ _ I' ltac:(congruence)) as [_ L]. cbn in L. split; [done|].
  intros m. unfold tx_can_enqueue, tx_capacity. rewrite L, (I_ring _ _ _ _ _ _ _ _ _ _ _ I'), Nat.ltb_lt. lia.
Qed.
Print Assumptions C56_delivers_partial.

(** The call in progress and the card come to rest: there is a bound for their steps. *)
Theorem C56_rests_partial : forall k l li q v es, k <= 63 -> Forall act_ok l -> Forall x_internal li ->
  x_run (tx_new (2 ^ k), dev_new) (l ++ li) = Some (q, v, es) -> length li <= 2 * 2 ^ k + 32.
Proof.
  intros k l li q v es Hk OK Hli R.
  assert (Hs : exists q1 v1 es1 es2, x_run (tx_new (2 ^ k), dev_new) l = Some (q1, v1, es1) /\ x_run (q1, v1) li = Some (q, v, es2)).
  { revert R. generalize (tx_new (2 ^ k), dev_new) as s. clear. revert es. induction l as [|a l IH]; intros es s.
    - destruct s as [q0 v0]. cbn [app]. intros R. eexists _, _, _, _. split; [reflexivity|exact R].
    - cbn [app x_run]. destruct (x_step s a) as [[s1 e1]|]; [|done].
      destruct (x_run s1 (l ++ li)) as [[[q2 v2] e2]|] eqn:E; [|done]. intros [= -> -> <-].
      destruct (IH _ _ E) as (q1 & v1 & es1 & es2 & E1 & E2). rewrite E1. eexists _, _, _, _. split; [reflexivity|exact E2]. }
  destruct Hs as (q1 & v1 & es1 & es2 & R1 & R2).
  destruct (x_run_sim k Hk _ _ _ _ _ _ _ _ _ _ _ _ _ _ (inv_init k Hk) OK R1) as (T & K & D & V & St & fw & fp & fq & I & _).
  assert (OK' : Forall act_ok li) by (eapply Forall_impl; [exact Hli|]; intros a Ha; by destruct a).
  destruct (x_run_sim k Hk _ _ _ _ _ _ _ _ _ _ _ _ _ _ I OK' R2) as (T' & K' & D' & V' & St' & fw' & fp' & fq' & _ & _ & _ & M).
  specialize (M Hli). pose proof (meas_bound k Hk _ _ _ _ _ _ _ _ _ _ I). lia.
Qed.
Print Assumptions C56_rests_partial.

(** An empty chain is accepted; a packet that is accepted after it and flushed is never sent. *)
Theorem C56_empty_refuted : exists l q v es,
  x_run (tx_new 512, dev_new) l = Some (q, v, es) /\ flushes false l /\
  (forall a, x_internal a -> x_step (q, v) a = None) /\
  XvEnq ([], false) true ∈ es /\ XvEnq ([(4096, 60)%N], true) true ∈ es /\ (forall p, XvWire p ∉ es) /\
  tx_can_dequeue q true = Some (q, 0).
Proof.
  set (l := [XEnq ([], false); XStep; XFlush; XPop; XEnq ([(4096, 60)%N], true); XStep; XStep; XFlush; XSleep]).
  destruct (x_run (tx_new 512, dev_new) l) as [[[q v] es]|] eqn:E; [|by vm_compute in E].
  exists l, q, v, es. vm_compute in E. injection E as <- <- <-. split; [reflexivity|]. split; [cbn; done|].
  split; [intros []; by vm_compute|]. split; [set_solver|]. split; [set_solver|]. split; [intros p; set_solver|]. by vm_compute.
Qed.
Print Assumptions C56_empty_refuted.

(** The length of a segment is cut to 14 bits, and 0 stands for 16384: one byte more than
    16384 is sent as one byte, and an empty segment as 16384 bytes. *)
Theorem C56_length_refuted : exists l1 l2,
  option_map snd (x_run (tx_new 512, dev_new) l1)
    = Some [XvEnq ([(4096, 16385)%N], true) true; XvFlush; XvWire [(4096, 1)%N]] /\
  option_map snd (x_run (tx_new 512, dev_new) l2)
    = Some [XvEnq ([(4096, 0)%N], true) true; XvFlush; XvWire [(4096, 16384)%N]].
Proof.
  exists [XEnq ([(4096, 16385)%N], true); XStep; XStep; XFlush; XPop], [XEnq ([(4096, 0)%N], true); XStep; XStep; XFlush; XPop].
  split; by vm_compute.
Qed.
Print Assumptions C56_length_refuted.

(** More than 32 segments panic, although there are descriptors. *)
Theorem C56_segments_refuted : exists c, length c.1 = 33 /\ tx_can_enqueue (tx_new 512) (length c.1) = true /\
  option_map snd (x_run (tx_new 512, dev_new) [XEnq c]) = Some [XvPanic].
Proof. exists (replicate 33 (4096, 60)%N, true). split; [done|]. split; by vm_compute. Qed.
Print Assumptions C56_segments_refuted.

(** Without a flush after every enqueue: [flush] compares positions in the ring, so when the ring
    went around since the last one it does not wake the card. *)
Theorem C56_flush_refuted : exists l c q v es, Forall act_ok l /\
  x_run (tx_new 4, dev_new) (l ++ [XFlush]) = Some (q, v, es) /\
  (forall a, x_internal a -> x_step (q, v) a = None) /\ XvEnq c true ∈ es /\ (forall p, XvWire p ∈ es -> p <> c.1).
Proof.
  set (p := fun i => ([(i, 60)%N], true) : tchain).
  set (one := fun i => [XEnq (p i); XStep; XStep]).
  set (sent := [XPop; XComp; XCan true]).
  set (l := one 1%N ++ [XFlush] ++ sent ++ one 2%N ++ sent ++ one 3%N ++ sent ++ one 4%N ++ sent ++ [XSleep] ++ one 5%N).
  destruct (x_run (tx_new 4, dev_new) (l ++ [XFlush])) as [[[q v] es]|] eqn:E; [|by vm_compute in E].
  exists l, (p 5%N), q, v, es. vm_compute in E. injection E as <- <- <-.
  split. { subst l one sent p. cbn [app]. repeat (apply Forall_cons; split; [first [done|split; [cbn; lia|apply stdpp.list.Forall_singleton; cbn; lia]]|]). done. }
  split; [reflexivity|]. split; [intros []; by vm_compute|]. split; [set_solver|].
  intros x Hx ->. cbn in Hx. set_solver.
Qed.
Print Assumptions C56_flush_refuted.

(** A history around a ring of four descriptors: a refused chain, two packets of two segments,
    all sent and given back. *)
Definition c56_a : tchain := ([(4096, 1514)%N; (8192, 16384)%N], false).
Definition c56_b : tchain := ([(12288, 60)%N; (16384, 1)%N], true).
Example C56_hyps_met :
  let l := [XEnq c56_a; XStep; XStep; XStep; XFlush; XEnq c56_b; XFlush; XPop; XPop; XComp; XCan false; XEnq c56_b; XStep; XStep; XSleep; XStep] in
  let li := [XPop; XPop; XSleep; XComp] in
  Forall act_ok l /\ flushes false l /\ Forall x_internal li /\
  match x_run (tx_new (2 ^ 2), dev_new) (l ++ XFlush :: li) with
  | Some (q, v, es) =>
      es = [XvEnq c56_a true; XvFlush; XvEnq c56_b false; XvFlush; XvWire c56_a.1; XvCan false 1; XvEnq c56_b true; XvFlush; XvWire c56_b.1] /\
      (forall a, x_internal a -> x_step (q, v) a = None)
  | None => False
  end.
Proof.
  assert (A : chain_ok c56_a) by (split; [cbn; lia|repeat (apply Forall_cons; split; [cbn; lia|]); done]).
  assert (B : chain_ok c56_b) by (split; [cbn; lia|repeat (apply Forall_cons; split; [cbn; lia|]); done]).
  cbn zeta.
  split; [repeat (apply Forall_cons; split; [done|]); done|]. split; [cbn; done|].
  split; [repeat (apply Forall_cons; split; [done|]); done|].
  vm_compute. split; [reflexivity|]. by intros [].
Qed.
