(** C57: the receive queue of the network card. *)
From Verif Require Import Base NrxModel NrxSpec NrxProofs.

(** For every number of descriptors up to 2048 and every interleaving of the calls (with chains of two
    buffers of 1 to 16383 bytes), of the stores an enqueue makes, of packets that come in and of the
    steps of the card: when the user keeps fewer chains in the queue than there are descriptors
    for and gives no buffer twice, no call panics, packets come back in order, each once, in the
    buffers of the oldest chain and with the bytes that came in; one that does not fit comes back
    as an empty chain; one is lost only when there is no chain.  [can_dequeue] tells the number of
    packets.  The card deals with packets in order and in at most four steps for each.  Partial:
    other chains and users, see below. *)
Theorem C57_receives_partial : forall n l q v es, 2 <= n <= 2048 -> Forall ract_ok l ->
  rx_run (rx_new n, rdev_new) l = Some (q, v, es) -> careful n [] es ->
  RvPanic ∉ es /\ (exists s, rxs_steps rxs_init es s) /\
  ticks l <= 4 * length (arrived l) /\
  (exists p, arrived l = dealt es ++ p /\ length p <= 1) /\
  (rx_step (q, v) RTick = None -> arrived l = dealt es).
Proof.
  intros n l q v es [Hn Hn2] OK R C.
  destruct (rx_run_sim n Hn Hn2 l _ _ _ _ _ _ _ _ _ _ _ _ _ _ _ (ri_init n Hn Hn2) OK R C)
    as (P & D & K & St & lead & Ls & Lp & got & cc & fr & I & NS & _ & M & A).
  split; [by eapply rss_fine|]. split; [eexists; exact NS|]. cbn in M. split; [lia|].
  change (curp rdev_new) with (@nil (list N)) in A. cbn [app] in A. rewrite A. split.
  - exists (curp v). split; [done|]. unfold curp. destruct (d_cur v) as [[]|]; cbn; lia.
  - cbn [rx_step]. unfold rdev_tick, curp. destruct (d_cur v) as [[p|p rest idx len sop]|]; [| |by rewrite app_nil_r].
    + destruct (rdev_fetch q v) as [d|]; [|done]. by destruct (r_body d).
    + unfold rdev_put. destruct rest; [done|]. destruct (rdev_fetch q v) as [d|]; [|done]. by destruct (r_body d).
Qed.
Print Assumptions C57_receives_partial.

(** Used as the network stack does, with one chain in the queue at a time and packets that fit its
    first buffer, no chain is ever refused. *)
Theorem C57_single_partial : forall n b l q v es, 3 <= n <= 2048 -> Forall ract_ok l ->
  rx_run (rx_new n, rdev_new) l = Some (q, v, es) -> careful n [] es -> single b 0 es ->
  forall c, RvEnq c false ∉ es.
Proof.
  intros n b l q v es [Hn Hn2] OK R C Sg.
  assert (H2 : 2 <= n) by lia.
  destruct (rx_run_sim n H2 Hn2 l _ _ _ _ _ _ _ _ _ _ _ _ _ _ _ (ri_init n H2 Hn2) OK R C)
    as (P & D & K & St & lead & Ls & Lp & got & cc & fr & I & NS & S1 & _).
  apply (S1 b Hn); [|exact Sg]. split; [done|]. split; constructor.
Qed.
Print Assumptions C57_single_partial.

Definition c57_chain (i : N) : rchain := [(8192 * i, 2048)%N; (8192 * i + 4096, 2048)%N].
Definition c57_enq (i : N) : list rxact := [REnq (c57_chain i); RStep; RStep; RStep].
Lemma c57_chain_ok i : rchain_ok (c57_chain i).
Proof. split; [done|]. repeat (apply Forall_cons; split; [cbn; lia|]). done. Qed.

(** The queue does not count descriptors: it accepts more chains than it has room for, and then
    the card finds none of them: every packet is lost. *)
Theorem C57_overflow_refuted : exists l q v es, Forall ract_ok l /\
  rx_run (rx_new 8, rdev_new) l = Some (q, v, es) /\ length (k_infl q) = 5 /\
  (forall c, RvEnq c false ∉ es) /\
  forall p, rx_run (q, v) [RPkt p; RTick] = Some (q, v, [RvLost p]).
Proof.
  set (l := c57_enq 1 ++ c57_enq 2 ++ c57_enq 3 ++ c57_enq 4 ++ c57_enq 5).
  destruct (rx_run (rx_new 8, rdev_new) l) as [[[q v] es]|] eqn:E; [|by vm_compute in E].
  exists l, q, v, es. split.
  { subst l. unfold c57_enq. cbn [app]. repeat (apply Forall_cons; split; [first [apply c57_chain_ok|done]|]). done. }
  vm_compute in E. injection E as <- <- <-. split; [reflexivity|]. split; [done|]. split; [intros c; set_solver|]. done.
Qed.
Print Assumptions C57_overflow_refuted.

(** The same with chains that are given back: [dequeue] makes room before the card has passed
    over the second descriptor of the chain. *)
Theorem C57_full_refuted : exists l q v es, Forall ract_ok l /\
  rx_run (rx_new 8, rdev_new) l = Some (q, v, es) /\ length (k_infl q) = 4 /\
  (forall c, RvEnq c false ∉ es) /\
  forall p, rx_run (q, v) [RPkt p; RTick] = Some (q, v, [RvLost p]).
Proof.
  set (l := c57_enq 1 ++ c57_enq 2 ++ c57_enq 3 ++ c57_enq 4 ++ [RPkt [7%N]; RTick; RTick; RDeq] ++ c57_enq 5).
  destruct (rx_run (rx_new 8, rdev_new) l) as [[[q v] es]|] eqn:E; [|by vm_compute in E].
  exists l, q, v, es. split.
  { subst l. unfold c57_enq. cbn [app]. repeat (apply Forall_cons; split; [first [apply c57_chain_ok|done]|]). done. }
  vm_compute in E. injection E as <- <- <-. split; [reflexivity|]. split; [done|]. split; [intros c; set_solver|]. done.
Qed.
Print Assumptions C57_full_refuted.

(** [len] compares positions in two different rings: with two chains in the queue at a time, and
    packets that fit the first buffer, a chain is refused although the queue holds one only. *)
Theorem C57_refuses_refuted : exists l q v es c, Forall ract_ok l /\
  rx_run (rx_new 8, rdev_new) l = Some (q, v, es ++ [RvEnq c false]) /\ careful 8 [] (es ++ [RvEnq c false]) /\
  length (k_infl q) = 1 /\ rx_len q = 7.
Proof.
  set (one := fun i => [RPkt [i]; RTick; RTick; RTick; RDeq] ++ c57_enq i).
  set (l := c57_enq 1 ++ c57_enq 2 ++ [RPkt [7%N]; RTick; RTick; RDeq] ++ c57_enq 3 ++ one 4%N ++ one 5%N ++ one 6%N ++ one 7%N ++ one 8%N
            ++ [RPkt [7%N]; RTick; RTick; RTick; RDeq; REnq (c57_chain 9)]).
  assert (O : Forall ract_ok l).
  { subst l one. unfold c57_enq. cbn [app]. repeat (apply Forall_cons; split; [first [apply c57_chain_ok|done]|]). done. }
  destruct (rx_run (rx_new 8, rdev_new) l) as [[[q v] es]|] eqn:E; [|by vm_compute in E].
  exists l, q, v, (take (length es - 1) es), (c57_chain 9). split; [done|].
  assert (Ee : take (length es - 1) es ++ [RvEnq (c57_chain 9) false] = es).
  { vm_compute in E. injection E as <- <- <-. by vm_compute. }
  rewrite Ee. split; [done|]. clear Ee O. vm_compute in E. injection E as <- <- <-. clear l one.
  split; [|by vm_compute].
  cbn [careful tail app length].
  repeat match goal with |- _ /\ _ => split end; try lia; try done;
    try (cbn; apply (bool_decide_unpack _); by vm_compute);
    try (repeat (apply Forall_cons; split; [intros a Ha; cbn in *; set_solver|]); done).
Qed.
Print Assumptions C57_refuses_refuted.

(** An empty packet is passed over but its chain is not: the next packet comes back in the
    buffers of the wrong chain, without its bytes. *)
Theorem C57_empty_refuted : exists l q v es p r,
  rx_run (rx_new 8, rdev_new) l = Some (q, v, es) /\ careful 8 [] es /\
  RvPkt p true ∈ es /\ RvDeq (Some r) ∈ es /\ g_total r = length p /\ g_data r <> p.
Proof.
  set (l := c57_enq 1 ++ c57_enq 2 ++ [RPkt []; RTick; RTick; RPkt [7%N]; RTick; RTick; RTick; RDeq]).
  destruct (rx_run (rx_new 8, rdev_new) l) as [[[q v] es]|] eqn:E; [|by vm_compute in E].
  exists l, q, v, es, [7%N], (mkGot [(8192, 1)%N; (12288, 2048)%N] 1 1 []).
  vm_compute in E. injection E as <- <- <-. split; [reflexivity|]. split.
  { cbn [careful tail app length].
  repeat match goal with |- _ /\ _ => split end; try lia; try done;
    try (cbn; apply (bool_decide_unpack _); by vm_compute);
    try (repeat (apply Forall_cons; split; [intros a Ha; cbn in *; set_solver|]); done). }
  split; [set_solver|]. split; [set_solver|]. done.
Qed.
Print Assumptions C57_empty_refuted.

(** A chain that is not of two buffers panics although [can_enqueue] says yes; and the length of a
    buffer is cut to 14 bits: two buffers of 16384 bytes do not take a packet of one. *)
Theorem C57_chains_refuted :
  (forall c, length c <= 8 -> length c <> 2 -> option_map snd (rx_run (rx_new 8, rdev_new) [REnq c]) = Some [RvPanic]) /\
  rx_can_enqueue (rx_new 8) 1 = true /\
  let c := [(8192, 16384)%N; (32768, 16384)%N] in
  option_map snd (rx_run (rx_new 8, rdev_new) ([REnq c; RStep; RStep; RStep] ++ [RPkt [7%N]; RTick; RTick; RTick; RDeq]))
    = Some [RvEnq c true; RvRet; RvPkt [7%N] false; RvDeq None].
Proof.
  split; [|split; by vm_compute]. intros c H1 H2. cbn [rx_run rx_step rx_new k_enq rx_enq_start]. unfold rx_enq_start.
  change (rx_capacity (rx_new 8) - rx_len (rx_new 8)) with 8.
  destruct (Nat.ltb_spec 8 (length c)); [lia|]. by destruct (Nat.eqb_spec (length c) 2).
Qed.
Print Assumptions C57_chains_refuted.

(** A history around a ring of five descriptors: one chain at a time; three packets that fit the first
    buffer, the last after one that is lost; and one that takes both buffers. *)
Example C57_hyps_met :
  let l := c57_enq 1 ++ [RFlush; RPkt [1; 2; 3]%N; RTick; RTick; RCan true; RDeq] ++ c57_enq 2 ++
           [RDeq; RPkt [4%N]; RTick; RTick; RTick; RPkt [5%N]; RTick; RTick; RCan false; RDeq; REnq (c57_chain 3); RStep; RPkt [6%N]; RTick; RStep; RTick; RStep; RDeq] in
  Forall ract_ok l /\
  match rx_run (rx_new 5, rdev_new) l with
  | Some (q, v, es) => careful 5 [] es /\ single 2048 0 es /\ dealt es = [[1; 2; 3]; [4]; [5]; [6]]%N /\
      omap (fun e => match e with RvDeq (Some r) => Some (g_data r) | _ => None end) es = [[1; 2; 3]; [4]; [6]]%N
  | None => False
  end.
Proof.
  cbn zeta. split. { unfold c57_enq. cbn [app]. repeat (apply Forall_cons; split; [first [apply c57_chain_ok|done]|]). done. }
  destruct (rx_run _ _) as [[[q v] es]|] eqn:E; [|by vm_compute in E].
  vm_compute in E. injection E as <- <- <-. split.
  { cbn [careful tail app length].
  repeat match goal with |- _ /\ _ => split end; try lia; try done;
    try (cbn; apply (bool_decide_unpack _); by vm_compute). }
  split; [|by vm_compute]. cbn [single first_room length pred]. cbn. repeat split; try lia.
Qed.
