(** C82: the network card finds the queues, the shared record and the hardware
    address that the driver has set up. *)
From Verif Require Import Base VmxModel VmxSpec VmxProofs.
Local Open Scope N_scope.

(** The records of all queues lie in the area that was allocated, whatever number
    of queues is asked for, and no two overlap; other queues do not exist. *)
Theorem C82_area nrx trx buf tx rx ds m :
  set_up nrx trx buf tx rx = (ds, m) →
  ∃ ntx nrx', 1 ≤ ntx ≤ 8 ∧ 1 ≤ nrx' ≤ 16 ∧
    (1 ≤ trx ≤ 8 → ntx = trx) ∧ (1 ≤ nrx ≤ 16 → nrx' = nrx) ∧
    (∀ i, tx_ref buf ntx i = None ↔ ntx ≤ i) ∧ (∀ i, rx_ref buf ntx nrx' i = None ↔ nrx' ≤ i) ∧
    (∀ i a, tx_ref buf ntx i = Some a ∨ rx_ref buf ntx nrx' i = Some a →
            queue_shared ds ≤ a ∧ a + 256 ≤ queue_shared ds + queue_shared_len ds) ∧
    (∀ i j a b, tx_ref buf ntx i = Some a → rx_ref buf ntx nrx' j = Some b → a + 256 ≤ b) ∧
    (∀ i j a b, i < j → tx_ref buf ntx i = Some a → tx_ref buf ntx j = Some b → a + 256 ≤ b) ∧
    (∀ i j a b, i < j → rx_ref buf ntx nrx' i = Some a → rx_ref buf ntx nrx' j = Some b → a + 256 ≤ b).
Proof.
  intros E. unfold set_up in E. injection E as <- <-. cbn [queue_shared queue_shared_len].
  exists (bounded 1 MAX_TX_QUEUES trx), (bounded 1 MAX_RX_QUEUES nrx).
  unfold bounded, MAX_TX_QUEUES, MAX_RX_QUEUES, area_size.
  set (t := N.max (N.min trx 8) 1). set (r := N.max (N.min nrx 16) 1).
  assert (Ht : t = N.max (N.min trx 8) 1) by reflexivity. assert (Hr : r = N.max (N.min nrx 16) 1) by reflexivity.
  clearbody t r. split; [lia|]. split; [lia|]. split; [lia|]. split; [lia|].
  unfold tx_ref, rx_ref. repeat split.
  - destruct (i <? t) eqn:Q; [discriminate|]. intros _. apply N.ltb_ge. exact Q.
  - intros H. apply N.ltb_ge in H. rewrite H. reflexivity.
  - destruct (i <? r) eqn:Q; [discriminate|]. intros _. apply N.ltb_ge. exact Q.
  - intros H. apply N.ltb_ge in H. rewrite H. reflexivity.
  - destruct H as [H|H].
    + destruct (i <? t) eqn:Q; [|discriminate]. apply N.ltb_lt in Q. apply (inj Some) in H; subst a; lia.
    + destruct (i <? r) eqn:Q; [|discriminate]. apply N.ltb_lt in Q. apply (inj Some) in H; subst a; lia.
  - destruct H as [H|H].
    + destruct (i <? t) eqn:Q; [|discriminate]. apply N.ltb_lt in Q. apply (inj Some) in H; subst a; lia.
    + destruct (i <? r) eqn:Q; [|discriminate]. apply N.ltb_lt in Q. apply (inj Some) in H; subst a; lia.
  - intros i j a b. destruct (i <? t) eqn:Q; [|discriminate]. destruct (j <? r) eqn:P; [|discriminate].
    apply N.ltb_lt in Q, P. intros A1 A2; apply (inj Some) in A1, A2; subst a b; lia.
  - intros i j a b L. destruct (i <? t) eqn:Q; [|discriminate]. destruct (j <? t) eqn:P; [|discriminate].
    apply N.ltb_lt in Q, P. intros A1 A2; apply (inj Some) in A1, A2; subst a b; lia.
  - intros i j a b L. destruct (i <? r) eqn:Q; [|discriminate]. destruct (j <? r) eqn:P; [|discriminate].
    apply N.ltb_lt in Q, P. intros A1 A2; apply (inj Some) in A1, A2; subst a b; lia.
Qed.
Print Assumptions C82_area.

(** With as many transmit as receive queues, the card finds each queue.
    Missing: different numbers. *)
Theorem C82_queues_partial n buf tx rx ds m :
  1 ≤ n ≤ 8 → set_up n n buf tx rx = (ds, m) →
  ntxqueue ds = n ∧ nrxqueue ds = n ∧
  ∀ i, i < n → card_tx ds m i = tx i ∧ card_rx ds m i = rx i.
Proof.
  intros Hn E. unfold set_up, bounded, MAX_TX_QUEUES, MAX_RX_QUEUES in E.
  replace (N.max (N.min n 8) 1) with n in E by lia. replace (N.max (N.min n 16) 1) with n in E by lia.
  injection E as <- <-. cbn [ntxqueue nrxqueue]. rewrite N.mod_small by lia.
  split; [reflexivity|]. split; [reflexivity|]. intros i Hi. unfold card_tx, card_rx.
  cbn [queue_shared ntxqueue]. split.
  - pose proof (λ f, tx_value buf n n tx rx (λ _, 0) i f Hi) as V. unfold tx_fields in V.
    pose proof (V (16, t_cmd (tx i)) ltac:(repeat constructor)) as V1.
    pose proof (V (56, t_cmd_len (tx i)) ltac:(repeat constructor)) as V2.
    pose proof (V (32, t_comp (tx i)) ltac:(repeat constructor)) as V3.
    pose proof (V (64, t_comp_len (tx i)) ltac:(repeat constructor)) as V4.
    pose proof (V (40, t_data (tx i)) ltac:(repeat constructor)) as V5.
    pose proof (V (68, t_data_len (tx i)) ltac:(repeat constructor)) as V6.
    cbn [fst snd] in *. rewrite V1, V2, V3, V4, V5, V6. destruct (tx i). reflexivity.
  - pose proof (λ f, rx_value buf n n tx rx (λ _, 0) i f Hi) as V. unfold rx_fields in V.
    pose proof (V (16, r_cmd0 (rx i)) ltac:(repeat constructor)) as V1.
    pose proof (V (56, r_len0 (rx i)) ltac:(repeat constructor)) as V2.
    pose proof (V (24, r_cmd1 (rx i)) ltac:(repeat constructor)) as V3.
    pose proof (V (60, r_len1 (rx i)) ltac:(repeat constructor)) as V4.
    pose proof (V (32, r_comp (rx i)) ltac:(repeat constructor)) as V5.
    pose proof (V (64, r_comp_len (rx i)) ltac:(repeat constructor)) as V6.
    pose proof (V (40, r_data (rx i)) ltac:(repeat constructor)) as V7.
    pose proof (V (68, r_data_len (rx i)) ltac:(repeat constructor)) as V8.
    cbn [fst snd] in *. rewrite V1, V2, V3, V4, V5, V6, V7, V8. destruct (rx i). reflexivity.
Qed.
Print Assumptions C82_queues_partial.

(** Whatever the numbers of queues, all the records are in the area: a card that
    was told the right numbers finds each queue, and this card each transmit queue. *)
Theorem C82_stored nrx trx buf tx rx ds m ds' :
  1 ≤ trx ≤ 8 → 1 ≤ nrx ≤ 16 → set_up nrx trx buf tx rx = (ds, m) →
  queue_shared ds' = queue_shared ds → ntxqueue ds' = trx →
  queue_shared ds = buf ∧ queue_shared_len ds = 256 * trx + 256 * nrx ∧
  (∀ i, i < trx → card_tx ds m i = tx i) ∧ (∀ i, i < nrx → card_rx ds' m i = rx i).
Proof.
  intros Ht Hr E Q N'. unfold set_up, bounded, MAX_TX_QUEUES, MAX_RX_QUEUES in E.
  replace (N.max (N.min trx 8) 1) with trx in E by lia. replace (N.max (N.min nrx 16) 1) with nrx in E by lia.
  injection E as <- <-. cbn [queue_shared queue_shared_len] in *.
  split; [reflexivity|]. split; [unfold area_size; lia|].
  unfold card_tx, card_rx. rewrite Q, N'. split.
  - intros i Hi; cbn [queue_shared ntxqueue].
    pose proof (λ f, tx_value buf trx nrx tx rx (λ _, 0) i f Hi) as V. unfold tx_fields in V.
    pose proof (V (16, t_cmd (tx i)) ltac:(repeat constructor)) as V1.
    pose proof (V (56, t_cmd_len (tx i)) ltac:(repeat constructor)) as V2.
    pose proof (V (32, t_comp (tx i)) ltac:(repeat constructor)) as V3.
    pose proof (V (64, t_comp_len (tx i)) ltac:(repeat constructor)) as V4.
    pose proof (V (40, t_data (tx i)) ltac:(repeat constructor)) as V5.
    pose proof (V (68, t_data_len (tx i)) ltac:(repeat constructor)) as V6.
    cbn [fst snd] in *. rewrite V1, V2, V3, V4, V5, V6. destruct (tx i). reflexivity.
  - intros i Hi; cbn [queue_shared ntxqueue].
    pose proof (λ f, rx_value buf trx nrx tx rx (λ _, 0) i f Hi) as V. unfold rx_fields in V.
    pose proof (V (16, r_cmd0 (rx i)) ltac:(repeat constructor)) as V1.
    pose proof (V (56, r_len0 (rx i)) ltac:(repeat constructor)) as V2.
    pose proof (V (24, r_cmd1 (rx i)) ltac:(repeat constructor)) as V3.
    pose proof (V (60, r_len1 (rx i)) ltac:(repeat constructor)) as V4.
    pose proof (V (32, r_comp (rx i)) ltac:(repeat constructor)) as V5.
    pose proof (V (64, r_comp_len (rx i)) ltac:(repeat constructor)) as V6.
    pose proof (V (40, r_data (rx i)) ltac:(repeat constructor)) as V7.
    pose proof (V (68, r_data_len (rx i)) ltac:(repeat constructor)) as V8.
    cbn [fst snd] in *. rewrite V1, V2, V3, V4, V5, V6, V7, V8. destruct (rx i). reflexivity.
Qed.
Print Assumptions C82_stored.

Definition ex_tx (i : N) : tx_queue := mkTx (4096 + i) 512 (8192 + i) 512 (12288 + i) 100.
Definition ex_rx (i : N) : rx_queue := mkRx (16384 + i) 256 (20480 + i) 256 (24576 + i) 512 (28672 + i) 100.

(** With two receive queues and one transmit queue, the card is told the numbers
    the wrong way round: its second transmit queue is the record of a receive
    queue, and its receive queue is another one than the driver's. *)
Theorem C82_queues_refuted :
  ∃ ds m, set_up 2 1 65536 ex_tx ex_rx = (ds, m) ∧
    ntxqueue ds = 2 ∧ nrxqueue ds = 1 ∧
    t_cmd (card_tx ds m 1) = r_cmd0 (ex_rx 0) ∧ card_rx ds m 0 = ex_rx 1.
Proof.
  eexists _, _. split; [unfold set_up; reflexivity|]. vm_compute. repeat split.
Qed.
Print Assumptions C82_queues_refuted.

(** The card gets the address of the shared record. *)
Theorem C82_address a : (split_addr a).1 + 2 ^ 32 * (split_addr a).2 = a ∧ (split_addr a).1 < 2 ^ 32 ∧
  (a < 2 ^ 64 → (split_addr a).2 < 2 ^ 32).
Proof.
  unfold split_addr. cbn [fst snd]. split.
  - rewrite N.add_comm. symmetry. apply N.div_mod. discriminate.
  - split; [apply N.mod_lt; discriminate|]. intros H. apply N.div_lt_upper_bound; [discriminate|exact H].
Qed.
Print Assumptions C82_address.

(** The hardware address is the six bytes that the card reports, and the card is
    given the same. *)
Theorem C82_mac low high :
  low < 2 ^ 32 →
  retrieve low high = [byte low 0; byte low 1; byte low 2; byte low 3; byte high 0; byte high 1] ∧
  set_lladdr low high = (low, high mod 2 ^ 16).
Proof. intros H. split; [apply retrieve_bytes|apply set_lladdr_eq; exact H]. Qed.
Print Assumptions C82_mac.

(** The interrupts of the card are enough for all queues and events and no more
    than it has. *)
Theorem C82_interrupts nrx trx buf tx rx ds m :
  set_up nrx trx buf tx rx = (ds, m) →
  nintr ds = ntxqueue ds + nrxqueue ds + 1 ∧ nintr ds ≤ 25 ∧ evintr ds < nintr ds.
Proof.
  intros E. unfold set_up in E. injection E as <- <-. cbn [nintr evintr ntxqueue nrxqueue].
  unfold bounded, MAX_TX_QUEUES, MAX_RX_QUEUES. rewrite !N.mod_small by lia. lia.
Qed.
Print Assumptions C82_interrupts.

(** The event interrupt is meant to be the last one, and is not. *)
Theorem C82_event_refuted nrx trx buf tx rx :
  let ds := (set_up nrx trx buf tx rx).1 in evintr ds + 1 < nintr ds.
Proof.
  unfold set_up. cbn [fst nintr evintr]. unfold bounded, MAX_TX_QUEUES, MAX_RX_QUEUES.
  rewrite !N.mod_small by lia. lia.
Qed.
Print Assumptions C82_event_refuted.

(** The driver attaches exactly to cards with a supported interrupt mode and
    version 1 of both interfaces. *)
Theorem C82_attach intr vrrs uvrs :
  attach_pre intr vrrs uvrs = Attached ↔
  (intr = 0 ∨ intr = 3) ∧ vrrs mod 2 = 1 ∧ uvrs mod 2 = 1.
Proof.
  unfold attach_pre. change 1 with (N.ones 1) at 1 2. rewrite !N.land_ones. change (2 ^ 1) with 2.
  pose proof (N.mod_lt vrrs 2 ltac:(lia)). pose proof (N.mod_lt uvrs 2 ltac:(lia)).
  set (a := vrrs mod 2) in *. set (b := uvrs mod 2) in *. clearbody a b.
  destruct (intr =? 0) eqn:I0; [apply N.eqb_eq in I0|apply N.eqb_neq in I0];
    (destruct (intr =? 3) eqn:I3; [apply N.eqb_eq in I3|apply N.eqb_neq in I3]); cbn [negb andb];
    (destruct (a =? 0) eqn:A; [apply N.eqb_eq in A|apply N.eqb_neq in A]);
    (destruct (b =? 0) eqn:B; [apply N.eqb_eq in B|apply N.eqb_neq in B]);
    split; intros Q; try discriminate Q; try reflexivity; try lia.
Qed.
Print Assumptions C82_attach.

(** The driver's idea of the link is what the card last said. *)
Theorem C82_link active answer :
  link_status active answer = true ↔ answer mod 2 = 1.
Proof.
  unfold link_status. change (N.land answer 1) with (N.land answer (N.ones 1)).
  rewrite N.land_ones. change (2 ^ 1) with 2.
  pose proof (N.mod_lt answer 2 ltac:(lia)) as L. revert L. generalize (answer mod 2). intros a L.
  destruct (0 <? a) eqn:Q; [apply N.ltb_lt in Q|apply N.ltb_ge in Q]; destruct active; cbn [negb andb];
    split; intros X; first [discriminate X|reflexivity|lia].
Qed.
Print Assumptions C82_link.

Example C82_hyps_met :
  ∃ ds m, set_up 3 3 65536 ex_tx ex_rx = (ds, m) ∧ queue_shared_len ds = 1536 ∧
    card_tx ds m 2 = ex_tx 2 ∧ card_rx ds m 1 = ex_rx 1 ∧
    set_lladdr 3913593942 53346 = (3913593942, 53346) ∧
    retrieve 3913593942 53346 = [86; 180; 68; 233; 98; 208].
Proof.
  eexists _, _. split; [unfold set_up; reflexivity|]. vm_compute. repeat split.
Qed.
