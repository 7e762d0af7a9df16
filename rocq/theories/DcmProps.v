(** C39: assignments from the external cluster scheduler are recorded faithfully.

    A request for n resources returns, for each of the n allocation ids, exactly the node the
    external scheduler assigned to that id, however its notifications interleave with the
    request.  Proved: whatever the interleaving, a call that returns returns exactly the
    assigned nodes, cores first, in id order.  A call all of whose ids have been notified does
    return if the scheduler is never faster than the registration of the calls; otherwise it
    may hang forever (refutations below). *)
From Verif Require Import Base DcmModel DcmSpec DcmProofs.

(** A call that returns returns the assignment of each of its ids, in order. *)
Theorem C39_returns_assigned assign l q r :
  sched_ok_run assign dcm_init l ->
  d_reqs (dcm_run dcm_init l) !! q = Some r -> returned r ->
  q_oc r = assign <$> seq (q_id r) (q_cores r) /\ q_om r = assign <$> seq (q_id r + q_cores r) (q_mem r).
Proof. intros H Hq HR. eapply returned_assigned; [|done|done]. apply dj_run; [apply dj_init|done]. Qed.

(** When no notification arrives before its call has registered, a call all of whose ids have
    been notified returns after at most two steps per missing id, whatever happened before.
    (Missing for the full claim: early notifications; false, see below.) *)
Theorem C39_completes_partial assign l q r :
  sched_ok_run assign dcm_init l -> timely_run dcm_init l ->
  d_reqs (dcm_run dcm_init l) !! q = Some r -> registered r ->
  (forall id, of_req r id -> id ∈ (d_noted (dcm_run dcm_init l)).*1) ->
  exists r', d_reqs (dcm_run (dcm_run dcm_init l) (replicate (2 * (q_n r - q_recv r)) (APoll q))) !! q = Some r' /\ returned r'.
Proof.
  intros H T Hq Hr HN. pose proof (dj_run _ _ _ (dj_init assign) H) as D. pose proof (dk_run _ _ _ (dj_init assign) dk_init H T) as K.
  pose proof (j_req _ _ D _ _ Hq) as Q. eapply polls_complete; [done|done|apply Q| | |lia].
  - intros v Hv. by apply (dq_got _ _ _ _ Q) in Hv as [? _].
  - intros i Hi. eapply k_cell; [done|done|done|lia|]. apply HN. unfold of_req. lia.
Qed.

(** The general form of the defect: once the value of a notified id is not in the call's own
    atomic, and the call has not passed this id, the call never returns, however the system
    continues. *)
Theorem C39_lost_notification_hangs assign l q r i l' :
  sched_ok_run assign dcm_init (l ++ l') ->
  d_reqs (dcm_run dcm_init l) !! q = Some r -> registered r ->
  q_recv r <= i < q_n r -> q_id r + i ∈ (d_noted (dcm_run dcm_init l)).*1 ->
  cell_val (d_cells (dcm_run dcm_init l)) (q_base r + i) = 0 ->
  forall r', d_reqs (dcm_run dcm_init (l ++ l')) !! q = Some r' -> ~ returned r'.
Proof.
  intros H Hq Hr Hi HN Hc r' Hr'.
  assert (HA : forall s, dcm_run s (l ++ l') = dcm_run (dcm_run s l) l') by (clear; induction l as [|a l IH]; intros s; [done|]; apply IH).
  assert (HB : forall s, sched_ok_run assign s (l ++ l') -> sched_ok_run assign s l /\ sched_ok_run assign (dcm_run s l) l').
  { clear. induction l as [|a l IH]; intros s Hs; [done|]. destruct Hs as [H1 H2]. apply IH in H2 as [? ?]. done. }
  apply HB in H as [H1 H2]. rewrite HA in Hr'. eapply lost_hangs; [by apply dj_run; [apply dj_init|]|done|done|done|done|done|exact H2|exact Hr'].
Qed.

(** Two resources, the second notified before the registration and the first after it: the
    call records the early one, and then waits for the second id's atomic, which nobody will
    ever set. *)
Theorem C39_early_second_hangs_refuted : exists assign l, sched_ok_run assign dcm_init l /\
  (forall id, 0 <= id < 2 -> id ∈ (d_noted (dcm_run dcm_init l)).*1) /\
  forall l', sched_ok_run assign dcm_init (l ++ l') -> forall r', d_reqs (dcm_run dcm_init (l ++ l')) !! 0 = Some r' -> ~ returned r'.
Proof.
  exists (fun _ => 1), [ABegin 0 2 0; ANotify 1 1; ARegister 0; ANotify 0 1]. split; [|split].
  - cbn. split_and!; try done; try lia; try (intros r i Hr; by apply elem_of_nil in Hr); try (vm_compute; intros HH; repeat (apply elem_of_cons in HH as [HH|HH]; [by inversion HH|]); by apply elem_of_nil in HH).
  - intros id Hid. change (id ∈ [1; 0]). destruct id as [|[|]]; [right; left|left|lia].
  - intros l' HS. eapply (C39_lost_notification_hangs _ _ 0 _ 1 l' HS); [vm_compute; reflexivity|done|cbn; lia| |by vm_compute].
    vm_compute. left.
Qed.
(** Both notified before the registration: the first removes the second from the table. *)
Theorem C39_early_both_hangs_refuted : exists assign l, sched_ok_run assign dcm_init l /\
  (forall id, 0 <= id < 2 -> id ∈ (d_noted (dcm_run dcm_init l)).*1) /\
  forall l', sched_ok_run assign dcm_init (l ++ l') -> forall r', d_reqs (dcm_run dcm_init (l ++ l')) !! 0 = Some r' -> ~ returned r'.
Proof.
  exists (fun _ => 1), [ABegin 0 2 0; ANotify 0 1; ANotify 1 1; ARegister 0]. split; [|split].
  - cbn. split_and!; try done; try lia; try (intros r i Hr; by apply elem_of_nil in Hr); try (vm_compute; intros HH; repeat (apply elem_of_cons in HH as [HH|HH]; [by inversion HH|]); by apply elem_of_nil in HH).
  - intros id Hid. change (id ∈ [0; 1]). destruct id as [|[|]]; [left|right; left|lia].
  - intros l' HS. eapply (C39_lost_notification_hangs _ _ 0 _ 1 l' HS); [vm_compute; reflexivity|done|cbn; lia| |by vm_compute].
    vm_compute. right. left.
Qed.
(** Two calls for one resource each: the early notification of the first removes the table
    entry of the second, which then misses its own, timely notification. *)
Theorem C39_other_call_hangs_refuted : exists assign l, sched_ok_run assign dcm_init l /\
  (exists r0, d_reqs (dcm_run dcm_init l) !! 0 = Some r0 /\ returned r0) /\
  (forall id, 0 <= id < 2 -> id ∈ (d_noted (dcm_run dcm_init l)).*1) /\
  forall l', sched_ok_run assign dcm_init (l ++ l') -> forall r', d_reqs (dcm_run dcm_init (l ++ l')) !! 1 = Some r' -> ~ returned r'.
Proof.
  exists (fun _ => 1), [ABegin 0 1 0; ABegin 1 1 0; ANotify 0 1; ARegister 1; ARegister 0; ANotify 1 1]. split; [|split; [|split]].
  - cbn. split_and!; try done; try lia; try (intros r i Hr; by apply elem_of_nil in Hr); try (vm_compute; intros HH; repeat (apply elem_of_cons in HH as [HH|HH]; [by inversion HH|]); by apply elem_of_nil in HH).
    intros r i Hr. apply elem_of_list_singleton in Hr as ->. unfold of_req, q_n. simpl. lia.
  - eexists. split; [vm_compute; reflexivity|done].
  - intros id Hid. change (id ∈ [0; 1]). destruct id as [|[|]]; [left|right; left|lia].
  - intros l' HS. eapply (C39_lost_notification_hangs _ _ 1 _ 0 l' HS); [vm_compute; reflexivity|done|cbn; lia| |by vm_compute].
    vm_compute. right. left.
Qed.

(** Concrete cases: two calls interleaved; the second one's ids are notified in reverse. *)
Definition dcm_assign (i : nat) : nat := 1 + i `mod` 3.
Definition dcm_demo : list dact :=
  [ABegin 7 1 1; ABegin 20 2 1; ARegister 1; ANotify 22 2; ANotify 21 1; ARegister 0; ANotify 20 3; APoll 1; APoll 1; APoll 1;
   ANotify 7 2; APoll 0; APoll 0; APoll 1; APoll 1; APoll 1].
Lemma dcm_demo_ok : sched_ok_run dcm_assign dcm_init dcm_demo /\ timely_run dcm_init dcm_demo.
Proof.
  split.
  - unfold dcm_demo. cbn [sched_ok_run]. split_and!; cbn [sched_ok]; try done;
      try (split; [lia|]; intros r i Hr; vm_compute in Hr; repeat (apply elem_of_cons in Hr as [Hr|Hr]; [subst r; unfold of_req, q_n; simpl; lia|]); by apply elem_of_nil in Hr);
      (split; [by vm_compute|]; split; [lia|]; vm_compute; intros HH; repeat (apply elem_of_cons in HH as [HH|HH]; [by inversion HH|]); by apply elem_of_nil in HH).
  - unfold dcm_demo. cbn [timely_run]. split_and!; cbn [timely]; try done;
      match goal with |- exists r, r ∈ d_reqs ?s /\ _ /\ of_req r ?i =>
        first [ (destruct (d_reqs s !! 1) as [r|] eqn:E; [|by vm_compute in E]; exists r; split; [by eapply elem_of_list_lookup_2|]; vm_compute in E; injection E as <-; split; [done|unfold of_req, q_n; simpl; lia])
              | (destruct (d_reqs s !! 0) as [r|] eqn:E; [|by vm_compute in E]; exists r; split; [by eapply elem_of_list_lookup_2|]; vm_compute in E; injection E as <-; split; [done|unfold of_req, q_n; simpl; lia]) ] end.
Qed.
Example C39_returns_assigned_hyps_met : sched_ok_run dcm_assign dcm_init dcm_demo /\
  exists r, d_reqs (dcm_run dcm_init dcm_demo) !! 1 = Some r /\ returned r /\ q_oc r = [3; 1] /\ q_om r = [2].
Proof. split; [apply dcm_demo_ok|]. eexists. split; [vm_compute; reflexivity|]. done. Qed.
(** The first call lacks id 8; after its notification the theorem applies to it. *)
Example C39_completes_partial_hyps_met : let l := dcm_demo ++ [ANotify 8 3] in
  sched_ok_run dcm_assign dcm_init l /\ timely_run dcm_init l /\
  exists r, d_reqs (dcm_run dcm_init l) !! 0 = Some r /\ registered r /\ q_recv r = 1 /\
    forall id, of_req r id -> id ∈ (d_noted (dcm_run dcm_init l)).*1.
Proof.
  assert (HA : forall assign a l s, sched_ok_run assign s (l ++ [a]) <-> sched_ok_run assign s l /\ sched_ok assign (dcm_run s l) a).
  { intros assign a l. induction l as [|b l IH]; intros s; simpl; [tauto|]. rewrite IH. tauto. }
  assert (HB : forall a l s, timely_run s (l ++ [a]) <-> timely_run s l /\ timely (dcm_run s l) a).
  { intros a l. induction l as [|b l IH]; intros s; simpl; [tauto|]. rewrite IH. tauto. }
  cbv zeta. rewrite HA, HB. destruct dcm_demo_ok as [O1 O2]. split; [split; [done|]|split; [split; [done|]|]].
  - split; [by vm_compute|]. split; [lia|]. vm_compute. intros HH. repeat (apply elem_of_cons in HH as [HH|HH]; [by inversion HH|]). by apply elem_of_nil in HH.
  - destruct (d_reqs (dcm_run dcm_init dcm_demo) !! 0) as [r|] eqn:E; [|by vm_compute in E]. exists r. split; [by eapply elem_of_list_lookup_2|].
    vm_compute in E. injection E as <-. split; [done|unfold of_req, q_n; simpl; lia].
  - eexists. split; [vm_compute; reflexivity|]. split; [done|]. split; [done|]. unfold of_req, q_n. intros id Hid. cbn [q_id q_cores q_mem] in Hid.
    change (id ∈ [22; 21; 20; 7; 8]). assert (id = 7 \/ id = 8) as [-> | ->] by lia; repeat constructor.
Qed.
Example C39_lost_notification_hangs_hyps_met : let l := [ABegin 0 2 0; ANotify 1 1; ARegister 0] in
  sched_ok_run (fun _ => 1) dcm_init (l ++ [ANotify 0 1; APoll 0]) /\
  exists r, d_reqs (dcm_run dcm_init l) !! 0 = Some r /\ registered r /\ q_recv r <= 1 < q_n r /\ q_id r + 1 ∈ (d_noted (dcm_run dcm_init l)).*1 /\
    cell_val (d_cells (dcm_run dcm_init l)) (q_base r + 1) = 0.
Proof.
  split.
  - cbn. split_and!; try done; try lia; try (intros r i Hr; by apply elem_of_nil in Hr); try (vm_compute; intros HH; repeat (apply elem_of_cons in HH as [HH|HH]; [by inversion HH|]); by apply elem_of_nil in HH).
  - eexists. split; [vm_compute; reflexivity|]. split; [done|]. split; [cbn; lia|]. split; [vm_compute; left|by vm_compute].
Qed.

Print Assumptions C39_returns_assigned.
Print Assumptions C39_completes_partial.
Print Assumptions C39_lost_notification_hangs.
Print Assumptions C39_early_second_hangs_refuted.
Print Assumptions C39_early_both_hangs_refuted.
Print Assumptions C39_other_call_hangs_refuted.
