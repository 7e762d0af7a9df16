(** C62: a TLB shootdown that spans machines. *)
From Verif Require Import Base RtlModel RtlSpec RtlProofs.

Lemma covered_flushed s start m cs c : rinv s -> covered s start m cs -> c ∈ cs -> flushed_since s start (m, c).
Proof.
  intros I H Hc. destruct (H c Hc) as (id & A & B & C). exists id. split; [done|]. split; [done|]. split; [done|].
  intros P. destruct (ri_core s I id (m, c) C B) as [F|F]; [done|]. unfold in_process in P. rewrite P in F. by apply elem_of_nil in F.
Qed.
(** A call that returned: every core of every handle was asked to flush after the call began, acknowledged, and,
    unless it is still in the kernel, flushed.  So did the calling core. *)
Theorem C62_returns_only_after_flush_partial : forall cap rcap n nm tr g handles start,
  (g, handles, start) ∈ r_done (r_reach cap rcap n nm tr) ->
  flushed_since (r_reach cap rcap n nm tr) start g /\
  forall m cs c, 1 <= m -> handles !! m = Some cs -> c ∈ cs -> flushed_since (r_reach cap rcap n nm tr) start (m, c).
Proof.
  intros cap rcap n nm tr g handles start H. unfold r_reach in *. set (s := r_run cap rcap n nm r_init tr) in *.
  assert (I : rinv s) by (apply rinv_run, rinv_init).
  destruct (ri_done s I _ H) as [O C]. cbn [fst snd] in O, C. split.
  - destruct g as [m c]. apply covered_flushed with (cs := [c]); [done| |by left].
    intros c' Hc. apply elem_of_list_singleton in Hc as ->. exact O.
  - intros m cs c M Hm Hc. eapply covered_flushed; [done|by apply (C m cs M Hm)|done].
Qed.
Print Assumptions C62_returns_only_after_flush_partial.

(** From any reachable state in which every core runs its process and nothing is queued, a call by any core of a
    client machine, for any handles, can run to its end, and leaves such a state. *)
Theorem C62_can_complete_partial : forall cap rcap n nm tr g handles,
  let s := r_reach cap rcap n nm tr in
  1 <= cap -> 1 <= rcap -> 1 <= fst g < length handles -> length handles <= nm ->
  Forall (Forall (fun c => c < n)) handles ->
  r_crash s = false -> (forall h, in_process s h) -> (forall h, r_lq s h = []) -> (forall m, r_rq s m = []) ->
  exists tr', let s' := r_reach cap rcap n nm (tr ++ RCall g handles :: tr') in
    (g, handles, length (r_tgt s)) ∈ r_done s' /\ r_crash s' = false /\
    (forall h, in_process s' h) /\ (forall h, r_lq s' h = []) /\ (forall m, r_rq s' m = []).
Proof.
  intros cap rcap n nm tr g handles s Cap RCap G Len FH Cr P Q RQ.
  destruct (complete cap rcap n nm g handles s) as (tr' & s' & R & W); [done|done|lia|done|done|done|done|lia|done|].
  exists tr'. unfold r_reach. rewrite run_app. fold (r_reach cap rcap n nm tr). fold s. rewrite R. exact W.
Qed.
Print Assumptions C62_can_complete_partial.

(** ** Two callers, one interrupt *)
Definition two_calls : list rlabel :=
  [RCall (1, 0) [[]; [0]; [0]; []]; RCall (3, 0) [[]; []; [0]; [0]];
   RStep (1, 0); RStep (1, 0); RStep (1, 0); RStep (3, 0); RStep (3, 0); RStep (3, 0);
   RMsi 2; RStep (2, 0); RStep (2, 0); RStep (2, 0)] ++
  replicate 12 (RStep (1, 0)) ++ replicate 6 (RStep (3, 0)).
Definition stuck (s : rst) : Prop :=
  r_crash s = false /\ (forall h, h <> (3, 0) -> r_st s h = []) /\
  (exists b, b <= 2 /\ r_st s (3, 0) = [FWait b [1] 0 [[]; []; [0]; [0]]]) /\
  1 ∉ r_ack s /\ (forall h, r_lq s h = []) /\ (forall m, m <> 2 -> r_rq s m = []) /\
  r_rq s 2 = [(1, [0])] /\ (forall m, r_pend s m = false).
Lemma stuck_label cap rcap n nm s l s' : no_call l -> stuck s -> r_label cap rcap n nm s l = Some s' -> stuck s'.
Proof.
  intros NC (A & B & (b & Hb & C) & D & E & F & G & H) L.
  assert (TOP : forall st b', b' <= 2 -> st = [FWait b' [1] 0 [[]; []; [0]; [0]]] -> stuck (w_top s (3, 0) st)).
  { intros st b' Lb ->. split; [done|]. split; [intros h Hh; cbn; rewrite set_core_ne by done; by apply B|].
    split; [exists b'; split; [done|]; unfold w_top; cbn [w_st r_st]; by rewrite set_core_eq|]. done. }
  unfold r_label in L. rewrite A in L. destruct l as [g|g hs|g|m]; [|destruct NC| |].
  - unfold r_step in L. destruct (decide (g = (3, 0))) as [->|Ng]; [|rewrite B in L by done; discriminate].
    rewrite C in L. destruct b as [|[|[|b]]]; [| | |lia].
    + unfold r_dequeue in L. rewrite E in L. injection L as <-. apply TOP with (b' := 1); [lia|done].
    + unfold r_remote_dequeue in L. cbn [fst Nat.eqb] in L. rewrite F in L by done. injection L as <-.
      apply TOP with (b' := 2); [lia|done].
    + injection L as <-. apply TOP with (b' := 0); [lia|].
      rewrite filter_cons_True by done. rewrite filter_nil. done.
  - destruct (decide (g = (3, 0))) as [->|Ng]; [rewrite C in L; discriminate|].
    rewrite B in L by done. unfold r_dequeue in L. rewrite E in L. injection L as <-.
    split; [done|]. split.
    { intros h Hh. cbn. destruct (decide (h = g)) as [->|Nh]; [by rewrite set_core_eq|]. rewrite set_core_ne by done. by apply B. }
    split; [exists b; split; [done|]; cbn; by rewrite set_core_ne by congruence|]. done.
  - rewrite H in L. by destruct (r_st s (m, 0)).
Qed.
Lemma stuck_run cap rcap n nm tr : forall s, Forall no_call tr -> stuck s -> stuck (r_run cap rcap n nm s tr).
Proof.
  induction tr as [|l tr IH]; intros s F S; [done|]. inversion F; subst. cbn [r_run]. apply IH; [done|].
  destruct (r_label cap rcap n nm s l) as [s'|] eqn:L; [|done]. by eapply stuck_label.
Qed.
Lemma two_crash : r_crash (r_reach 384 60 4 4 two_calls) = false.
Proof. vm_compute. reflexivity. Qed.
Lemma two_done : r_done (r_reach 384 60 4 4 two_calls) = [((1, 0), [[]; [0]; [0]; []], 0)].
Proof. vm_compute. reflexivity. Qed.
Lemma two_ack : r_ack (r_reach 384 60 4 4 two_calls) = [4; 3; 0; 2].
Proof. vm_compute. reflexivity. Qed.
Lemma two_st h : h <> (3, 0) -> r_st (r_reach 384 60 4 4 two_calls) h = [].
Proof.
  destruct h as [a b]. intros Hh. destruct a as [|[|[|[|a]]]], b as [|b]; try (vm_compute; reflexivity).
  by destruct Hh.
Qed.
Lemma two_st3 : r_st (r_reach 384 60 4 4 two_calls) (3, 0) = [FWait 1 [1] 0 [[]; []; [0]; [0]]].
Proof. vm_compute. reflexivity. Qed.
Lemma two_lq h : r_lq (r_reach 384 60 4 4 two_calls) h = [].
Proof. destruct h as [a b]. destruct a as [|[|[|[|a]]]], b as [|b]; vm_compute; reflexivity. Qed.
Lemma two_rq m : m <> 2 -> r_rq (r_reach 384 60 4 4 two_calls) m = [].
Proof. intros Hm. destruct m as [|[|[|[|m]]]]; try (vm_compute; reflexivity). by destruct Hm. Qed.
Lemma two_rq2 : r_rq (r_reach 384 60 4 4 two_calls) 2 = [(1, [0])].
Proof. vm_compute. reflexivity. Qed.
Lemma two_pend m : r_pend (r_reach 384 60 4 4 two_calls) m = false.
Proof. destruct m as [|[|[|[|m]]]]; vm_compute; reflexivity. Qed.
Lemma two_stuck : stuck (r_reach 384 60 4 4 two_calls).
Proof.
  split; [exact two_crash|]. split; [exact two_st|]. split; [exists 1; split; [lia|exact two_st3]|].
  split; [rewrite two_ack; set_solver|]. split; [exact two_lq|]. split; [exact two_rq|]. split; [exact two_rq2|exact two_pend].
Qed.
Lemma stuck_done_label cap rcap n nm s l s' : no_call l -> stuck s -> r_label cap rcap n nm s l = Some s' -> r_done s' = r_done s.
Proof.
  intros NC (A & B & (b & Hb & C) & D & E & F & G & H) L. unfold r_label in L. rewrite A in L.
  destruct l as [g|g hs|g|m]; [|destruct NC| |].
  - unfold r_step in L. destruct (decide (g = (3, 0))) as [->|Ng]; [|rewrite B in L by done; discriminate].
    rewrite C in L. destruct b as [|[|[|b]]]; [| | |lia].
    + unfold r_dequeue in L. rewrite E in L. by injection L as <-.
    + unfold r_remote_dequeue in L. cbn [fst Nat.eqb] in L. rewrite F in L by done. by injection L as <-.
    + by injection L as <-.
  - destruct (decide (g = (3, 0))) as [->|Ng]; [rewrite C in L; discriminate|].
    rewrite B in L by done. unfold r_dequeue in L. rewrite E in L. by injection L as <-.
  - rewrite H in L. by destruct (r_st s (m, 0)).
Qed.
Lemma stuck_done cap rcap n nm tr : forall s, Forall no_call tr -> stuck s -> r_done (r_run cap rcap n nm s tr) = r_done s.
Proof.
  induction tr as [|l tr IH]; intros s F Z; [done|]. inversion F; subst. cbn [r_run].
  destruct (r_label cap rcap n nm s l) as [s'|] eqn:L; unfold default, from_option, id; [|by apply IH].
  rewrite IH; [by eapply stuck_done_label|done|by eapply stuck_label].
Qed.
Lemma reach_app cap rcap n nm t1 t2 : r_reach cap rcap n nm (t1 ++ t2) = r_run cap rcap n nm (r_reach cap rcap n nm t1) t2.
Proof. unfold r_reach. apply run_app. Qed.
(** Machines 1 and 3 both ask machine 2 before it takes the interrupt.  The two doorbells are one interrupt and
    one interrupt handles one request: the other call never returns, however the cores are scheduled. *)
Theorem C62_merged_doorbells_refuted : exists tr,
  r_crash (r_reach 384 60 4 4 tr) = false /\
  ((1, 0), [[]; [0]; [0]; []], 0) ∈ r_done (r_reach 384 60 4 4 tr) /\
  forall tr', Forall no_call tr' ->
    ~ in_process (r_reach 384 60 4 4 (tr ++ tr')) (3, 0) /\
    (forall h, h <> (3, 0) -> in_process (r_reach 384 60 4 4 (tr ++ tr')) h) /\
    ~ exists hs start, ((3, 0), hs, start) ∈ r_done (r_reach 384 60 4 4 (tr ++ tr')).
Proof.
  exists two_calls. split; [exact two_crash|]. split; [rewrite two_done; by left|].
  intros tr' NC. rewrite reach_app. pose proof (stuck_run 384 60 4 4 tr' _ NC two_stuck) as S'.
  pose proof (stuck_done 384 60 4 4 tr' _ NC two_stuck) as DR.
  destruct S' as (_ & S1 & (b & _ & C) & _). split; [|split].
  - unfold in_process. rewrite C. discriminate.
  - exact S1.
  - intros (hs & start & X). rewrite DR, two_done in X. apply elem_of_list_singleton in X. discriminate.
Qed.
Print Assumptions C62_merged_doorbells_refuted.

(** A machine's queue holds 4 * (16 - 1) requests (tlb.rs:45): 61 calls in flight to one machine panic. *)
Theorem C62_full_queue_refuted : exists tr,
  Forall (fun l => match l with RCall g hs => g.1 = 1 /\ hs = [[]; [0]; [0]] | _ => True end) tr /\
  r_crash (r_reach 384 60 64 3 tr) = true.
Proof.
  exists (mjoin (map (fun k => [RCall (1, k) [[]; [0]; [0]]; RStep (1, k); RStep (1, k)]) (seq 0 61))).
  split; [|vm_compute; reflexivity].
  generalize (seq 0 61). intros l. induction l as [|k l IH]; cbn; [by constructor|].
  repeat (constructor; [done|]). exact IH.
Qed.
Print Assumptions C62_full_queue_refuted.

(** A core acknowledges before it flushes: a call can return while a core of another machine has not flushed. *)
Theorem C62_early_return_refuted : exists tr g hs start m c,
  (g, hs, start) ∈ r_done (r_reach 384 60 4 3 tr) /\ hs !! m = Some [0; c] /\
  forall id, ((m, c), id) ∉ r_flushed (r_reach 384 60 4 3 tr).
Proof.
  exists ([RCall (1, 0) [[]; [0]; [0; 1]]; RStep (1, 0); RStep (1, 0); RStep (1, 0); RMsi 2; RStep (2, 0); RStep (2, 0);
           RIrq (2, 1)] ++ replicate 5 (RStep (2, 0)) ++ replicate 10 (RStep (1, 0))), (1, 0), [[]; [0]; [0; 1]], 0, 2, 1.
  split.
  { match goal with |- _ ∈ ?l => replace l with [((1, 0), [[]; [0]; [0; 1]], 0)] by (by vm_compute) end. by left. }
  split; [done|]. intros id.
  match goal with |- _ ∉ ?l => let v := eval vm_compute in l in replace l with v by (by vm_compute) end.
  intros X. repeat (apply elem_of_cons in X as [X|X]; [discriminate|]). by apply elem_of_nil in X.
Qed.
Print Assumptions C62_early_return_refuted.

(** A state that meets the hypotheses: a call by machine 1 for cores of machines 1, 2 and 3. *)
Example C62_hyps_met : exists tr,
  let s := r_reach 384 60 4 4 tr in
  ((1, 0), [[]; [0; 1]; [0; 2]; [1]], 0) ∈ r_done s /\ r_crash s = false /\ (forall h, in_process s h) /\
  flushed_since s 0 (1, 1) /\ flushed_since s 0 (2, 2) /\ flushed_since s 0 (3, 1).
Proof.
  destruct (C62_can_complete_partial 384 60 4 4 [] (1, 0) [[]; [0; 1]; [0; 2]; [1]]) as (tr & W).
  - lia.
  - lia.
  - cbn. lia.
  - cbn. lia.
  - apply (bool_decide_unpack _). by vm_compute.
  - done.
  - done.
  - done.
  - done.
  - exists (RCall (1, 0) [[]; [0; 1]; [0; 2]; [1]] :: tr). cbn zeta in *. destruct W as (W1 & W2 & W3 & _).
    split; [exact W1|]. split; [exact W2|]. split; [exact W3|].
    destruct (C62_returns_only_after_flush_partial _ _ _ _ _ _ _ _ W1) as [_ F].
    split; [apply (F 1 [0; 1]); [lia|done|by right; left]|].
    split; [apply (F 2 [0; 2]); [lia|done|by right; left]|].
    apply (F 3 [1]); [lia|done|by left].
Qed.
