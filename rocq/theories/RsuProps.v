(** C75: a rack starts for every order of its machines, serves nobody before all are there, and gives every call to its handler once. *)
From Verif Require Import Base RsuModel RsuSpec RsuProofs.

(** For every number of client machines and every schedule: a machine registers once, and only after the controller said that it is
    ready; a call is handled only after every machine of the rack has registered. *)
Theorem C75_order K sched before e after :
  s_log (run K K sched) = before ++ e :: after ->
  match e with
  | EReg i => EReady ∈ before /\ EReg i ∉ before
  | EHandle i _ _ => EReady ∈ before /\ forall j, 1 <= j <= K -> EReg j ∈ before
  | _ => True
  end.
Proof. intros E. pose proof (i_ord _ _ (run_inv K sched) _ _ _ E) as H. unfold order in H. destruct e; try done. Qed.
Print Assumptions C75_order.

(** The calls of a machine are made one after the other; each is run once on the controller, by the handler in the table, and the
    machine gets the answer that this handler made for this call. *)
Theorem C75_calls K sched i : 1 <= i <= K -> in_turn dispatch i (calls_of i (s_log (run K K sched))).
Proof. intros Hi. apply (turn_inv K); [apply run_inv|exact Hi]. Qed.
Print Assumptions C75_calls.

(** The table: it is filled without a panic, and every call but ReleaseCore has the handler it is meant for. *)
Theorem C75_table_partial : register_rpcs <> None /\ forall r, r <> ReleaseCore -> dispatch r = meant r.
Proof. split; [vm_compute; discriminate|]. intros r Hr. destruct r; try congruence; vm_compute; reflexivity. Qed.
Print Assumptions C75_table_partial.

Lemma in_turn_ext d d' i l : (forall r, ECall i r ∈ l -> d r = d' r) -> in_turn d i l -> in_turn d' i l.
Proof.
  intros H T. induction T as [| |r h Hd|r h l Hd T IH]; try constructor.
  - rewrite <- H; [exact Hd|]. constructor.
  - rewrite <- H; [exact Hd|]. constructor.
  - apply IH. intros q Hq. apply H. do 3 constructor. exact Hq.
Qed.
Lemma calls_elem i e l : e ∈ calls_of i l -> e ∈ l.
Proof. induction l as [|x l IH]; cbn; [done|]. destruct (of_client i x); rewrite !elem_of_cons; tauto. Qed.

(** A machine that never releases a core has every call handled by the handler it is meant for. *)
Theorem C75_calls_meant_partial K sched i : 1 <= i <= K -> ECall i ReleaseCore ∉ s_log (run K K sched) ->
  in_turn meant i (calls_of i (s_log (run K K sched))).
Proof.
  intros Hi Hn. apply (in_turn_ext dispatch); [|by apply C75_calls]. intros r Hr. apply (proj2 C75_table_partial). intros ->. by apply Hn, (calls_elem i).
Qed.
Print Assumptions C75_calls_meant_partial.

(** If every thread and machine runs again and again, in whatever order, the rack starts: from some time on the controller is ready,
    every machine is registered, and every controller thread serves calls. *)
Theorem C75_starts K f : fair K K f ->
  exists n, forall m, n <= m ->
    forall i, 1 <= i <= K ->
      s_srv (trace K K f m) i = SServe /\ EReg i ∈ s_log (trace K K f m) /\
      (s_cli (trace K K f m) i = CRun \/ exists r, s_cli (trace K K f m) i = CWait r).
Proof.
  intros F. destruct (starts K f F) as [n H]. exists n. intros m Hm. destruct (H m Hm) as [Hp Hs]. intros i Hi. destruct (Hs i Hi) as (E & H1 & H2).
  split; [exact E|]. split; [apply (i_reg _ _ (trace_inv K f m) i Hi); rewrite E; cbn; lia|].
  destruct (s_cli (trace K K f m) i) as [| | |r]; [done|done|by left|right; by exists r].
Qed.
Print Assumptions C75_starts.

(** And every call that has a handler comes back, however early it was made. *)
Theorem C75_answered K f n i r h :
  fair K K f -> 1 <= i <= K -> s_cli (trace K K f n) i = CWait r -> dispatch r = Some h ->
  exists m l, n <= m /\ s_log (trace K K f m) = s_log (trace K K f n) ++ l ++ [ERet i r h].
Proof. apply answered. Qed.
Print Assumptions C75_answered.

(** ReleaseCore is registered with the handler of RequestCore (controller.rs:214): a machine that gives back a core asks for one. *)
Theorem C75_release_core_refuted :
  dispatch ReleaseCore = Some handle_request_core /\
  exists sched, ~ in_turn meant 1 (calls_of 1 (s_log (run 1 1 sched))).
Proof.
  split; [vm_compute; reflexivity|].
  exists [ASrv 1; ASrv 1; APoll; APoll; APoll; APoll; ASrv 1; ACli 1 ReleaseCore; ASrv 1; ACli 1 ReleaseCore; ASrv 1; ASrv 1; ACli 1 ReleaseCore; ASrv 1; ACli 1 ReleaseCore].
  intros H. assert (E : calls_of 1 (s_log (run 1 1 [ASrv 1; ASrv 1; APoll; APoll; APoll; APoll; ASrv 1; ACli 1 ReleaseCore; ASrv 1; ACli 1 ReleaseCore; ASrv 1; ASrv 1; ACli 1 ReleaseCore; ASrv 1; ACli 1 ReleaseCore]))
    = [ECall 1 ReleaseCore; EHandle 1 ReleaseCore handle_request_core; ERet 1 ReleaseCore handle_request_core]) by (vm_compute; reflexivity).
  rewrite E in H. inversion H as [| | |r h l Hd Hl]. subst. discriminate Hd.
Qed.
Print Assumptions C75_release_core_refuted.

Definition stuck (s : st) : Prop :=
  s_cnt s = 2 /\ s_ready s = false /\ s_poll s = PWait /\ s_srv s 1 = SReady /\ s_srv s 2 = SReady /\
  (s_cli s 1 = CNew \/ s_cli s 1 = CReg) /\ s_rep s 1 = None /\ s_log s = [].
Lemma stuck_step a s : stuck s -> stuck (step 2 1 a s).
Proof.
  intros H. pose proof H as (H1 & H2 & H3 & H4 & H5 & H6 & H7 & H8). destruct a as [|i|i r]; cbn.
  - unfold poll_step. rewrite H3, H1. cbn. exact H.
  - destruct (decide _) as [Hi|]; [|exact H]. assert (X : i = 1 \/ i = 2) by lia. unfold srv_step. destruct X as [-> | ->]; [rewrite H4|rewrite H5]; rewrite H2; exact H.
  - destruct (decide _) as [Hi|]; [|exact H]. assert (i = 1) as -> by lia. unfold cli_step. destruct H6 as [E|E]; rewrite E.
    + repeat split; cbn; try done. by right.
    + rewrite H7. exact H.
Qed.

(** The controller needs exactly one core per client: with one core more, the count can pass the number that the first thread waits
    for (controller.rs:66 and 138), and then nobody is ever registered. *)
Theorem C75_extra_core_refuted : exists sched, forall more, s_log (run 2 1 (sched ++ more)) = [].
Proof.
  exists [ASrv 1; ASrv 2; ASrv 1; ASrv 2; APoll]. intros more. unfold run. rewrite fold_left_app.
  assert (S : stuck (fold_left (fun s a => step 2 1 a s) [ASrv 1; ASrv 2; ASrv 1; ASrv 2; APoll] st0)).
  { unfold stuck. vm_compute. repeat split; try reflexivity. left. reflexivity. }
  revert S. generalize (fold_left (fun s a => step 2 1 a s) [ASrv 1; ASrv 2; ASrv 1; ASrv 2; APoll] st0). induction more as [|a more IH]; intros s S; cbn; [apply S|].
  apply IH, stuck_step, S.
Qed.
Print Assumptions C75_extra_core_refuted.

(** Two machines; machine 2 is first with everything, and calls while machine 1 has not even started. *)
Example C75_order_hyps_met :
  s_log (run 2 2 [ACli 2 Log; ASrv 2; ASrv 2; APoll; APoll; ASrv 1; ASrv 1; APoll; APoll; APoll; ASrv 2; ASrv 2; ASrv 2; ACli 2 Log; ACli 2 Log; ASrv 2; ASrv 2;
                  ACli 1 Open; ASrv 1; ASrv 1; ACli 1 Open; ASrv 1; ASrv 2; ASrv 2; ACli 2 Log; ACli 1 Open; ASrv 1; ASrv 1; ACli 1 Open])
  = [EReady; EReg 2; ECall 2 Log; EReg 1; EHandle 2 Log handle_log; ERet 2 Log handle_log; ECall 1 Open; EHandle 1 Open handle_open; ERet 1 Open handle_open].
Proof. vm_compute. reflexivity. Qed.

(** Round robin is fair, and in it machine 1 makes a call that waits. *)
Definition robin (n : nat) : act := match n mod 5 with 0 => ACli 1 Log | 1 => ACli 2 Open | 2 => ASrv 2 | 3 => APoll | _ => ASrv 1 end.
Lemma robin_at n c : c < 5 -> robin (n * 5 + c) = robin c.
Proof. intros H. unfold robin. rewrite Nat.add_comm, Nat.mod_add by lia. done. Qed.
Example C75_starts_hyps_met : fair 2 2 robin /\ exists n, s_cli (trace 2 2 robin n) 1 = CWait Log.
Proof.
  split.
  - split; [|split].
    + intros n. exists (n * 5 + 3). split; [lia|]. by rewrite robin_at by lia.
    + intros i n Hi. assert (i = 1 \/ i = 2) as [-> | ->] by lia.
      * exists (n * 5 + 4). split; [lia|]. by rewrite robin_at by lia.
      * exists (n * 5 + 2). split; [lia|]. by rewrite robin_at by lia.
    + intros i n Hi. assert (i = 1 \/ i = 2) as [-> | ->] by lia.
      * exists (n * 5 + 0), Log. split; [lia|]. by rewrite robin_at by lia.
      * exists (n * 5 + 1), Open. split; [lia|]. by rewrite robin_at by lia.
  - exists 51. vm_compute. reflexivity.
Qed.
