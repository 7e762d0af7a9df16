(** C54: messages over a TCP connection. *)
From Verif Require Import Base RpcModel RpcSpec RpcProofs RpcProps TcpModel TcpSpec TcpProofs.

(** For all sizes of the socket's buffers, all messages and buffers, all ways to cut the stream
    and all interleavings: what the callers see is a behaviour of a channel of messages, as
    long as no receive has failed (the last thing seen may be a failure).  Full claim: the
    same after a receive has failed. *)
Theorem C54_in_order_partial txc rxc l d es :
  t_run txc rxc td_init l = Some (d, es) -> Forall proper_send es ->
  (forall es1 h es2, es = es1 ++ TvGot (GErr h) :: es2 -> es2 = []) ->
  exists c, ch_steps ch_init es c.
Proof.
  intros E P X. destruct (sim_run txc rxc l td_init ch_init d es tinv_init E P X) as (b & B & _). by exists b.
Qed.
Print Assumptions C54_in_order_partial.

(** Between calls only boundedly many steps can happen: a call cannot spin forever on a
    connection that moves bytes. *)
Theorem C54_bounded txc rxc d l d' es : Forall internal l -> t_run txc rxc d l = Some (d', es) ->
  length l <= 5 * unsent (t_snd d) + 3 * length (t_tx d) + 2 * length (t_wire d) + length (t_rx d) + 2.
Proof.
  intros F E. pose proof (work_run _ _ _ _ _ _ F E) as W. unfold work in W.
  assert (w_snd (t_snd d) <= 1) by (destruct (t_snd d); simpl; lia).
  assert (w_rcv (t_rcv d) <= 1) by (destruct (t_rcv d); simpl; lia). lia.
Qed.
Print Assumptions C54_bounded.

(** When nothing more can happen while a receive waits, nobody is sending and every message
    sent has been received. *)
Theorem C54_delivered_partial txc rxc l d es : 0 < txc -> 0 < rxc ->
  t_run txc rxc td_init l = Some (d, es) -> Forall proper_send es -> no_error es ->
  (forall a, internal a -> t_step txc rxc d a = None) -> t_rcv d <> RvIdle ->
  t_snd d = SdIdle /\ count_got es = count_sent es.
Proof.
  intros Ht Hx E P Ne K Hr.
  destruct (sim_run txc rxc l td_init ch_init d es tinv_init E P) as (b & B & I).
  { intros es1 h es2 ->. exfalso. apply (Ne h). apply in_or_app. right. by left. }
  destruct (stuck_receiving txc rxc d b Ht Hx (I Ne) K Hr) as [Hs Hb]. split; [done|].
  pose proof (count_steps _ _ _ B Ne) as C. rewrite Hb in C. simpl in C. lia.
Qed.
Print Assumptions C54_delivered_partial.

(** A send waits only for a receiver. *)
Theorem C54_send_waits_partial txc rxc l d es : 0 < txc -> 0 < rxc ->
  t_run txc rxc td_init l = Some (d, es) -> Forall proper_send es -> no_error es ->
  (forall a, internal a -> t_step txc rxc d a = None) -> t_snd d <> SdIdle -> t_rcv d = RvIdle.
Proof.
  intros Ht Hx E P Ne K Hs.
  assert (A : t_rcv d <> RvIdle -> False)
    by (intros Hr; destruct (C54_delivered_partial txc rxc l d es Ht Hx E P Ne K Hr); done).
  destruct (t_rcv d); [done| | |]; exfalso; by apply A.
Qed.
Print Assumptions C54_send_waits_partial.

(** The try variants do not wait: with a full send buffer nothing is sent, with an empty
    receive buffer nothing is received, at the first step; otherwise that step moves bytes. *)
Theorem C54_try txc rxc d :
  (forall h payload d1 e1, length (t_tx d) <= txc -> t_step txc rxc d (TSend true h payload) = Some (d1, e1) ->
     (length (t_tx d) = txc -> t_step txc rxc d1 (TSnd 0) = Some (d, [TvSent false])) /\
     (length (t_tx d) < txc -> exists d2 e2, t_step txc rxc d1 (TSnd 1) = Some (d2, e2))) /\
  (forall bufs d1 e1, t_step txc rxc d (TRecv true bufs) = Some (d1, e1) ->
     (t_rx d = [] -> t_step txc rxc d1 (TRcv 0) = Some (d, [TvGot GNone])) /\
     (t_rx d <> [] -> exists d2 e2, t_step txc rxc d1 (TRcv 1) = Some (d2, e2))).
Proof.
  destruct d as [tx wire rx s r]. cbn [t_tx t_rx]. split.
  - intros h payload d1 e1 Hle E. simpl in E. destruct s; try done. injection E as <- <-. split.
    + intros Hf. cbn [t_step snd_step]. destruct (Nat.ltb_spec (length tx) txc); [lia|]. done.
    + intros Hf. cbn [t_step snd_step]. destruct (Nat.ltb_spec (length tx) txc); [|lia].
      assert (K : chunk 1 (length (hdr_bytes h)) (txc - length tx) = true) by (apply chunk_true; rewrite hdr_len; lia).
      rewrite K. eauto.
  - intros bufs d1 e1 E. simpl in E. destruct r; try done. injection E as <- <-. split.
    + intros ->. done.
    + intros Hrx. cbn [t_step rcv_step]. destruct (Nat.eqb_spec (length rx) 0) as [H0|H0]; [by destruct rx|].
      assert (K : chunk 1 4 (length rx) = true) by (apply chunk_true; lia). rewrite K.
      destruct (rv_got _ bufs). eauto.
Qed.
Print Assumptions C54_try.

(** The call to send returns when the message is in the send buffer: if nobody polls the
    interface of the sender afterwards, no message ever arrives. *)
Theorem C54_unpolled txc rxc l d es : t_run txc rxc td_init l = Some (d, es) ->
  (forall k, ~ In (TPollS k) l) -> count_got es = 0.
Proof.
  assert (G : forall l d d' es, t_wire d = [] -> t_rx d = [] ->
    match t_rcv d with RvIdle | RvFirst _ _ => True | RvHdr got _ => got = [] | RvBuf _ _ _ _ _ _ _ => False end ->
    t_run txc rxc d l = Some (d', es) -> (forall k, ~ In (TPollS k) l) -> count_got es = 0).
  2: { intros E H. exact (G l td_init d es eq_refl eq_refl I E H). }
  clear. induction l as [|a l IH]; intros d d' es Hw Hx Hr E H; simpl in E.
  - by injection E as <- <-.
  - destruct (t_step txc rxc d a) as [[d1 e1]|] eqn:S; [|done].
    destruct (t_run txc rxc d1 l) as [[d2 e2]|] eqn:R; [|done]. injection E as <- <-.
    assert (A : count_got e1 = 0 /\ t_wire d1 = [] /\ t_rx d1 = [] /\
      match t_rcv d1 with RvIdle | RvFirst _ _ => True | RvHdr got _ => got = [] | RvBuf _ _ _ _ _ _ _ => False end).
    { destruct d as [tx wire rx s r]. simpl in Hw, Hx. subst wire rx.
      destruct a as [try h payload|try bufs|k|k|k|k]; simpl in S.
      - destruct s; try done. by injection S as <- <-.
      - destruct r; try done. by injection S as <- <-.
      - destruct (snd_step txc tx s k) as [[[tx' s'] e']|] eqn:SS; [|done]. injection S as <- <-. split; [|done].
        assert (Hret : forall x, count_got (sd_ret x) = 0) by (intros []; done).
        destruct s as [|try buf rest|buf rest]; simpl in SS; [done| |].
        + destruct (length tx <? txc).
          * destruct (chunk _ _ _); [|done]. injection SS as <- <- <-. apply Hret.
          * destruct (k =? 0); [|done]. by destruct try; injection SS as <- <- <-.
        + destruct (chunk _ _ _); [|done]. injection SS as <- <- <-. apply Hret.
      - destruct (rcv_step [] r k) as [[[rx' r'] e']|] eqn:SS; [|done]. injection S as <- <-.
        destruct r as [|try bufs|got bufs|]; [done| | |done]; cbn [rcv_step] in SS.
        + simpl in SS. destruct (k =? 0); [|done]. by destruct try; injection SS as <- <- <-.
        + destruct (chunk k (4 - length got) (length (@nil N))) eqn:K; [|done]. apply chunk_true in K. simpl in K. lia.
      - exfalso. apply (H k). by left.
      - destruct (chunk k 0 0) eqn:K; [|done]. apply chunk_true in K. lia. }
    destruct A as (A1 & A2 & A3 & A4). unfold count_got in *. rewrite List.filter_app, app_length, A1. simpl.
    apply (IH d1 d2 e2 A2 A3 A4 R). intros k Hk. apply (H k). by right.
Qed.
Print Assumptions C54_unpolled.

(** After a receive with too little room the payload of the message stays in the stream: the
    next receive takes it for a header and returns a message nobody sent. *)
Theorem C54_after_error_refuted : exists l d es h bufs,
  t_run (N.to_nat TCP_BUF_LEN) (N.to_nat TCP_BUF_LEN) td_init l = Some (d, es) /\ Forall proper_send es /\
  In (TvGot (GMsg h bufs)) es /\ (forall try payload, ~ In (TvSend try h payload) es).
Proof.
  exists [TSend false (mkHdr 0 7 4) [[1; 9; 0; 0]%N]; TSnd 4; TSnd 4; TPollS 8; TPollR 8;
          TRecv false [[0; 0]%N]; TRcv 4; TRecv false [[0; 0]%N]; TRcv 4].
  eexists _, _, (mkHdr 1 9 0), [[0; 0]%N]. split; [vm_compute; reflexivity|]. split.
  { repeat constructor. }
  split; [simpl; auto 10|]. intros try payload. simpl. intros H. repeat (destruct H as [H|H]; [discriminate H|]). done.
Qed.
Print Assumptions C54_after_error_refuted.

(** A case: slices of several sizes, an empty one, an empty message, a send buffer of 5 and a
    receive buffer of 3 bytes, a try that fails at both ends; at the end a receive waits. *)
Example C54_hyps_met : exists l d es, t_run 5 3 td_init l = Some (d, es) /\ Forall proper_send es /\ no_error es /\
  es = [TvRecv true [[0]]%N; TvGot GNone; TvRecv false [[0; 0; 0]; []; [0; 0; 0; 9]]%N;
        TvSend false (mkHdr 0 7 5) [[1; 2]; []; [3; 4; 5]]%N; TvSent true;
        TvSend true (mkHdr 0 8 0) []; TvSent false; TvGot (GMsg (mkHdr 0 7 5) [[1; 2; 3]; []; [4; 5; 0; 9]]%N);
        TvSend true (mkHdr 0 8 0) [[]]; TvSent true;
        TvRecv false [[6]]%N; TvGot (GMsg (mkHdr 0 8 0) [[6]]%N); TvRecv false []] /\
  (forall a, internal a -> t_step 5 3 d a = None) /\ t_rcv d <> RvIdle.
Proof.
  exists [TRecv true [[0]]%N; TRcv 0; TRecv false [[0; 0; 0]; []; [0; 0; 0; 9]]%N; TRcv 0;
          TSend false (mkHdr 0 7 5) [[1; 2]; []; [3; 4; 5]]%N; TSnd 3; TSnd 1; TPollS 3; TPollR 1; TPollR 2; TRcv 1; TRcv 2;
          TPollS 1; TPollR 1; TRcv 1; TSnd 1; TSnd 1; TSnd 1; TSnd 2; TSend true (mkHdr 0 8 0) []; TSnd 0;
          TPollS 3; TPollR 3; TRcv 3; TPollS 2; TPollR 2; TRcv 1; TRcv 1; TSend true (mkHdr 0 8 0) [[]]; TSnd 4;
          TPollS 3; TPollR 3; TRecv false [[6]]%N; TRcv 3; TPollS 1; TPollR 1; TRcv 1; TRecv false []; TRcv 0].
  exists (mkTd [] [] [] SdIdle (RvHdr [] [])). eexists. split; [vm_compute; reflexivity|]. split; [repeat constructor|]. split.
  { intros h H. simpl in H. repeat (destruct H as [H|H]; [discriminate H|]). done. }
  split; [reflexivity|]. split; [|done]. intros [| |k|k|k|k] Ha; try done; destruct k as [|[|[|[|[|k]]]]]; done.
Qed.
