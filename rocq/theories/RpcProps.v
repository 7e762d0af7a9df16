(** C28 and C29: messages and remote procedure calls over shared memory. *)
From Verif Require Import Base QueueModel QueueSpec QueueProps RpcModel RpcSpec RpcProofs.
From stdpp Require Import functions.

(** ** C28 *)

(** For every entry size below 2^16, capacity, number of threads, sequence of calls with
    arbitrary slices, and interleaving: what can be seen of an execution is a behaviour of
    the bounded FIFO queue of byte messages.  In particular a message received is the
    concatenation of the slices sent, and fills the receiver's slices in order. *)
Theorem C28_messages_intact esz c n l s es : (N.of_nat esz < 65536)%N ->
  s_run esz (shq_init esz c n) l = Some (s, es) ->
  exists q fb, bq_steps esz (round_capacity c) bq_init es (q, fb) /\ length q <= round_capacity c.
Proof.
  intros He E. destruct (sim_run _ _ _ _ _ _ _ _ He (linked_init esz c n) E) as (q & fb & B & (m & log & f & Sm & I & _)).
  exists q, fb. split; [done|].
  pose proof (mi_q _ _ _ _ I) as Q. simpl in Q. rewrite Q, drop_length, (mi_log _ _ _ _ I).
  pose proof (mi_pos _ _ _ _ I). lia.
Qed.
Print Assumptions C28_messages_intact.

(** The entry size of the code meets the hypothesis. *)
Example C28_entry_size : (QUEUE_ENTRY_SIZE < 65536)%N.
Proof. done. Qed.

(** A thread panics only if somebody sends more than an entry holds, or it has too little
    room for the message it took. *)
Theorem C28_no_other_panic esz c n l s es i : (N.of_nat esz < 65536)%N ->
  s_run esz (shq_init esz c n) l = Some (s, es) -> In (SvPanic i) es ->
  exists j sl, In (SvCall j (SPush sl)) es /\ (esz < length (concat sl) \/
    exists bufs, In (SvCall i (SPop bufs)) es /\ length (concat bufs) < length (concat sl)).
Proof.
  intros He E Hin. destruct (C28_messages_intact _ _ _ _ _ _ He E) as (q & fb & B & _).
  (* what the specification remembers comes from the calls *)
  assert (G : forall a es b, bq_steps esz (round_capacity c) a es b -> forall past,
    (forall m, m ∈ a.1 -> exists j sl, In (SvCall j (SPush sl)) past /\ m = concat sl) ->
    (forall j, match a.2 j with
       | BPush m => exists k sl, In (SvCall k (SPush sl)) past /\ m = concat sl
       | BPop bufs => In (SvCall j (SPop bufs)) past
       | BPopped bufs m => In (SvCall j (SPop bufs)) past /\ exists k sl, In (SvCall k (SPush sl)) past /\ m = concat sl
       | BTooLarge => exists k sl, In (SvCall k (SPush sl)) past /\ esz < length (concat sl)
       | _ => True end) ->
    In (SvPanic i) es ->
    exists j sl, In (SvCall j (SPush sl)) (past ++ es) /\ (esz < length (concat sl) \/
      exists bufs, In (SvCall i (SPop bufs)) (past ++ es) /\ length (concat bufs) < length (concat sl))).
  2: { destruct (G _ _ _ B []) as (j & sl & H1 & H2); try done; [|by exists j, sl]. intros m Hm. by apply elem_of_nil in Hm. }
  clear. intros a es b B. induction B as [|a e b es d H _ IH]; intros past G1 G2 Hin; [done|].
  destruct Hin as [->|Hin].
  - inversion H as [| | | | | | | | | | | | |? f ? Hf|? f ? bufs m Hf Hlen]; subst; specialize (G2 i); simpl in G2; rewrite Hf in G2.
    + destruct G2 as (k & sl & K1 & K2). exists k, sl. split; [apply in_or_app; by left|by left].
    + destruct G2 as (K0 & k & sl & K1 & ->). exists k, sl. split; [apply in_or_app; by left|].
      right. exists bufs. split; [apply in_or_app; by left|done].
  - assert (W : forall x, In x past -> In x (past ++ [e])) by (intros; apply in_or_app; by left).
    assert (WE : In e (past ++ [e])) by (apply in_or_app; right; by left).
    destruct (IH (past ++ [e])) as (j & sl & K).
    3: done.
    3: { rewrite <- app_assoc in K. by exists j, sl. }
    + intros m Hm. assert (Hor : m ∈ a.1 \/ exists k, a.2 k = BPush m).
      { inversion H; subst; simpl in *; try (by left).
        - apply elem_of_app in Hm as [Hm|Hm]; [by left|]. apply elem_of_list_singleton in Hm as ->. right. eauto.
        - left. by right. }
      destruct Hor as [Hor|[k Hk]].
      * destruct (G1 m Hor) as (j & sl & ? & ->). eauto.
      * specialize (G2 k). rewrite Hk in G2. destruct G2 as (j & sl & ? & ->). eauto.
    + assert (M : forall j, match a.2 j with
       | BPush m => exists k sl, In (SvCall k (SPush sl)) (past ++ [e]) /\ m = concat sl
       | BPop bufs => In (SvCall j (SPop bufs)) (past ++ [e])
       | BPopped bufs m => In (SvCall j (SPop bufs)) (past ++ [e]) /\
           exists k sl, In (SvCall k (SPush sl)) (past ++ [e]) /\ m = concat sl
       | BTooLarge => exists k sl, In (SvCall k (SPush sl)) (past ++ [e]) /\ esz < length (concat sl)
       | _ => True end).
      { intros j. specialize (G2 j). destruct (a.2 j); naive_solver. }
      intros j. inversion H; subst; simpl in *;
        (destruct (decide (j = i0)) as [->|Hne]; [rewrite fn_lookup_insert|rewrite fn_lookup_insert_ne by done; apply M]); eauto.
      split.
      * specialize (M i0). by rewrite H0 in M.
      * destruct (G1 m) as (k & sl & ? & ->); [by left|]. eauto.
Qed.
Print Assumptions C28_no_other_panic.

Lemma s_run_cons esz s i a s1 e1 l s2 e2 e : s_step esz s i a = Some (s1, e1) ->
  s_run esz s1 l = Some (s2, e2) -> e = e1 ++ e2 -> s_run esz s ((i, a) :: l) = Some (s2, e).
Proof. intros H1 H2 ->. simpl. by rewrite H1, H2. Qed.

Lemma two_0 (x y : spc) : [x; y] !! 0 = Some x. Proof. done. Qed.
Lemma two_1 (x y : spc) : [x; y] !! 1 = Some y. Proof. done. Qed.
Lemma two_i0 (x y z : spc) : <[0 := z]> [x; y] = [z; y]. Proof. done. Qed.
Lemma two_i1 (x y z : spc) : <[1 := z]> [x; y] = [x; z]. Proof. done. Qed.
Local Ltac st := unfold s_step; cbn [h_th h_mask]; rewrite ?two_i0, ?two_i1, ?two_0, ?two_1;
  cbn [s_exec h_th h_mask h_seq h_node h_enq h_deq]; rewrite ?Nat.land_0_l.
Local Ltac fin := cbn [h_mask]; rewrite ?two_i0, ?two_i1; reflexivity.

(** Sending and then receiving, for every way to cut the message into slices on both sides:
    both calls succeed, the length is the message's, the bytes arrive in order, and bytes
    of the receiver's slices after the message are unchanged. *)
Theorem C28_send_receive_partial esz c sl bufs : (N.of_nat esz < 65536)%N ->
  0 < length (concat sl) <= esz -> length (concat sl) <= length (concat bufs) ->
  exists s bufs', s_run esz (shq_init esz c 2)
      ([(0, SCall (SPush sl))] ++ replicate 5 (0, SStep) ++ [(1, SCall (SPop bufs))] ++ replicate 5 (1, SStep)) =
    Some (s, [SvCall 0 (SPush sl); SvClaim 0; SvRet 0 SDone;
              SvCall 1 (SPop bufs); SvClaim 1; SvRet 1 (SGot (length (concat sl)) bufs')]) /\
    received bufs bufs' (concat sl).
Proof.
  intros He Hs Hb. exists (mkShq (round_capacity c - 1) (<[0 := round_capacity c]> (<[0 := 1]> (seq 0 (round_capacity c))))
    (<[0 := mkNode (N.of_nat (length (concat sl))) (concat sl ++ drop (length (concat sl)) (replicate esz 0%N))]>
      (replicate (round_capacity c) (mkNode 0 (replicate esz 0%N)))) 1 1 [SIdle; SIdle]), (fill bufs (concat sl)).
  split; [|split; [apply fill_length|by apply fill_concat]].
  destruct (C27_capacity c) as (H2 & _ & _). set (cap := round_capacity c) in *.
  assert (T1 : total_len sl <=? esz = true) by (rewrite total_len_concat; apply Nat.leb_le; lia).
  assert (T2 : total_len sl =? 0 = false) by (rewrite total_len_concat; apply Nat.eqb_neq; lia).
  assert (T3 : total_len bufs =? 0 = false) by (rewrite total_len_concat; apply Nat.eqb_neq; lia).
  assert (S0 : seq 0 cap !! 0 = Some 0) by (apply lookup_seq_lt; lia).
  assert (N0 : replicate cap (mkNode 0 (replicate esz 0%N)) !! 0 = Some (mkNode 0 (replicate esz 0%N)))
    by (apply lookup_replicate; split; [done|lia]).
  assert (G : gather (replicate esz 0%N) 0 sl = Some (concat sl ++ drop (length (concat sl)) (replicate esz 0%N)))
    by (rewrite gather_spec by (rewrite replicate_length; lia); done).
  assert (U : as_u16 (total_len sl) = N.of_nat (length (concat sl))).
  { rewrite total_len_concat. unfold as_u16. rewrite N.mod_small by (change (2 ^ 16)%N with 65536%N; lia). done. }
  assert (S1 : <[0 := 1]> (seq 0 cap) !! 0 = Some 1) by (apply list_lookup_insert; rewrite seq_length; lia).
  assert (N1 : <[0 := mkNode (N.of_nat (length (concat sl))) (concat sl ++ drop (length (concat sl)) (replicate esz 0%N))]>
      (replicate cap (mkNode 0 (replicate esz 0%N))) !! 0 =
      Some (mkNode (N.of_nat (length (concat sl))) (concat sl ++ drop (length (concat sl)) (replicate esz 0%N))))
    by (apply list_lookup_insert; rewrite replicate_length; lia).
  assert (SC : scatter (S (length (concat sl) + length bufs)) (concat sl ++ drop (length (concat sl)) (replicate esz 0%N))
     (length (concat sl)) bufs 0 0 0 = Some (fill bufs (concat sl))).
  { rewrite scatter_fill; [by rewrite take_app| |done]. rewrite app_length. lia. }
  unfold shq_init. fold cap. change (replicate 2 SIdle) with [SIdle; SIdle]. rewrite <- U in N1 |- *.
  assert (TO : N.to_nat (as_u16 (total_len sl)) = length (concat sl)) by (rewrite U; apply Nat2N.id).
  assert (T4 : length (concat sl) <=? total_len bufs = true) by (rewrite total_len_concat; by apply Nat.leb_le).
  cbn [replicate app].
  eapply s_run_cons; [st; rewrite T1, T2; fin| |reflexivity].
  eapply s_run_cons; [st; fin| |reflexivity].
  eapply s_run_cons; [st; rewrite S0; cbn [Z.of_nat Z.sub Z.opp Z.add Z.eqb]; fin| |reflexivity].
  eapply s_run_cons; [st; cbn [Nat.eqb plus]; fin| |reflexivity].
  eapply s_run_cons; [st; rewrite N0; cbn [nd_buf]; rewrite G; fin| |reflexivity].
  eapply s_run_cons; [st; cbn [plus]; fin| |reflexivity].
  eapply s_run_cons; [st; rewrite T3; fin| |reflexivity].
  eapply s_run_cons; [st; fin| |reflexivity].
  eapply s_run_cons; [st; rewrite S1; cbn; fin| |reflexivity].
  eapply s_run_cons; [st; cbn [Nat.eqb plus]; fin| |reflexivity].
  eapply s_run_cons; [st; rewrite N1; cbn [nd_buf nd_len]; rewrite TO, T4, SC; fin| |reflexivity].
  eapply s_run_cons; [st; fin|cbn [s_run]; do 4 f_equal; f_equal; lia|reflexivity].
Qed.
Print Assumptions C28_send_receive_partial.

(** An empty message is reported as sent but never arrives. *)
Theorem C28_empty_message_refuted : exists l s es,
  s_run 8 (shq_init 8 2 2) l = Some (s, es) /\
  es = [SvCall 0 (SPush [[]]); SvRet 0 SDone; SvCall 1 (SPop [[0; 0]%N]); SvRet 1 SNoData].
Proof.
  exists [(0, SCall (SPush [[]])); (1, SCall (SPop [[0; 0]%N])); (1, SStep); (1, SStep)].
  eexists _, _. split; vm_compute; reflexivity.
Qed.

(** A receiver whose slices are too small for the message panics after the message has
    left the queue; its slot is never free again, so that a later sender finds the queue
    full although it is empty. *)
Definition rep (i n : nat) : list (nat * sact) := replicate n (i, SStep).
Theorem C28_small_buffer_refuted : exists l s es,
  s_run 8 (shq_init 8 2 2) l = Some (s, es) /\ h_enq s = h_deq s /\
  es = [SvCall 0 (SPush [[1; 2]%N]); SvClaim 0; SvRet 0 SDone;
        SvCall 1 (SPop [[0]%N]); SvClaim 1; SvPanic 1;
        SvCall 0 (SPush [[3]%N]); SvClaim 0; SvRet 0 SDone;
        SvCall 0 (SPop [[0]%N]); SvClaim 0; SvRet 0 (SGot 1 [[3]%N]);
        SvCall 0 (SPush [[4]%N]); SvRet 0 SFull].
Proof.
  exists ((0, SCall (SPush [[1; 2]%N])) :: rep 0 5 ++ (1, SCall (SPop [[0]%N])) :: rep 1 4 ++
    (0, SCall (SPush [[3]%N])) :: rep 0 5 ++ (0, SCall (SPop [[0]%N])) :: rep 0 5 ++
    (0, SCall (SPush [[4]%N])) :: rep 0 2).
  eexists _, _. split; [vm_compute; reflexivity|]. by vm_compute.
Qed.

(** A case: two senders interleaved, slices of different shapes, a capacity of 2. *)
Example C28_hyps_met : exists l s es,
  s_run 8 (shq_init 8 2 3) l = Some (s, es) /\
  es = [SvCall 0 (SPush [[1; 2]; []; [3]]%N); SvCall 1 (SPush [[4]; [5]]%N); SvClaim 1; SvClaim 0; SvRet 0 SDone;
        SvCall 2 (SPop [[0; 0; 9]%N]); SvRet 2 SNoData; SvRet 1 SDone;
        SvCall 2 (SPop [[7]; []; [8; 9]]%N); SvClaim 2; SvRet 2 (SGot 2 [[4]; []; [5; 9]]%N);
        SvCall 2 (SPop [[7]; [8; 9]]%N); SvClaim 2; SvRet 2 (SGot 3 [[1]; [2; 3]]%N)].
Proof.
  exists ((0, SCall (SPush [[1; 2]; []; [3]]%N)) :: (1, SCall (SPush [[4]; [5]]%N)) :: rep 0 1 ++ rep 1 3 ++
    rep 0 6 ++ (2, SCall (SPop [[0; 0; 9]%N])) :: rep 2 2 ++ rep 1 2 ++
    (2, SCall (SPop [[7]; []; [8; 9]]%N)) :: rep 2 5 ++ (2, SCall (SPop [[7]; [8; 9]]%N)) :: rep 2 5).
  eexists _, _. split; vm_compute; reflexivity.
Qed.

(** ** C29 *)

Lemma hdr_len h : length (hdr_bytes h) = 4. Proof. done. Qed.

Lemma hdr_roundtrip h : (r_id h < 256 -> r_type h < 256 -> r_len h < 65536 ->
  hdr_of_bytes (hdr_bytes h) = h)%N.
Proof.
  destruct h as [i t l]. unfold hdr_of_bytes, hdr_bytes. cbn [r_id r_type r_len nth]. intros H1 H2 H3.
  rewrite !(N.mod_small i), !(N.mod_small t) by done. f_equal.
  rewrite (N.mod_small (l / 256)) by (apply N.div_lt_upper_bound; lia).
  pose proof (N.div_mod l 256 ltac:(lia)). lia.
Qed.

(** The state of the model and the state of the specification. *)
Definition rp_inv {St} (tbl : gmap N (handler St)) (y : rsys St) (st : St) (p : rphase) (cg sd : bool) : Prop :=
  let 'mkRsys c2s s2c cl hdr srv dead := y in
  dead = sd /\ sv_st srv = st /\ sv_handlers srv = tbl /\
  (sd = false -> N.of_nat (length (sv_data srv)) = 8192%N) /\
  (r_id hdr < 256)%N /\
  match p with
  | PIdle => c2s = [] /\ s2c = [] /\ cl = if cg then ClDead else ClIdle
  | PBad => False
  | PReq id din dout => fits din /\ (id < 256)%N /\ s2c = [] /\
      c2s = [hdr_bytes (mkHdr (r_id hdr) id (N.of_nat (length (concat din)))) ++ concat din] /\
      cl = if cg then ClDead else ClWait dout
  | PRep dout r => c2s = [] /\ cl = (if cg then ClDead else ClWait dout) /\
      exists h, (r_id h < 256 /\ r_type h < 256 /\ r_len h < 65536)%N /\ s2c = [hdr_bytes h ++ r]
  | PLost dout => c2s = [] /\ s2c = [] /\ cl = if cg then ClDead else ClWait dout
  end.

Lemma chan_send_ok ch h din : fits din ->
  send_msg ch h din = ROkay (ch ++ [hdr_bytes h ++ concat din]).
Proof.
  intros [F1 F2]. unfold send_msg, chan_send. destruct (Nat.leb_spec (length din) 6); [|lia].
  rewrite total_len_concat. cbn [concat]. rewrite app_length, hdr_len.
  destruct (N.leb_spec (N.of_nat (4 + length (concat din))) QUEUE_ENTRY_SIZE) as [L|L].
  2: { unfold QUEUE_ENTRY_SIZE in L. lia. }
  destruct (Nat.eqb_spec (4 + length (concat din)) 0); [lia|]. done.
Qed.
Lemma chan_send_bad ch h din : ~ fits din -> send_msg ch h din = RPanic.
Proof.
  intros F. unfold send_msg, chan_send. destruct (Nat.leb_spec (length din) 6); [|done].
  rewrite total_len_concat. cbn [concat]. rewrite app_length, hdr_len.
  destruct (N.leb_spec (N.of_nat (4 + length (concat din))) QUEUE_ENTRY_SIZE) as [L|L]; [|done].
  exfalso. apply F. split; [done|]. unfold QUEUE_ENTRY_SIZE in L. lia.
Qed.

Lemma recv_ok ch hb r h0 payload : length hb = 4 -> length payload <= 6 -> length r <= length (concat payload) ->
  recv_msg ((hb ++ r) :: ch) h0 payload = ROkay (ch, hdr_of_bytes hb, fill payload r).
Proof.
  intros H4 H6 Hl. unfold recv_msg, chan_recv. destruct (Nat.leb_spec (length payload) 6); [|lia].
  rewrite total_len_concat. cbn [concat]. rewrite !app_length, hdr_len.
  destruct (Nat.leb_spec (length hb + length r) (4 + length (concat payload))); [|lia].
  cbn [fill]. rewrite hdr_len, app_length.
  rewrite take_app_alt, drop_app_alt by done.
  rewrite (drop_ge (hdr_bytes h0)) by (rewrite hdr_len; lia). by rewrite app_nil_r.
Qed.
Lemma recv_large ch hb r h0 payload : length hb = 4 -> length (concat payload) < length r ->
  recv_msg ((hb ++ r) :: ch) h0 payload = RPanic.
Proof.
  intros H4 Hl. unfold recv_msg, chan_recv. destruct (Nat.leb_spec (length payload) 6); [|done].
  rewrite total_len_concat. cbn [concat]. rewrite !app_length, hdr_len.
  destruct (Nat.leb_spec (length hb + length r) (4 + length (concat payload))); [lia|]. done.
Qed.
Lemma recv_slices ch h0 payload : 6 < length payload -> recv_msg ch h0 payload = RPanic.
Proof. intros H. unfold recv_msg. by destruct (Nat.leb_spec (length payload) 6); [lia|]. Qed.
Lemma recv_none h0 payload : length payload <= 6 -> recv_msg [] h0 payload = RBlocks.
Proof. intros H. unfold recv_msg. by destruct (Nat.leb_spec (length payload) 6); [|lia]. Qed.

(** What handle does to a server with one request. *)
Lemma handle_spec {St} (tbl : gmap N (handler St)) (srv : server St) hid id din :
  sv_handlers srv = tbl -> N.of_nat (length (sv_data srv)) = 8192%N -> (forall i f, tbl !! i = Some f -> handler_typed f) ->
  fits din -> (id < 256)%N -> (hid < 256)%N ->
  exists buf, let h := mkHdr hid id (N.of_nat (length (concat din))) in
    request_of id din h buf /\
    server_handle [hdr_bytes h ++ concat din] [] srv =
    match tbl !! id with
    | None => (([], [], mkServer (sv_st srv) tbl h buf), RErr NoHandlerForRPCType)
    | Some f =>
        match f (sv_st srv) h buf with
        | (st', inr n) => (([], [], mkServer st' tbl h buf), RErr (HandlerError n))
        | (st', inl (h', d')) =>
            if (4 + r_len h' <=? 8192)%N
            then (([], [hdr_bytes h' ++ take (N.to_nat (r_len h')) d'], mkServer st' tbl h' d'), ROkay tt)
            else (([], [], mkServer st' tbl h' d'), RPanic)
        end
    end.
Proof.
  intros Ht Hd Hty [F1 F2] Hid Hhid.
  assert (Lc : length (concat din) <= length (sv_data srv)) by lia.
  exists (concat din ++ drop (length (concat din)) (sv_data srv)). intros h.
  assert (RQ : request_of id din h (concat din ++ drop (length (concat din)) (sv_data srv))).
  { split; [done|]. split; [done|]. split; [|by rewrite take_app]. rewrite app_length, drop_length. lia. }
  split; [done|]. unfold server_handle, server_receive.
  rewrite recv_ok; [|apply hdr_len|simpl; lia|simpl; rewrite app_nil_r; done].
  rewrite hdr_roundtrip; [|done|done|unfold h; cbn [r_len]; lia].
  cbn [fill]. rewrite (take_ge (concat din)) by done. cbn [sv_handlers sv_hdr sv_data sv_st]. rewrite Ht.
  change (r_type h) with id. destruct (tbl !! id) as [f|] eqn:Ef; [|done].
  destruct (f (sv_st srv) h _) as [st' [[h' d']|n]] eqn:Ef2; [|done].
  pose proof (Hty _ _ Ef _ _ _ _ _ _ Ef2) as (Ld & _).
  destruct RQ as (_ & _ & Lb & _). unfold server_reply. cbn [sv_hdr sv_data].
  destruct (N.leb_spec (4 + r_len h') 8192) as [L|L].
  - destruct (Nat.leb_spec (N.to_nat (r_len h')) (length d')) as [L'|L']; [|lia].
    rewrite chan_send_ok; [cbn [concat app]; by rewrite app_nil_r|].
    split; [simpl; lia|]. cbn [concat]. rewrite app_nil_r, take_length. lia.
  - destruct (Nat.leb_spec (N.to_nat (r_len h')) (length d')) as [L'|L']; [|done].
    rewrite chan_send_bad; [done|]. intros [_ F]. cbn [concat] in F. rewrite app_nil_r, take_length in F. lia.
Qed.

Lemma handle_none {St} (srv : server St) s2c : server_handle [] s2c srv = (([], s2c, srv), RBlocks).
Proof. unfold server_handle, server_receive. rewrite recv_none; [done|simpl; lia]. Qed.

Lemma fits_dec din : fits din \/ ~ fits din.
Proof.
  unfold fits. destruct (decide (length din <= 6)); [|right; tauto].
  destruct (decide (4 + N.of_nat (length (concat din)) <= 8192)%N); [left|right]; tauto.
Qed.

Definition act_typed (a : ract) : Prop := match a with YCall id _ _ => (id < 256)%N | _ => True end.

Lemma rp_simulation {St} (tbl : gmap N (handler St)) y st p cg sd a y' es :
  (forall i f, tbl !! i = Some f -> handler_typed f) -> act_typed a ->
  rp_inv tbl y st p cg sd -> y_step y a = Some (y', es) ->
  exists st' p' cg' sd', rp_steps tbl (st, p, cg, sd) es (st', p', cg', sd') /\ rp_inv tbl y' st' p' cg' sd'.
Proof.
  intros Hty Ha I E. destruct y as [c2s s2c cl hdr srv dead]. destruct I as (-> & Hst & Htb & Hd & Hr & P).
  assert (ONE : forall x e z, rp_step tbl x e z -> rp_steps tbl x [e] z) by (intros; eapply RPS_cons; [done|apply RPS_nil]).
  destruct a as [id din dout| | |]; cbn [y_step] in E.
  - (* call *)
    destruct cl; try discriminate E. destruct p, cg; try (destruct_and!; discriminate); try done.
    destruct P as (-> & -> & _).
    destruct (fits_dec din) as [F|F].
    + unfold client_send in E. rewrite total_len_concat in E. pose proof F as [F1 F2].
      destruct (N.ltb_spec (N.of_nat (length (concat din))) 65535) as [L|L]; [|lia].
      assert (U : as_u16 (length (concat din)) = N.of_nat (length (concat din))).
      { unfold as_u16. rewrite N.mod_small; [done|]. change (2 ^ 16)%N with 65536%N. lia. }
      rewrite U in E. rewrite chan_send_ok in E by done. cbn [app] in E. injection E as <- <-.
      exists st, (PReq id din dout), false, sd. split; [by apply ONE, RP_call|]. by split_and!.
    + exists st, PIdle, true, sd.
      assert (E' : (mkRsys [] [] ClDead hdr srv sd, [VCall id din dout; VClientPanic]) = (y', es)).
      { unfold client_send in E. destruct (N.of_nat (total_len din) <? 65535)%N; [|congruence].
        rewrite chan_send_bad in E by done. congruence. }
      injection E' as <- <-. split; [eapply RPS_cons; [by apply RP_call_bad|apply ONE, RP_bad]|]. by split_and!.
  - (* receive *)
    destruct cl as [|dout|]; try discriminate E. unfold client_recv in E.
    destruct cg. { destruct p; destruct_and?; try discriminate; done. }
    assert (OB : out_bufs p = Some dout) by (destruct p; destruct_and?; try done; naive_solver).
    destruct (decide (length dout <= 6)) as [L6|L6].
    2: { rewrite recv_slices in E by lia. injection E as <- <-. exists st, p, true, sd. split.
      - apply ONE. eapply RP_return_slices; [done|lia].
      - split_and!; try done. destruct p; try done; naive_solver. }
    destruct p as [| |id din o|o r|o]; try done; cbn in OB; injection OB as ->.
    + destruct P as (_ & _ & -> & _). rewrite recv_none in E by done. done.
    + destruct P as (-> & _ & h & (B1 & B2 & B3) & ->).
      destruct (decide (length r <= length (concat dout))) as [Lr|Lr].
      * rewrite recv_ok in E by done. injection E as <- <-.
        exists st, PIdle, false, sd. split.
        { apply ONE, RP_return; [|done|done]. split; [apply fill_length|by apply fill_concat]. }
        rewrite hdr_roundtrip by done. by split_and!.
      * rewrite recv_large in E by (done || lia). injection E as <- <-.
        exists st, (PRep dout r), true, sd. split; [apply ONE, RP_return_large; lia|].
        split_and!; try done. by exists h.
    + destruct P as (_ & -> & _). rewrite recv_none in E by done. done.
  - (* handle *)
    assert (E' : (if sd then None else match server_handle c2s s2c srv with
      | (_, RBlocks) => None
      | ((c2s', s2c', srv'), r) =>
          Some (mkRsys c2s' s2c' cl hdr srv' (match r with RPanic => true | _ => false end), [VHandle r])
      end) = Some (y', es)) by (destruct cl; exact E). clear E. rename E' into E.
    destruct sd; [done|]. specialize (Hd eq_refl).
    destruct p as [| |id din o|o r|o]; try done.
    1: destruct P as (-> & -> & _); by rewrite handle_none in E.
    2: destruct P as (-> & _ & _); by rewrite handle_none in E.
    2: destruct P as (-> & -> & _); by rewrite handle_none in E.
    destruct P as (F & Hid & -> & -> & ->).
    destruct (handle_spec tbl srv (r_id hdr) id din Htb Hd Hty F Hid Hr) as (buf & RQ & EQ).
    pose proof RQ as (_ & _ & Lb & _).
    rewrite EQ, Hst in E. clear EQ. destruct (tbl !! id) as [f|] eqn:Ef.
    2: { injection E as <- <-. exists st, (PLost o), cg, false. split; [apply ONE; eapply RP_unknown; tauto|]. by split_and!. }
    destruct (f st _ buf) as [st' [[h' d']|n]] eqn:Ef2.
    2: { injection E as <- <-. exists st', (PLost o), cg, false. split; [apply ONE; eapply RP_serve_fail; try done; tauto|]. by split_and!. }
    pose proof (Hty _ _ Ef _ _ _ _ _ _ Ef2) as (Ld & Hb).
    destruct (N.leb_spec (4 + r_len h') 8192) as [L|L]; injection E as <- <-.
    + exists st', (PRep o (take (N.to_nat (r_len h')) d')), cg, false. split.
      * apply ONE. eapply RP_serve; try done. tauto.
      * split_and!; try done; [intros _; cbn; lia|]. by exists h'.
    + exists st', (PLost o), cg, true. split; [apply ONE; eapply RP_serve_large; try done; tauto|]. by split_and!.
  - (* try_handle *)
    assert (E' : (if sd then None else match server_try_handle c2s s2c srv with
      | ((c2s', s2c', srv'), r) =>
          Some (mkRsys c2s' s2c' cl hdr srv' (match r with RPanic => true | _ => false end), [VTry r])
      end) = Some (y', es)) by (destruct cl; exact E). clear E. rename E' into E.
    destruct sd; [done|]. pose proof (Hd eq_refl) as Hd'. unfold server_try_handle in E.
    assert (DP : (exists id din o, p = PReq id din o) \/ ~ (exists id din o, p = PReq id din o)).
    { destruct p; [right|right|left|right|right]; naive_solver. }
    destruct DP as [(id & din & o & ->)|NP].
    2: { exists st, p, cg, false.
      assert (c2s = []) as -> by (destruct p; try (by destruct_and?); exfalso; apply NP; eauto).
      rewrite handle_none in E. injection E as <- <-. split; [|by split_and!].
      apply ONE, RP_poll. intros id din o ->. apply NP. eauto. }
    destruct P as (F & Hid & -> & -> & ->).
    destruct (handle_spec tbl srv (r_id hdr) id din Htb Hd' Hty F Hid Hr) as (buf & RQ & EQ).
    pose proof RQ as (_ & _ & Lb & _).
    rewrite EQ, Hst in E. clear EQ. destruct (tbl !! id) as [f|] eqn:Ef.
    2: { injection E as <- <-. exists st, (PLost o), cg, false. split; [apply ONE; eapply RP_unknown; tauto|]. by split_and!. }
    destruct (f st _ buf) as [st' [[h' d']|n]] eqn:Ef2.
    2: { injection E as <- <-. exists st', (PLost o), cg, false. split; [apply ONE; eapply RP_serve_fail; try done; tauto|]. by split_and!. }
    pose proof (Hty _ _ Ef _ _ _ _ _ _ Ef2) as (Ld & Hb).
    destruct (N.leb_spec (4 + r_len h') 8192) as [L|L]; injection E as <- <-.
    + exists st', (PRep o (take (N.to_nat (r_len h')) d')), cg, false. split.
      * apply ONE. eapply RP_serve; try done. tauto.
      * split_and!; try done; [intros _; cbn; lia|]. by exists h'.
    + exists st', (PLost o), cg, true. split; [apply ONE; eapply RP_serve_large; try done; tauto|]. by split_and!.
Qed.

Lemma rp_run {St} (tbl : gmap N (handler St)) : (forall i f, tbl !! i = Some f -> handler_typed f) ->
  forall l y st p cg sd y' es, Forall act_typed l -> rp_inv tbl y st p cg sd -> y_run y l = Some (y', es) ->
  exists st' p' cg' sd', rp_steps tbl (st, p, cg, sd) es (st', p', cg', sd') /\ rp_inv tbl y' st' p' cg' sd'.
Proof.
  intros Hty. induction l as [|a l IH]; intros y st p cg sd y' es Hl I E; cbn [y_run] in E.
  - injection E as <- <-. exists st, p, cg, sd. split; [apply RPS_nil|done].
  - destruct (y_step y a) as [[y1 e1]|] eqn:E1; [|done].
    destruct (y_run y1 l) as [[y2 e2]|] eqn:E2; [|done]. injection E as <- <-.
    inversion_clear Hl as [|? ? Ha Hl'].
    destruct (rp_simulation _ _ _ _ _ _ _ _ _ Hty Ha I E1) as (st1 & p1 & cg1 & sd1 & B1 & I1).
    destruct (IH _ _ _ _ _ _ _ Hl' I1 E2) as (st2 & p2 & cg2 & sd2 & B2 & I2).
    exists st2, p2, cg2, sd2. split; [|done]. clear -B1 B2. induction B1; [done|]. simpl.
    eapply RPS_cons; [done|]. by apply IHB1.
Qed.

(** Calls in any order with polls and requests handled: for every set of handlers, what
    client and server observe is what the specification of remote calls allows: a call
    returns the reply that the handler registered for its type computes from its payload,
    and that reply only; a request of an unknown type, or whose handler fails, is never
    answered. *)
Theorem C29_calls {St} (srv : server St) l y es :
  N.of_nat (length (sv_data srv)) = 8192%N ->
  (forall i f, sv_handlers srv !! i = Some f -> handler_typed f) -> Forall act_typed l ->
  y_run (rsys_init srv) l = Some (y, es) ->
  exists st p cg sd, rp_steps (sv_handlers srv) (sv_st srv, PIdle, false, false) es (st, p, cg, sd).
Proof.
  intros Hd Hty Hl E.
  destruct (rp_run (sv_handlers srv) Hty l (rsys_init srv) (sv_st srv) PIdle false false y es)
    as (st & p & cg & sd & B & _); [done|by split_and!|done|]. by exists st, p, cg, sd.
Qed.
Print Assumptions C29_calls.

(** Registration: for each type the first handler stays; every later one is refused. *)
Theorem C29_register {St} (st : St) l s rs :
  server_registers (server_new st) l = (s, rs) ->
  length rs = length l /\
  forall k id h, l !! k = Some (id, h) ->
    let first := forall j h', l !! j = Some (id, h') -> k <= j in
    (first -> sv_handlers s !! id = Some h /\ rs !! k = Some (ROkay tt)) /\
    (~ first -> rs !! k = Some (RErr DuplicateRPCType)).
Proof.
  assert (G : forall l (s0 s : server St) rs, server_registers s0 l = (s, rs) -> length rs = length l /\
    (forall i f, sv_handlers s0 !! i = Some f -> sv_handlers s !! i = Some f) /\
    forall k id h, l !! k = Some (id, h) ->
      ((sv_handlers s0 !! id = None /\ forall j h', l !! j = Some (id, h') -> k <= j) ->
         sv_handlers s !! id = Some h /\ rs !! k = Some (ROkay tt)) /\
      (~ (sv_handlers s0 !! id = None /\ forall j h', l !! j = Some (id, h') -> k <= j) ->
         rs !! k = Some (RErr DuplicateRPCType))).
  2: { intros E. destruct (G _ _ _ _ E) as (L & _ & H). split; [done|]. intros k id h Hk. cbn.
    destruct (H k id h Hk) as [H1 H2]. split; [intros F; apply H1; split; [apply lookup_empty|done]|].
    intros F. apply H2. tauto. }
  clear. induction l as [|[id0 h0] l IH]; intros s0 s rs E; cbn [server_registers] in E.
  - injection E as <- <-. split_and!; try done.
  - destruct (server_register s0 id0 h0) as [s1 r] eqn:E1.
    destruct (server_registers s1 l) as [s2 rs2] eqn:E2. injection E as <- <-.
    destruct (IH _ _ _ E2) as (L & M & H). unfold server_register in E1.
    split; [simpl; lia|].
    destruct (sv_handlers s0 !! id0) as [g|] eqn:E0; injection E1 as <- <-.
    + split; [done|]. intros [|k] id h Hk; cbn in Hk |- *.
      * injection Hk as <- <-. split; [intros [? _]; congruence|done].
      * destruct (H k id h Hk) as [H1 H2]. split.
        -- intros [N1 F]. apply H1. split; [done|]. intros j h' Hj. specialize (F (S j) h' Hj). lia.
        -- intros F. apply H2. intros [N1 F']. apply F. split; [done|].
           intros [|j] h' Hj; cbn in Hj; [congruence|]. specialize (F' j h' Hj). lia.
    + split.
      { intros i f Hf. apply M. cbn. rewrite lookup_insert_ne; [done|]. congruence. }
      intros [|k] id h Hk; cbn in Hk |- *.
      * injection Hk as <- <-. split.
        -- intros _. split; [|done]. apply M. cbn. apply lookup_insert.
        -- intros F. exfalso. apply F. split; [done|]. intros; lia.
      * destruct (H k id h Hk) as [H1 H2]. destruct (decide (id = id0)) as [->|Hne].
        -- split.
           ++ intros [_ F]. specialize (F 0 h0 eq_refl). lia.
           ++ intros _. apply H2. cbn. rewrite lookup_insert. intros [? _]. done.
        -- cbn in H1, H2. rewrite lookup_insert_ne in H1, H2 by done. split.
           ++ intros [N1 F]. apply H1. split; [done|]. intros j h' Hj. specialize (F (S j) h' Hj). lia.
           ++ intros F. apply H2. intros [N1 F']. apply F. split; [done|].
              intros [|j] h' Hj; cbn in Hj; [congruence|]. specialize (F' j h' Hj). lia.
Qed.
Print Assumptions C29_register.

Lemma server_new_data {St} (st : St) : N.of_nat (length (sv_data (server_new st))) = 8192%N.
Proof. unfold server_new. cbn [sv_data]. rewrite replicate_length. unfold QUEUE_ENTRY_SIZE. by rewrite N2Nat.id. Qed.

(** A call of a registered type is answered: whenever the client is idle and the server
    has not stopped, sending the request, handling it and receiving the reply are possible
    and give what the handler computes in the server's current state. *)
Theorem C29_call_answered {St} (srv : server St) l y es id din dout f :
  N.of_nat (length (sv_data srv)) = 8192%N ->
  (forall i f, sv_handlers srv !! i = Some f -> handler_typed f) -> Forall act_typed l ->
  y_run (rsys_init srv) l = Some (y, es) -> y_cl y = ClIdle -> y_dead y = false ->
  (id < 256)%N -> fits din -> length dout <= 6 -> sv_handlers srv !! id = Some f ->
  exists h buf, request_of id din h buf /\
    forall st' h' d', f (sv_st (y_srv y)) h buf = (st', inl (h', d')) ->
    (4 + r_len h' <= 8192)%N -> (r_len h' <= N.of_nat (length (concat dout)))%N ->
    exists y' dout', y_run y [YCall id din dout; YHandle; YRecv] =
      Some (y', [VCall id din dout; VHandle (ROkay tt); VReturn dout']) /\
      y_cl y' = ClIdle /\ y_dead y' = false /\ sv_st (y_srv y') = st' /\
      received dout dout' (take (N.to_nat (r_len h')) d').
Proof.
  intros Hd Hty Hl E Hcl Hdead Hid F L6 Hf.
  destruct (rp_run (sv_handlers srv) Hty l (rsys_init srv) (sv_st srv) PIdle false false y es)
    as (st & p & cg & sd & B & I); [done|by split_and!|done|].
  destruct y as [c2s s2c cl hdr sv dead]. cbn [y_cl y_dead y_srv] in *. subst cl dead.
  destruct I as (<- & Hst & Htb & Hd' & Hr & P). specialize (Hd' eq_refl).
  destruct p, cg; try (destruct_and?; discriminate); try done. destruct P as (-> & -> & _).
  pose proof F as [F1 F2].
  destruct (handle_spec (sv_handlers srv) sv (r_id hdr) id din Htb Hd' Hty F Hid Hr) as (buf & RQ & EQ).
  eexists _, buf. split; [exact RQ|]. intros st' h' d' Ef L L'.
  pose proof (Hty _ _ Hf _ _ _ _ _ _ Ef) as (Ld & B1 & B2 & B3).
  destruct RQ as (_ & _ & Lb & _).
  exists (mkRsys [] [] ClIdle (hdr_of_bytes (hdr_bytes h')) (mkServer st' (sv_handlers srv) h' d') false),
    (fill dout (take (N.to_nat (r_len h')) d')).
  assert (Lt : length (take (N.to_nat (r_len h')) d') <= length (concat dout)) by (rewrite take_length; lia).
  split_and!; try done; [|split; [apply fill_length|by apply fill_concat]].
  cbn [y_run y_step]. unfold client_send. rewrite total_len_concat.
  destruct (N.ltb_spec (N.of_nat (length (concat din))) 65535) as [L1|L1]; [|lia].
  assert (U : as_u16 (length (concat din)) = N.of_nat (length (concat din))).
  { unfold as_u16. rewrite N.mod_small; [done|]. change (2 ^ 16)%N with 65536%N. lia. }
  rewrite U, chan_send_ok by done. cbn [app y_run y_step].
  rewrite EQ, Hf, Ef. destruct (N.leb_spec (4 + r_len h') 8192) as [_|]; [|lia].
  cbn [y_run y_step]. unfold client_recv. rewrite recv_ok by (done || apply hdr_len). done.
Qed.
Print Assumptions C29_call_answered.

(** If each handler implements a procedure, that is, looks at nothing but the bytes of the
    request, remote calls are calls of these procedures.  (Partial: the code hands the whole
    buffer to the handlers; the next theorem is about one that looks behind the payload.) *)
Theorem C29_procedure_calls_partial {St} (srv : server St) (procs : gmap N (procedure St)) l y es :
  N.of_nat (length (sv_data srv)) = 8192%N ->
  (forall i f, sv_handlers srv !! i = Some f -> handler_typed f) -> Forall act_typed l ->
  (forall i, match sv_handlers srv !! i, procs !! i with
     | Some f, Some g => implements f g | None, None => True | _, _ => False end) ->
  y_run (rsys_init srv) l = Some (y, es) ->
  exists st p cg sd, pc_steps procs (sv_st srv, PIdle, false, false) es (st, p, cg, sd).
Proof.
  intros Hd Hty Hl Himp E. destruct (C29_calls srv l y es Hd Hty Hl E) as (st & p & cg & sd & B).
  exists st, p, cg, sd. revert B. generalize (sv_st srv, PIdle, false, false), (st, p, cg, sd).
  clear -Himp. intros a b B. induction B as [|a e b es c S B IH]; [apply PCS_nil|].
  eapply PCS_cons; [clear B IH|exact IH].
  assert (P : forall st id din (f : handler St) h buf st' o, sv_handlers srv !! id = Some f -> request_of id din h buf ->
    f st h buf = (st', o) -> exists (g : procedure St) o', procs !! id = Some g /\ g st (concat din) = (st', o') /\
      match o, o' with
      | inl (h', d'), inl r => r_len h' = N.of_nat (length r) /\ take (length r) d' = r
      | inr n, inr n' => n = n' | _, _ => False end).
  { intros st0 id din f h buf st' o Hf (R1 & R2 & R3 & R4) Ef. specialize (Himp id). rewrite Hf in Himp.
    destruct (procs !! id) as [g|]; [|done].
    assert (Lb : length (concat din) <= length buf) by (rewrite <-R4, take_length; lia).
    specialize (Himp st0 h buf). rewrite R2, Nat2N.id, R4 in Himp. specialize (Himp R3 ltac:(lia)).
    exists g. destruct (g st0 (concat din)) as [st2 [r|n]] eqn:Eg.
    - destruct Himp as (h' & d' & Ef' & L & T). rewrite Ef' in Ef. injection Ef as <- <-.
      by exists (inl r).
    - rewrite Himp in Ef. injection Ef as <- <-. by exists (inr n). }
  destruct S.
  - by apply PC_call.
  - by apply PC_call_bad.
  - by apply PC_bad.
  - destruct (P _ _ _ _ _ _ _ _ H H0 H1) as (g & [r|] & Hg & Eg & M); [|done]. destruct M as [M1 M2].
    rewrite M1, Nat2N.id, M2. rewrite M1 in H2. by eapply PC_serve.
  - destruct (P _ _ _ _ _ _ _ _ H H0 H1) as (g & [r|] & Hg & Eg & M); [|done]. destruct M as [M1 M2].
    rewrite M1 in H2. by eapply PC_serve_large.
  - destruct (P _ _ _ _ _ _ _ _ H H0 H1) as (g & [r|] & Hg & Eg & M); [done|]. subst.
    by eapply PC_serve_fail.
  - eapply PC_unknown; [|done]. specialize (Himp id). destruct (procs !! id); [|done].
    destruct (sv_handlers srv !! id); done.
  - by apply PC_poll.
  - by apply PC_return.
  - by apply PC_return_large.
  - by eapply PC_return_slices.
Qed.
Print Assumptions C29_procedure_calls_partial.

(** The handler also sees what earlier requests left in the buffer behind the payload: one
    call's data can reach a handler of another call. *)
Theorem C29_stale_bytes_refuted : exists f : handler (list N), handler_typed f /\
  let '(srv, _) := server_registers (server_new []) [(1%N, f)] in
  exists y es, y_run (rsys_init srv)
    [YCall 1 [[5; 6; 7]%N] [[]]; YHandle; YRecv; YCall 1 [[9]%N] [[]]; YHandle] = Some (y, es) /\
    sv_st (y_srv y) = [9; 6; 7]%N.
Proof.
  exists (fun _ h buf => (take 3 buf, inl (mkHdr 0 0 0, buf))). split.
  - intros st h buf st' h' d' E. injection E as <- <- <-. by split_and!.
  - cbn [server_registers server_register]. eexists _, _. split; [vm_compute; reflexivity|]. vm_compute. reflexivity.
Qed.

(** A case: a handler that sums its payload. *)
Example C29_procedure_hyps_met :
  let f : handler N := fun st h buf =>
    let s := foldr N.add 0%N (take (N.to_nat (r_len h)) buf) in
    ((st + s)%N, inl (mkHdr (r_id h mod 256) 1 1, match buf with [] => [] | _ :: b => (s mod 256)%N :: b end)) in
  let g : procedure N := fun st m => ((st + foldr N.add 0%N m)%N, inl [(foldr N.add 0%N m mod 256)%N]) in
  handler_typed f /\ implements f g.
Proof.
  intros f g. split.
  - intros st h buf st' h' d' E. injection E as <- <- <-. cbn [r_id r_type r_len]. split; [by destruct buf|].
    split_and!; [apply N.mod_lt|..]; done.
  - intros st h [|b buf] L ?; [done|]. cbn [g f]. eexists _, _. split; [reflexivity|]. done.
Qed.

(** A case: two handlers with state, several calls and an unknown type. *)
Example C29_hyps_met :
  let add : handler N := fun st h buf => ((st + nth 0 buf 0)%N, inl (mkHdr (r_id h) 9 1, ((st + nth 0 buf 0) mod 256)%N :: drop 1 buf)) in
  let fail : handler N := fun st h buf => (st, inr 3) in
  let '(srv, rs) := server_registers (server_new 0%N) [(1%N, add); (2%N, fail); (1%N, fail)] in
  rs = [ROkay tt; ROkay tt; RErr DuplicateRPCType] /\
  (exists y, y_run (rsys_init srv)
    [YTry; YCall 1 [[5]%N] [[0; 0]%N]; YTry; YTry; YRecv; YCall 1 [[2]%N; [8]%N] [[]; [0]%N]; YHandle; YRecv;
     YCall 7 [] [[0]%N]; YHandle] =
   Some (y, [VTry (ROkay false); VCall 1 [[5]%N] [[0; 0]%N]; VTry (ROkay true); VTry (ROkay false); VReturn [[5; 0]%N];
     VCall 1 [[2]%N; [8]%N] [[]; [0]%N]; VHandle (ROkay tt); VReturn [[]; [7]%N];
     VCall 7 [] [[0]%N]; VHandle (RErr NoHandlerForRPCType)])).
Proof. vm_compute. split; [done|]. eexists. reflexivity. Qed.
