(** C55: remote procedure calls over TCP. *)
From Verif Require Import Base RpcModel RpcSpec RpcProofs RpcProps TcpModel TcpSpec TcpProofs TrModel TrSpec TrProofs.

Lemma zinv_init {St} (srv : server St) : N.of_nat (length (sv_data srv)) = 8192%N ->
  zinv (sv_handlers srv) (zs_init srv) (sv_st srv, PIdle, false, false).
Proof. intros H. split_and!; try done. exists ch_init, ch_init. by split_and!; try apply tinv_init. Qed.

Lemma no_err_last es : Forall (fun e => ~ z_err e) es -> forall es1 e es2, es = es1 ++ e :: es2 -> z_err e -> es2 = [].
Proof.
  intros F es1 e es2 -> He. apply Forall_app in F as [_ F]. apply Forall_cons in F as [F _]. done.
Qed.

(** For all handlers, sizes of the buffers, ways to cut the streams and interleavings: calls
    behave as [tp_step] says, as long as no message was too large for its receiver (the last
    thing seen may be that error).  Full claim: the same after such an error. *)
Theorem C55_calls_partial {St} (srv : server St) txc rxc l y es :
  N.of_nat (length (sv_data srv)) = 8192%N ->
  (forall i f, sv_handlers srv !! i = Some f -> handler_typed f) ->
  z_run txc rxc (zs_init srv) l = Some (y, es) -> Forall id_ok es ->
  (forall es1 e es2, es = es1 ++ e :: es2 -> z_err e -> es2 = []) ->
  exists st p c d, tp_steps (sv_handlers srv) (sv_st srv, PIdle, false, false) es (st, p, c, d).
Proof.
  intros Hd Hty E Hid X.
  destruct (z_sim_run (sv_handlers srv) txc rxc Hty l _ _ y es (zinv_init srv Hd) E Hid X) as ([[[st p] c] d] & T & _).
  by exists st, p, c, d.
Qed.
Print Assumptions C55_calls_partial.

Lemma tp_count {St} (tbl : gmap N (handler St)) a es b : tp_steps tbl a es b -> Forall (fun e => ~ z_err e) es ->
  let w (p : rphase) := match p with PIdle => 0 | _ => 1 end in
  count_calls es + w a.1.1.2 = count_over es + w b.1.1.2.
Proof.
  intros T. induction T as [|a e b es c S T IH]; intros Ne w; [simpl; lia|].
  apply Forall_cons in Ne as [Ne1 Ne2]. specialize (IH Ne2). cbv zeta in IH. fold w in IH.
  unfold count_calls, count_over in *. destruct S; simpl in *; try lia;
    try (match goal with H : shows _ _ _ |- _ => destruct H as [->| ->] end; simpl; lia);
    exfalso; apply Ne1; first [by right|by left].
Qed.

(** Every call is answered: when nothing more can happen while the server waits for a request,
    every call has returned, if the types called have handlers, these reply, and no message was
    too large. *)
Theorem C55_answered_partial {St} (srv : server St) txc rxc l y es try : 0 < txc -> 0 < rxc ->
  N.of_nat (length (sv_data srv)) = 8192%N ->
  (forall i f, sv_handlers srv !! i = Some f -> handler_typed f) -> replies (sv_handlers srv) ->
  z_run txc rxc (zs_init srv) l = Some (y, es) -> Forall id_ok es -> Forall (fun e => ~ z_err e) es ->
  (forall id din dout, In (ZvY (VCall id din dout)) es -> is_Some (sv_handlers srv !! id)) ->
  (forall a, z_internal_act a -> z_step txc rxc y a = None) -> z_sv y = ZsRecv try ->
  (z_cl y = ZcIdle \/ z_cl y = ZcDead) /\ count_calls es = count_over es.
Proof.
  intros Ht Hx Hd Hty Hg E Hid Ne Hc K Hs.
  destruct (z_sim_run (sv_handlers srv) txc rxc Hty l _ _ y es (zinv_init srv Hd) E Hid (no_err_last _ Ne))
    as (sp & T & I). specialize (I Ne).
  pose proof (tp_fine _ _ _ _ T Hg Hc Ne Logic.I) as Hf. pose proof (tp_count _ _ _ _ T Ne) as C. cbv zeta in C. simpl in C.
  destruct (z_quiet (sv_handlers srv) txc rxc Hty y sp try Ht Hx I K Hs) as [Hcl|[dout Hp]].
  - split; [done|]. destruct sp as [[[st p] c] dd]. destruct I as (_ & _ & _ & _ & au & ad & _ & _ & Hr & _).
    assert (p = PIdle) as -> by (destruct Hcl as [Hcl|Hcl]; rewrite Hcl in Hr; apply Hr). simpl in C. lia.
  - exfalso. rewrite Hp in Hf. done.
Qed.
Print Assumptions C55_answered_partial.

(** Between calls of [call], handle and try_handle only boundedly many steps can happen. *)
Theorem C55_bounded_partial {St} (srv : server St) txc rxc l y es l' y' es' :
  N.of_nat (length (sv_data srv)) = 8192%N ->
  (forall i f, sv_handlers srv !! i = Some f -> handler_typed f) ->
  z_run txc rxc (zs_init srv) l = Some (y, es) -> Forall id_ok es -> Forall (fun e => ~ z_err e) es ->
  Forall z_internal_act l' -> z_run txc rxc y l' = Some (y', es') -> Forall (fun e => ~ z_err e) es' ->
  let bytes (d : tdir) := 5 * unsent (t_snd d) + 3 * length (t_tx d) + 2 * length (t_wire d) + length (t_rx d) + 2 in
  length l' <= bytes (z_up y) + bytes (z_down y) + 5 * N.to_nat 8196 + 4.
Proof.
  intros Hd Hty E Hid Ne F E' Ne' bytes.
  destruct (z_sim_run (sv_handlers srv) txc rxc Hty l _ _ y es (zinv_init srv Hd) E Hid (no_err_last _ Ne))
    as (sp & T & I). specialize (I Ne).
  assert (Hid' : Forall id_ok es').
  { clear -F E'. revert y y' es' E'. induction l' as [|a l' IH]; intros y y' es' E'; simpl in E'; [by injection E' as <- <-|].
    apply Forall_cons in F as [Fa F]. destruct (z_step txc rxc y a) as [[y1 e1]|] eqn:S; [|done].
    destruct (z_run txc rxc y1 l') as [[y2 e2]|] eqn:R; [|done]. injection E' as <- <-. apply Forall_app. split; [|by eapply IH].
    clear -Fa S. destruct y as [up down cl hdr srv sv]. destruct a as [| |a|a]; try done; simpl in S.
    - destruct (z_internal a); [|done]. destruct (t_step txc rxc up a) as [[up' e]|]; [|done].
      destruct e as [|[| | |r] [|]]; try done; [by injection S as <- <-| |].
      + destruct cl; try done. destruct (t_step _ _ _ _) as [[]|]; [|done]. by injection S as <- <-.
      + destruct sv as [|try| |]; try done. destruct r as [h [|data [|]]| |h]; try done; [|injection S as <- <-; by repeat constructor..].
        assert (G : forall r, Forall id_ok [z_served try r]) by (intros r; destruct try; by repeat constructor).
        unfold z_handle in S. destruct (_ !! _) as [f|]; [|by injection S as <- <-].
        destruct (f _ _ _) as [st' [[h' d']|n]]; [|by injection S as <- <-]. destruct (_ <=? _); [|by injection S as <- <-].
        destruct (t_step _ _ _ _) as [[]|]; [|done]. by injection S as <- <-.
    - destruct (z_internal a); [|done]. destruct (t_step txc rxc down a) as [[down' e]|]; [|done].
      destruct e as [|[| | |r] [|]]; try done; [by injection S as <- <-| |].
      + destruct sv; try done. by injection S as <- <-.
      + destruct cl; try done. destruct r; try done; injection S as <- <-; by repeat constructor. }
  pose proof (z_work_run (sv_handlers srv) txc rxc Hty l' y sp y' es' I F E' Ne' Hid') as W.
  destruct sp as [[[st p] c] dd]. destruct I as (_ & _ & Hl & _).
  assert (G : forall d, work d <= bytes d).
  { intros d. unfold work, bytes. destruct (t_snd d), (t_rcv d); cbn [w_snd w_rcv]; lia. }
  pose proof (G (z_up y)). pose proof (G (z_down y)). unfold zwork in W.
  assert (length (sv_data (z_srv y)) = N.to_nat 8192) as Hl2 by lia.
  assert (5 * (4 + length (sv_data (z_srv y))) = 5 * N.to_nat 8196) as Hl3 by lia.
  destruct (z_cl y), (z_sv y); lia.
Qed.
Print Assumptions C55_bounded_partial.

(** A handler that replies with the request. *)
Definition echo : handler N := fun st h buf => ((st + 1)%N, inl (mkHdr 0 7 (N.min (r_len h) 8192), buf)).
Definition echo_server : server N := (server_register (server_new 0%N) 7 echo).1.
Lemma echo_lookup i f : sv_handlers echo_server !! i = Some f -> f = echo.
Proof.
  change (<[7%N := echo]> (∅ : gmap N (handler N)) !! i = Some f -> f = echo).
  intros H. apply lookup_insert_Some in H as [[_ <-]|[_ H]]; [done|]. by rewrite lookup_empty in H.
Qed.

(** A request of one slice of [k] bytes and the header of its reply. *)
Definition one_call (din dout : list (list N)) (k : nat) : list zact :=
  [ZCall 7 din dout; ZUp (TSnd 4); ZUp (TSnd k); ZServe false; ZUp (TPollS (4 + k)); ZUp (TPollR (4 + k));
   ZUp (TRcv 4); ZUp (TRcv k); ZDown (TSnd 4); ZDown (TSnd k); ZDown (TPollS (4 + k)); ZDown (TPollR (4 + k)); ZDown (TRcv 4)].

(** After a call whose buffers were too small for the reply, the rest of the reply stays in the
    stream and the next call takes it for its own: it returns before the server has seen it. *)
Theorem C55_after_error_refuted : exists l y es,
  z_run 64 64 (zs_init echo_server) l = Some (y, es) /\ Forall id_ok es /\ In ZvCallErr es /\
  es = [ZvY (VCall 7 [[1; 9; 0; 0]%N] [[0]%N]); ZvY (VHandle (ROkay tt)); ZvCallErr;
        ZvY (VCall 7 [[5]%N] [[0]%N]); ZvY (VReturn [[0]%N])] /\ count_served es = 1.
Proof.
  set (l := one_call [[1; 9; 0; 0]%N] [[0]%N] 4 ++ [ZCall 7 [[5]%N] [[0]%N]; ZUp (TSnd 4); ZUp (TSnd 1); ZDown (TRcv 4)]).
  assert (H : option_map snd (z_run 64 64 (zs_init echo_server) l) =
    Some [ZvY (VCall 7 [[1; 9; 0; 0]%N] [[0]%N]); ZvY (VHandle (ROkay tt)); ZvCallErr;
        ZvY (VCall 7 [[5]%N] [[0]%N]); ZvY (VReturn [[0]%N])]) by (vm_compute; reflexivity).
  destruct (z_run 64 64 (zs_init echo_server) l) as [[y es]|] eqn:E; [|discriminate H]. simpl in H. injection H as H.
  exists l, y, es. split; [done|]. rewrite H. split; [by repeat constructor|]. split; [simpl; auto|]. split; [done|]. reflexivity.
Qed.
Print Assumptions C55_after_error_refuted.

(** A case: a call answered, then the server waits for the next one. *)
Example C55_hyps_met : exists l y es,
  N.of_nat (length (sv_data echo_server)) = 8192%N /\
  (forall i f, sv_handlers echo_server !! i = Some f -> handler_typed f) /\ replies (sv_handlers echo_server) /\
  z_run 64 64 (zs_init echo_server) l = Some (y, es) /\ Forall id_ok es /\ Forall (fun e => ~ z_err e) es /\
  es = [ZvY (VCall 7 [[1; 2; 3]; [4]]%N [[0; 0]; [0; 0; 9]]%N); ZvY (VHandle (ROkay tt)); ZvY (VReturn [[1; 2]; [3; 4; 9]]%N)] /\
  (forall id din dout, In (ZvY (VCall id din dout)) es -> is_Some (sv_handlers echo_server !! id)) /\
  (forall a, z_internal_act a -> z_step 64 64 y a = None) /\ z_sv y = ZsRecv false /\ sv_st (z_srv y) = 1%N.
Proof.
  set (l := [ZCall 7 [[1; 2; 3]; [4]]%N [[0; 0]; [0; 0; 9]]%N; ZUp (TSnd 4); ZUp (TSnd 3); ZUp (TSnd 1); ZServe false;
    ZUp (TPollS 8); ZUp (TPollR 8); ZUp (TRcv 4); ZUp (TRcv 4); ZDown (TSnd 4); ZDown (TSnd 4); ZDown (TPollS 8);
    ZDown (TPollR 8); ZDown (TRcv 4); ZDown (TRcv 2); ZDown (TRcv 2); ZServe false; ZUp (TRcv 0)]).
  assert (H : match z_run 64 64 (zs_init echo_server) l with
    | Some (y, es) => (t_tx (z_up y), t_wire (z_up y), t_rx (z_up y), t_snd (z_up y), z_down y, z_cl y, z_sv y, sv_st (z_srv y), es) =
        ([], [], [], SdIdle, td_init, ZcIdle, ZsRecv false, 1%N,
         [ZvY (VCall 7 [[1; 2; 3]; [4]]%N [[0; 0]; [0; 0; 9]]%N); ZvY (VHandle (ROkay tt)); ZvY (VReturn [[1; 2]; [3; 4; 9]]%N)]) /\
        match t_rcv (z_up y) with RvHdr [] _ => True | _ => False end
    | None => False end).
  { vm_compute. split; [reflexivity|exact I]. }
  destruct (z_run 64 64 (zs_init echo_server) l) as [[y es]|] eqn:E; [|done]. destruct H as [H Hr]. injection H as H1 H2 H3 H4 H5 H6 H7 H8 H9.
  exists l, y, es. split; [by vm_compute|]. split.
  { intros i f Hf. apply echo_lookup in Hf as ->. intros st h buf st' h' d' F. unfold echo in F. injection F as <- <- <-.
    split; [done|]. cbn [r_id r_type r_len]. lia. }
  split.
  { intros i f Hf. apply echo_lookup in Hf as ->. intros st h buf _. eexists _, _, _. split; [unfold echo; reflexivity|]. cbn [r_len]. lia. }
  split; [done|]. rewrite H9. split; [by repeat constructor|]. split.
  { repeat constructor; intros [?|?]; done. }
  split; [done|]. split.
  { intros id din dout [Hin|[Hin|[Hin|[]]]]; try discriminate Hin. injection Hin as <- _ _. by exists echo. }
  split; [|done]. destruct y as [[tx wire rx s r] down cl hdr srv sv]. cbn [z_up z_down z_cl z_sv z_srv t_tx t_wire t_rx t_snd t_rcv] in *.
  subst tx wire rx s down cl sv. destruct r as [| |[|? ?] bufs|]; try done.
  intros [| |[| |k|k|k|k]|[| |k|k|k|k]] Ha; try done; destruct k as [|[|[|[|[|k]]]]]; done.
Qed.
