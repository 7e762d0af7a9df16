(** C50: a file system call of a client machine of a rack is the same call on the controller. *)
From Verif Require Import Base FileModel RpcModel RpcSpec RpcProofs RpcProps FsModel RkModel RkSpec RkProofs RkSim.
From stdpp Require Import functions.

Local Opaque le64 str_bytes RW_SHMEM_BUF_LEN MAX_FILES_PER_PROCESS BASE_PAGE_SIZE.

(** Every history of any number of clients is a history of RkSpec: each call takes effect once,
    between the call and its return, as one local call on the one file system, and returns that
    call's result and bytes.  Missing: calls that are not transferable panic the client. *)
Theorem C50_rack_calls_are_local_calls_partial st bufs l g es :
  disjoint_buffers bufs -> Forall call_typed l -> g_run (rk_init st bufs) l = Some (g, es) ->
  exists f d, l_steps (k_node st, k_av st, fun _ => CsIdle, false) es (k_node (g_st g), k_av (g_st g), f, d).
Proof.
  intros DB HT E. destruct (sim_run _ _ _ _ _ _ DB (rk_init_inv st bufs) HT E) as ([[[n av] f] d] & S & I).
  destruct I as (<- & <- & _). by exists f, d.
Qed.

(** Every result of a call, with every error the kernel has and the address or size in it,
    reaches the client as it is. *)
Lemma payload_roundtrip c p e : (0 < c < U64)%N -> (p < U64)%N -> err_code e = (c, p) ->
  err_of_code c p = Some e -> dec_kres (enc_kres (inr e)) = Some (inr e).
Proof.
  intros Hc Hp E R. cbn [enc_kres]. rewrite E. unfold dec_kres.
  rewrite field_0 by (apply Hc). rewrite decide_False by lia.
  rewrite !field_S. rewrite field_0 by done. by rewrite R.
Qed.
Theorem C50_answers_survive (r : N * N + kerror) :
  match r with
  | inl (a, b) => (a < 2 ^ 64 /\ b < 2 ^ 64)%N
  | inr (CantGrowFurther p) | inr (AlreadyMapped p) | inr (BaseOverflow p) => (p < 2 ^ 64)%N
  | inr _ => True
  end -> dec_kres (enc_kres r) = Some r.
Proof.
  intros H. destruct r as [[a b]|e]; [by apply dec_enc_kres|].
  destruct e; first [ apply dec_enc_kres; exact Logic.I
    | eapply payload_roundtrip; [ | | reflexivity | reflexivity]; [done | exact H] ].
Qed.
Example C50_answers_hyps_met :
  dec_kres (enc_kres (inr (AlreadyMapped 4096))) = Some (inr (AlreadyMapped 4096)).
Proof. apply C50_answers_survive. done. Qed.

Definition client_is (g : rk) (i : nat) (P : clst -> Prop) : Prop :=
  exists c, g_cl g !! i = Some c /\ P (y_cl (c_sys c)).

Lemma inv_idle bufs g n av f d i : rk_inv bufs g (n, av, f, d) -> client_is g i (fun x => x = ClIdle) <->
  (exists c, g_cl g !! i = Some c) /\ f i = CsIdle.
Proof.
  intros (_ & _ & _ & _ & Ic). split.
  - intros (c & Hc & Hi). split; [eauto|]. specialize (Ic i c Hc). unfold cl_inv in Ic.
    destruct (c_sys c) as [c2s s2c cl hdr srv yd]. cbn [y_cl] in Hi. subst cl. destruct Ic as (_ & _ & _ & _ & Is).
    destruct (f i) as [|fc0|r0| |]; [reflexivity|..].
    + destruct Is as (_ & Is & _). discriminate Is.
    + destruct Is as (_ & Is & _). discriminate Is.
    + destruct Is.
    + destruct Is as (_ & Is). discriminate Is.
  - intros [[c Hc] Fi]. exists c. split; [exact Hc|]. specialize (Ic i c Hc). unfold cl_inv in Ic.
    destruct (c_sys c) as [c2s s2c cl hdr srv yd]. rewrite Fi in Ic. apply Ic.
Qed.

Lemma call_enabled g i c : client_is g i (fun x => x = ClIdle) ->
  exists g' es, g_step g (GCall i c) = Some (g', es) /\ (es = [GvCall i c] \/ es = [GvCall i c; GvPanic i]).
Proof.
  intros (cl & Hc & Hi). cbn [g_step]. rewrite Hc, Hi. destruct (stub _ _) as [[id din]|]; [|eauto 10].
  destruct (c_sys cl) as [c2s s2c cs hdr srv yd]. cbn [y_cl] in Hi. subst cs.
  cbn [with_st y_step y_c2s y_s2c y_cl y_hdr y_srv y_dead].
  destruct (client_send _ _ _ _) as [[? ?]| | |]; eauto 10.
Qed.

Lemma serve_enabled bufs g n av f i c : rk_inv bufs g (n, av, f, false) -> f i = CsPend c ->
  (exists x, g_cl g !! i = Some x) ->
  exists g' es, g_step g (GServe i) = Some (g', es) /\ (es = [] \/ es = [GvServe i] \/ es = [GvCrash i]).
Proof.
  intros (_ & _ & Id & _ & Ic) Fi [x Hx]. cbn [g_step]. rewrite Hx, Id. specialize (Ic i x Hx). unfold cl_inv in Ic.
  destruct (c_sys x) as [c2s s2c cs hdr srv yd]. destruct Ic as (Iy & _). subst yd.
  cbn [with_st y_step y_c2s y_s2c y_cl y_hdr y_srv y_dead].
  destruct (server_try_handle _ _ _) as [[[c' s'] srv'] [[]|e| |]]; eexists _, _; (split; [reflexivity|]); auto.
Qed.

(** A pending request is there to be served. *)
Lemma serve_event bufs g n av f i c g' es : rk_inv bufs g (n, av, f, false) -> f i = CsPend c ->
  g_step g (GServe i) = Some (g', es) -> es <> [].
Proof.
  intros (_ & _ & Id & _ & Ic) Fi E. cbn [g_step] in E. destruct (g_cl g !! i) as [x|] eqn:Hx; [|discriminate E].
  rewrite Id in E. specialize (Ic i x Hx). unfold cl_inv in Ic. rewrite Fi in Ic.
  destruct (c_sys x) as [c2s s2c cs hdr srv yd].
  destruct Ic as (Iy & IH & ID & IR & P1 & P2 & P3 & P4 & P5 & id & din & P6 & [P7|[P7 _]]); [|discriminate P7].
  subst yd. cbn [with_st y_step y_c2s y_s2c y_cl y_hdr y_srv y_dead] in E.
  destruct (stub_din _ _ _ _ P6 P5) as [F Hid].
  destruct (handle_spec handlers0 (mkServer (g_st g) (sv_handlers srv) (sv_hdr srv) (sv_data srv)) (r_id hdr) id din)
    as (buf & RQ & SH);
    [exact IH|exact ID|intros k f0 Hk; exact (file_handlers_typed k f0 (mkRack node_init [] (fun _ => 0%N)) Hk)
    |exact F|exact Hid|exact IR|].
  assert (Hh : exists f0, handlers0 !! id = Some f0).
  { destruct (controller_handlers (mkRack node_init [] (fun _ => 0%N))) as (K1 & K2 & K3 & K3' & K4 & K5 & K6 & K7 & K8).
    unfold handlers0. destruct c; cbn [stub] in P6.
    2: destruct (decide _); [|discriminate P6].
    all: injection P6 as <- <-; eauto. destruct (decide _); eauto. }
  destruct Hh as [f0 Hh]. unfold handler in Hh, SH. rewrite Hh in SH. subst c2s s2c. unfold server_try_handle in E. rewrite SH in E. clear SH.
  destruct (f0 _ _ _) as [st' [[h' d']|k]].
  - destruct (_ <=? _)%N; injection E as _ <-; discriminate.
  - injection E as _ <-; discriminate.
Qed.

Lemma recv_enabled bufs g n av f d i r : rk_inv bufs g (n, av, f, d) -> f i = CsDone r ->
  (exists x, g_cl g !! i = Some x) ->
  exists g', g_step g (GRecv i) = Some (g', [GvRet i r]).
Proof.
  intros (_ & _ & _ & _ & Ic) Fi [x Hx]. cbn [g_step]. rewrite Hx. specialize (Ic i x Hx). unfold cl_inv in Ic. rewrite Fi in Ic.
  destruct (c_sys x) as [c2s s2c cl hdr srv yd].
  destruct Ic as (Iy & IH & ID & IR & P1 & P2 & fc & h & P3 & P4 & P5 & P6 & P7). subst yd cl s2c c2s. rewrite P3.
  cbn [with_st y_step y_c2s y_s2c y_cl y_hdr y_srv y_dead]. unfold client_recv. rewrite recv_ok.
  2: apply hdr_len.
  2: cbn [length]; lia.
  2: { cbn [concat]. rewrite app_nil_r, replicate_length, enc_kres_length. lia. }
  cbn [fill]. rewrite replicate_length, take_ge, drop_ge, app_nil_r.
  2-3: rewrite ?replicate_length, enc_kres_length; lia.
  rewrite finish_fits by auto. eexists. reflexivity.
Qed.

Lemma g_cl_step bufs g l : rk_inv bufs g l -> forall i, (exists x, g_cl g !! i = Some x) <-> i < length bufs.
Proof.
  destruct l as [[[n av] f] d]. intros (_ & _ & _ & Ib & _) i. rewrite <-Ib, map_length. split.
  - intros [x Hx]. by eapply lookup_lt_Some.
  - apply lookup_lt_is_Some.
Qed.

(** A call in any reachable state, with nothing else running, returns what the local call
    returns, and leaves the file system the local call leaves. *)
Theorem C50_call_answered_partial st bufs l g es i c r n' :
  disjoint_buffers bufs -> Forall call_typed l -> g_run (rk_init st bufs) l = Some (g, es) ->
  g_dead g = false -> client_is g i (fun x => x = ClIdle) -> well_typed c -> transferable c ->
  local_call (hd 0 (k_av (g_st g))) (k_node (g_st g)) c = (Some r, n') ->
  exists g', g_run g [GCall i c; GServe i; GRecv i] = Some (g', [GvCall i c; GvServe i; GvRet i r]) /\
    k_node (g_st g') = n' /\ g_dead g' = false /\ client_is g' i (fun x => x = ClIdle).
Proof.
  intros DB HT E HD HI WT TR LC.
  destruct (sim_run _ _ _ _ _ _ DB (rk_init_inv st bufs) HT E) as ([[[n av] f] d] & _ & I).
  pose proof I as (In & Ia & Id & _). rewrite In, Ia in LC. assert (d = false) as -> by congruence.
  apply (inv_idle _ _ _ _ _ _ i I) in HI as HI2. destruct HI2 as [Hx Fi].
  assert (Hi : i < length bufs) by (by eapply g_cl_step).
  destruct (call_enabled g i c HI) as (g1 & e1 & E1 & S1).
  destruct (sim_call _ _ _ _ _ _ _ _ _ _ I WT E1) as (l1 & LS1 & I1).
  assert (l1 = (n, av, <[i := CsPend c]> f, false) /\ e1 = [GvCall i c]) as [-> ->].
  { destruct S1 as [-> | ->].
    - inversion LS1 as [|? ? ? ? ? H1 H2]; subst. inversion H2; subst. inversion H1; subst; [done|]. done.
    - exfalso. inversion LS1 as [|? ? ? ? ? H1 H2]; subst. inversion H2 as [|? ? ? ? ? H3 H4]; subst.
      inversion H1; subst; [|done]. inversion H3 as [| |? ? ? ? ? HB| | | | |]; subst. by rewrite fn_lookup_insert in HB. }
  destruct (serve_enabled _ _ _ _ _ i c I1) as (g2 & e2 & E2 & S2);
    [by rewrite fn_lookup_insert|by eapply g_cl_step|].
  pose proof (serve_event _ _ _ _ _ i c _ _ I1 ltac:(by rewrite fn_lookup_insert) E2) as NE2.
  destruct (sim_serve _ _ _ _ _ _ _ _ _ DB I1 E2) as (l2 & LS2 & I2).
  assert (e2 = [GvServe i] /\ l2 = (n', tl av, <[i := CsDone r]> (<[i := CsPend c]> f), false)) as [-> ->].
  { destruct S2 as [-> |[-> | ->]]; [done|..].
    - inversion LS2 as [|? ? ? ? ? H1 H2]; subst. inversion H2; subst.
      inversion H1 as [| | |? ? ? ? c' r' n'' HP HL| | | |]; subst. rewrite fn_lookup_insert in HP. injection HP as <-.
      rewrite LC in HL. injection HL as <- <-. done.
    - exfalso. inversion LS2 as [|? ? ? ? ? H1 H2]; subst.
      inversion H1 as [| | | |? ? ? ? c' n'' HP HL| | |]; subst. rewrite fn_lookup_insert in HP. injection HP as <-.
      rewrite LC in HL. discriminate HL. }
  destruct (recv_enabled _ _ _ _ _ _ i r I2) as (g3 & E3); [by rewrite fn_lookup_insert|by eapply g_cl_step|].
  destruct (sim_recv _ _ _ _ _ _ _ _ _ I2 E3) as (l3 & LS3 & I3).
  inversion LS3 as [|? ? ? ? ? H1 H2]; subst. inversion H2; subst. inversion H1; subst.
  exists g3. cbn [g_run]. rewrite E1, E2, E3. split; [reflexivity|].
  pose proof I3 as (J1 & _ & J2 & _). split; [exact J1|]. split; [exact J2|].
  apply (inv_idle _ _ _ _ _ _ i I3). split; [by eapply g_cl_step|by rewrite fn_lookup_insert].
Qed.

(** No call is stuck: while the controller runs, a waiting client is served, or its reply is there. *)
Theorem C50_waiting_call_proceeds st bufs l g es i :
  disjoint_buffers bufs -> Forall call_typed l -> g_run (rk_init st bufs) l = Some (g, es) ->
  g_dead g = false -> client_is g i (fun x => x <> ClIdle /\ x <> ClDead) ->
  exists a g' e, g_step g a = Some (g', [e]) /\
    (a = GServe i /\ (e = GvServe i \/ e = GvCrash i) \/ a = GRecv i /\ exists r, e = GvRet i r).
Proof.
  intros DB HT E HD (x & Hx & X1 & X2).
  destruct (sim_run _ _ _ _ _ _ DB (rk_init_inv st bufs) HT E) as ([[[n av] f] d] & _ & I).
  assert (d = false) as -> by (destruct I as (_ & _ & I & _); congruence).
  pose proof I as (_ & _ & _ & _ & Ic). specialize (Ic i x Hx). unfold cl_inv in Ic.
  destruct (c_sys x) as [c2s s2c cl hdr srv yd]. destruct Ic as (_ & _ & _ & _ & Is). cbn [y_cl] in X1, X2.
  destruct (f i) as [|c|r| |] eqn:Fi.
  - destruct Is as (_ & _ & Is & _). by destruct X1.
  - destruct (serve_enabled _ _ _ _ _ i c I Fi) as (g' & e & E1 & S); [eauto|].
    pose proof (serve_event _ _ _ _ _ i c _ _ I Fi E1) as NE.
    destruct S as [-> |[-> | ->]]; [done|..]; eexists (GServe i), g', _; (split; [exact E1|]); eauto.
  - destruct (recv_enabled _ _ _ _ _ _ i r I Fi) as (g' & E1); [eauto|].
    exists (GRecv i), g', (GvRet i r). split; [exact E1|]. right. eauto.
  - destruct Is.
  - destruct Is as [_ Is]. by destruct X2.
Qed.

(** The full property is false: a read of more than 8192 bytes, and a write or a path that does
    not fit one message, panic the client machine (rw.rs:148, lib/rpc transport), although the
    same calls on the controller return. *)
Theorem C50_large_call_refuted : forall bufs st i c, i < length bufs -> disjoint_buffers bufs -> well_typed c -> ~ transferable c ->
  exists g', g_run (rk_init st bufs) [GCall i c] = Some (g', [GvCall i c; GvPanic i]) /\
    client_is g' i (fun x => x = ClDead).
Proof.
  intros bufs st i c Hi DB WT NT. pose proof (rk_init_inv st bufs) as I.
  assert (Hx : exists x, g_cl (rk_init st bufs) !! i = Some x) by (by eapply g_cl_step).
  assert (HI : client_is (rk_init st bufs) i (fun x => x = ClIdle)).
  { apply (inv_idle _ _ _ _ _ _ i I). by split. }
  destruct (call_enabled _ i c HI) as (g1 & e1 & E1 & S1).
  destruct (sim_call _ _ _ _ _ _ _ _ _ _ I WT E1) as (l1 & LS1 & I1).
  assert (e1 = [GvCall i c; GvPanic i]) as ->.
  { destruct S1 as [-> | ->]; [|done]. exfalso. inversion LS1 as [|? ? ? ? ? H1 H2]; subst. inversion H2; subst.
    destruct Hx as [x Hx].
    inversion H1; subst; [done|]. destruct I1 as (_ & _ & _ & Ib & I1).
    assert (Hx1 : i < length (g_cl g1)) by (rewrite <-(map_length c_buf), Ib; done).
    apply lookup_lt_is_Some in Hx1 as [x1 Hx1]. specialize (I1 i x1 Hx1). rewrite fn_lookup_insert in I1.
    unfold cl_inv in I1. destruct (c_sys x1). destruct I1 as (_ & _ & _ & _ & []). }
  exists g1. cbn [g_run]. rewrite E1. split; [reflexivity|].
  inversion LS1 as [|? ? ? ? ? H1 H2]; subst. inversion H2 as [|? ? ? ? ? H3 H4]; subst. inversion H4; subst.
  inversion H3; subst. apply (g_cl_step _ _ _ I1) in Hi as [x1 Hx1]. exists x1. split; [exact Hx1|].
  destruct I1 as (_ & _ & _ & _ & I1). specialize (I1 i x1 Hx1). rewrite fn_lookup_insert in I1. unfold cl_inv in I1.
  destruct (c_sys x1). apply I1.
Qed.

(** A case of it: reading 8193 bytes of an open file. *)
Definition ex_state : rack :=
  let n := (step 1000 (step 1000 node_init (RAddProcess 1)).2 (ROpen 1 "/f" 0x203 511)).2 in
  mkRack (step 1000 n (RWrite 1 0 [7; 8; 9]%N (Some 0))).2 (replicate 9 1000) (fun _ => 0%N).
Definition ex_large : fcall := CRead 1 0 (N.to_nat 8193) 0.
Theorem C50_large_call_witness : exists n',
  local_call (hd 0 (k_av ex_state)) (k_node ex_state) ex_large = (Some (inl (3, 0)%N, [7; 8; 9]%N), n') /\
  exists g', g_run (rk_init ex_state [4096%N]) [GCall 0 ex_large] = Some (g', [GvCall 0 ex_large; GvPanic 0]) /\
    client_is g' 0 (fun x => x = ClDead).
Proof.
  eexists. split; [vm_compute; reflexivity|]. apply C50_large_call_refuted.
  - cbn; lia.
  - split.
    + intros [|i] p H; [|discriminate H]. injection H as <-. vm_compute. discriminate.
    + intros [|i] [|j] p q NE Hi Hj; try discriminate Hi; try discriminate Hj. by destruct NE.
  - unfold ex_large. cbn [well_typed]. split; [reflexivity|]. split.
    { Local Transparent MAX_FILES_PER_PROCESS. unfold MAX_FILES_PER_PROCESS. Local Opaque MAX_FILES_PER_PROCESS. lia. }
    split; [|lia]. rewrite N2Nat.id. reflexivity.
  - unfold ex_large. cbn [transferable]. rewrite N2Nat.id. lia.
Qed.

(** Two machines share one file: client 1 reads, through its own buffer, bytes client 0 writes. *)
Definition ex_acts : list gact :=
  [GAddProcess 1; GCall 0 (COpen 1 "/f" 0x203 511); GServe 1; GServe 0; GCall 1 (CInfo 1 "/f"); GRecv 0; GServe 1;
   GCall 0 (CWrite 1 0 [7; 8; 9]%N 0); GRecv 1; GServe 0; GCall 1 (CRead 1 0 2 1); GServe 1;
   GRecv 1; GRecv 0].
Lemma ex_bufs : disjoint_buffers [4096; 16384]%N.
Proof.
  split.
  - intros [|[|i]] p H; try discriminate H; injection H as <-; vm_compute; discriminate.
  - intros [|[|i]] [|[|j]] p q NE Hi Hj; try discriminate Hi; try discriminate Hj; try (by destruct NE);
      injection Hi as <-; injection Hj as <-; lia.
Qed.
Lemma ex_typed : Forall call_typed ex_acts.
Proof.
  Local Transparent str_bytes MAX_FILES_PER_PROCESS.
  repeat (apply Forall_cons_2; [|]); try exact I; try apply Forall_nil_2; cbn [call_typed well_typed].
  all: repeat split; try (vm_compute; reflexivity); try lia.
  all: unfold MAX_FILES_PER_PROCESS; lia.
  Local Opaque str_bytes MAX_FILES_PER_PROCESS.
Qed.
Definition ex_events : list gev :=
  [GvAddProcess 1; GvCall 0 (COpen 1 "/f" 0x203 511); GvServe 0; GvCall 1 (CInfo 1 "/f"); GvRet 0 (inl (0, 0)%N, []);
   GvServe 1; GvCall 0 (CWrite 1 0 [7; 8; 9]%N 0); GvRet 1 (inl (2, 0)%N, []); GvServe 0; GvCall 1 (CRead 1 0 2 1);
   GvServe 1; GvRet 1 (inl (2, 0)%N, [8; 9]%N); GvRet 0 (inl (3, 0)%N, [])].
Definition ex_init : rk := rk_init (mkRack node_init (replicate 9 1000) (fun _ => 0%N)) [4096; 16384]%N.
(** What the example needs of a run: events, whether the controller stopped, and for each client
    0 = idle, 1 = waiting, 2 = panicked. *)
Definition tag (c : rkclient) : nat := match y_cl (c_sys c) with ClIdle => 0 | ClWait _ => 1 | ClDead => 2 end.
Definition seen (o : option (rk * list gev)) : option (list gev * bool * list nat) :=
  match o with Some (g, es) => Some (es, g_dead g, map tag (g_cl g)) | None => None end.
Lemma seen_run o es d ts : seen o = Some (es, d, ts) -> exists g, o = Some (g, es) /\ g_dead g = d /\
  forall i t, ts !! i = Some t -> client_is g i (fun x => match x with ClIdle => 0 | ClWait _ => 1 | ClDead => 2 end = t).
Proof.
  destruct o as [[g es']|]; [|discriminate]. cbn [seen]. intros [= <- <- <-]. exists g. split; [done|]. split; [done|].
  intros i t H. change (map tag ?x) with (tag <$> x) in H. apply list_lookup_fmap_inv in H as (c & -> & Hc).
  exists c. split; [exact Hc|reflexivity].
Qed.
Lemma ex_run : seen (g_run ex_init ex_acts) = Some (ex_events, false, [0; 0]).
Proof. vm_compute. reflexivity. Qed.
Lemma ex_run5 : seen (g_run ex_init (take 5 ex_acts)) = Some (take 4 ex_events, false, [1; 1]).
Proof. vm_compute. reflexivity. Qed.

Example C50_hyps_met : disjoint_buffers [4096; 16384]%N /\ Forall call_typed ex_acts /\
  exists g, g_run ex_init ex_acts = Some (g, ex_events) /\
    g_dead g = false /\ client_is g 1 (fun x => x = ClIdle).
Proof.
  split; [apply ex_bufs|]. split; [apply ex_typed|]. destruct (seen_run _ _ _ _ ex_run) as (g & H1 & H2 & H3).
  exists g. split; [exact H1|]. split; [exact H2|]. destruct (H3 1 0 eq_refl) as (c & Hc & T). exists c. split; [exact Hc|].
  clear -T. by destruct (y_cl (c_sys c)).
Qed.

(** Clients that wait: after the call, before the reply. *)
Example C50_waiting_hyps_met : exists g es, g_run ex_init (take 5 ex_acts) = Some (g, es) /\
  g_dead g = false /\ forall i, i < 2 -> client_is g i (fun x => x <> ClIdle /\ x <> ClDead).
Proof.
  destruct (seen_run _ _ _ _ ex_run5) as (g & H1 & H2 & H3). exists g, (take 4 ex_events).
  split; [exact H1|]. split; [exact H2|]. intros i Hi.
  destruct (H3 i 1) as (c & Hc & T); [destruct i as [|[|i]]; [done|done|lia]|]. exists c. split; [exact Hc|].
  clear -T. by destruct (y_cl (c_sys c)).
Qed.

Print Assumptions C50_rack_calls_are_local_calls_partial.
Print Assumptions C50_answers_survive.
Print Assumptions C50_call_answered_partial.
Print Assumptions C50_waiting_call_proceeds.
Print Assumptions C50_large_call_refuted.
Print Assumptions C50_large_call_witness.
