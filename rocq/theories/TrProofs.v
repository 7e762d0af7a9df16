(** Calls over two channels of messages. *)
From Verif Require Import Base RpcModel RpcSpec RpcProofs RpcProps TcpModel TcpSpec TcpProofs TrModel TrSpec.

(** Messages on their way or about to be. *)
Definition pend (a : tchan) : list tmsg := a.1.1 ++ match a.1.2 with CsWill _ m => [m] | _ => [] end.
Definition adv (s s' : csnd) : Prop := s' = s \/ (exists t m, s = CsWill t m) /\ s' = CsDid.
Definition sending (s : csnd) : Prop := s = CsDid \/ exists m, s = CsWill false m.

Lemma adv_sending s s' : adv s s' -> sending s -> sending s'.
Proof. intros [->|[_ ->]]; [done|by left]. Qed.
Lemma adv_idle s : adv CsIdle s -> s = CsIdle.
Proof. intros [->|[(t & m & ?) _]]; done. Qed.
Lemma adv_trans a b c : adv a b -> adv b c -> adv a c.
Proof. intros [->|[H ->]] [->|[H' ->]]; try (by left); right; try done. Qed.

Lemma chs_nil a es b : ch_steps a es b -> es = [] -> pend b = pend a /\ b.2 = a.2 /\ adv a.1.2 b.1.2.
Proof.
  induction 1 as [a|a b es c S C IH|]; intros E; [by split_and!; try left| |done].
  destruct (IH E) as (-> & -> & A). inversion S; subst. simpl in *. unfold pend. simpl. rewrite app_nil_r.
  split_and!; try done. right. split; [by eauto|]. destruct A as [->|[(t & m' & ?) _]]; done.
Qed.

Lemma chs_one a es b : ch_steps a es b -> forall e, es = [e] ->
  exists a1 b1, ch_steps a [] a1 /\ ch_step a1 (Some e) b1 /\ ch_steps b1 [] b.
Proof.
  induction 1 as [a|a b es c S C IH|a e b es c S C IH]; intros e' E; [done| |].
  - destruct (IH e' E) as (a1 & b1 & A & B). exists a1, b1. split; [|done]. by eapply CHS_silent.
  - injection E as -> ->. exists a, b. split; [constructor|]. done.
Qed.

Lemma chs_sent a ok b : ch_steps a [TvSent ok] b -> sending a.1.2 ->
  pend b = pend a /\ b.2 = a.2 /\ b.1.2 = CsIdle.
Proof.
  intros C Hs. destruct (chs_one _ _ _ C _ eq_refl) as (a1 & b1 & C1 & S & C2).
  apply chs_nil in C1 as (P1 & R1 & A1); [|done]. apply chs_nil in C2 as (P2 & R2 & A2); [|done].
  pose proof (adv_sending _ _ A1 Hs) as Hs1.
  inversion S; subst; simpl in *.
  - rewrite P2, R2, <- P1. unfold pend. simpl. split_and!; try done. by apply adv_idle.
  - destruct Hs1 as [?|[m' ?]]; done.
Qed.

Lemma chs_got a r b : ch_steps a [TvGot r] b -> exists try bufs,
  a.2 = CrIn try bufs /\ b.2 = CrIdle /\ adv a.1.2 b.1.2 /\
  match r with
  | GMsg h bufs' => exists p, pend a = (h, p) :: pend b /\ length p <= length (concat bufs) /\ filled bufs bufs' p
  | GNone => pend a = pend b /\ try = true
  | GErr h => exists p, pend a = (h, p) :: pend b /\ length (concat bufs) < length p
  end.
Proof.
  intros C. destruct (chs_one _ _ _ C _ eq_refl) as (a1 & b1 & C1 & S & C2).
  apply chs_nil in C1 as (P1 & R1 & A1); [|done]. apply chs_nil in C2 as (P2 & R2 & A2); [|done].
  inversion S; subst; simpl in *; eexists _, _; (split; [symmetry; exact R1|]); (split; [done|]);
    (split; [by eapply adv_trans|]); rewrite P2, <- P1; unfold pend; simpl.
  - eexists. split_and!; done.
  - done.
  - eexists. split_and!; done.
Qed.

(** What an internal step shows. *)
Definition one_ev (e : list tev) : Prop := e = [] \/ (exists ok, e = [TvSent ok]) \/ exists r, e = [TvGot r].
Lemma sd_ret_one s : one_ev (sd_ret s).
Proof. destruct s; [right; left; by eexists|by left|by left]. Qed.
Lemma rv_next_one h rest : forall dn count exp, one_ev (rv_next h dn rest count exp).2.
Proof.
  induction rest as [|p rest IH]; intros dn count exp; cbn [rv_next]; [right; right; by eexists|].
  destruct (exp <? count + length p); [destruct (exp - count =? 0); [right; right; by eexists|by left]|].
  destruct (length p =? 0); [apply IH|by left].
Qed.
Lemma rv_got_one got bufs : one_ev (rv_got got bufs).2.
Proof.
  unfold rv_got, rv_header. destruct (length got =? 4); [|by left].
  destruct (_ <? _); [right; right; by eexists|]. destruct (_ =? 0); [right; right; by eexists|]. apply rv_next_one.
Qed.
Lemma internal_one txc rxc d a d' e : z_internal a = true -> t_step txc rxc d a = Some (d', e) -> one_ev e.
Proof.
  destruct d as [tx wire rx s r]. destruct a as [try h payload|try bufs|k|k|k|k]; intros Ha E; try done; simpl in E.
  - destruct (snd_step txc tx s k) as [[[tx' s'] e']|] eqn:S; [|done]. injection E as <- <-.
    destruct s as [|try buf rest|buf rest]; simpl in S; [done| |].
    + destruct (length tx <? txc).
      * destruct (chunk _ _ _); [|done]. injection S as <- <- <-. apply sd_ret_one.
      * destruct (k =? 0); [|done]. destruct try; injection S as <- <- <-; [right; left; by eexists|by left].
    + destruct (chunk _ _ _); [|done]. injection S as <- <- <-. apply sd_ret_one.
  - destruct (rcv_step rx r k) as [[[rx' r'] e']|] eqn:S; [|done]. injection E as <- <-.
    destruct r as [|try bufs|got bufs|h dn got n cur rest next]; cbn [rcv_step] in S; [done| | |].
    + destruct (length rx =? 0).
      * destruct (k =? 0); [|done]. destruct try; injection S as <- <- <-; [right; right; by eexists|by left].
      * destruct (chunk _ _ _); [|done]. pose proof (rv_got_one (take k rx) bufs) as O.
        destruct (rv_got (take k rx) bufs). by injection S as <- <- <-.
    + destruct (chunk _ _ _); [|done]. pose proof (rv_got_one (got ++ take k rx) bufs) as O.
      destruct (rv_got (got ++ take k rx) bufs). by injection S as <- <- <-.
    + destruct (chunk _ _ _); [|done]. destruct (length (got ++ take k rx) =? n); [|injection S as <- <- <-; by left].
      destruct next as [count|].
      * pose proof (rv_next_one h rest (dn ++ [(got ++ take k rx) ++ drop n cur]) count (N.to_nat (r_len h))) as O.
        destruct (rv_next _ _ _ _ _). by injection S as <- <- <-.
      * injection S as <- <- <-. right; right; by eexists.
  - destruct (chunk _ _ _); [|done]. injection E as <- <-. by left.
  - destruct (chunk _ _ _); [|done]. injection E as <- <-. by left.
Qed.
Lemma one_proper e : one_ev e -> Forall proper_send e.
Proof. intros [->|[[ok ->]|[r ->]]]; by repeat constructor. Qed.
Lemma z_internal_iff a : z_internal a = true <-> internal a.
Proof. by destruct a. Qed.

Lemma tinv_idle_snd d a : tinv d a -> a.1.2 = CsIdle -> t_snd d = SdIdle.
Proof.
  destruct a as [[q cs] cr]. intros (u & c & Hs & _) E. simpl in E. subst cs. destruct d as [? ? ? s ?]. simpl in *.
  by destruct s.
Qed.
Lemma tinv_idle_rcv d a : tinv d a -> a.2 = CrIdle -> t_rcv d = RvIdle.
Proof.
  destruct a as [[q cs] cr]. intros (u & c & _ & Hr & _) E. simpl in E. subst cr. destruct d as [? ? ? ? r]. simpl in *.
  by destruct r.
Qed.
Lemma tinv_in_rcv d a try bufs : tinv d a -> a.2 = CrIn try bufs -> t_rcv d <> RvIdle.
Proof.
  destruct a as [[q cs] cr]. intros (u & c & _ & Hr & _) E. simpl in E. subst cr. destruct d as [? ? ? ? r]. simpl in *.
  by destruct r.
Qed.
Lemma tinv_pend d a : tinv d a -> Forall msg_ok (pend a).
Proof.
  destruct a as [[q cs] cr]. intros (u & c & Hs & _ & Hq & _). unfold pend. simpl. apply Forall_app. split; [done|].
  destruct cs as [|try m|]; try by constructor. destruct (t_snd d); simpl in Hs; try done. constructor; [|constructor].
  by destruct Hs as (_ & _ & _ & ? & _).
Qed.

(** Calling send and receive. *)
Lemma call_send txc rxc d a h payload : tinv d a -> a.1.2 = CsIdle -> hdr_typed h ->
  r_len h = N.of_nat (length (concat payload)) ->
  exists d' e b, t_step txc rxc d (TSend false h payload) = Some (d', e) /\ tinv d' b /\
    b = (a.1.1, CsWill false (h, concat payload), a.2).
Proof.
  intros I Hi Hh Hl. pose proof (tinv_idle_snd _ _ I Hi) as Hs. destruct d as [tx wire rx s r]. simpl in Hs. subst s.
  destruct a as [[q cs] cr]. simpl in Hi. subst cs. eexists _, _, _. split; [done|]. split; [|done].
  destruct I as (u & c & Hs & Hr & Hq & Hst). simpl in *. exists [], c. simpl in *. subst u.
  split_and!; try done.
Qed.
Lemma call_recv txc rxc d a try bufs : tinv d a -> a.2 = CrIdle ->
  exists d' e b, t_step txc rxc d (TRecv try bufs) = Some (d', e) /\ tinv d' b /\ b = (a.1.1, a.1.2, CrIn try bufs).
Proof.
  intros I Hi. pose proof (tinv_idle_rcv _ _ I Hi) as Hs. destruct d as [tx wire rx s r]. simpl in Hs. subst r.
  destruct a as [[q cs] cr]. simpl in Hi. subst cr. eexists _, _, _. split; [done|]. split; [|done].
  destruct I as (u & c & Hs & Hr & Hq & Hst). simpl in *. exists u, c. simpl in *. subst c. by split_and!.
Qed.

(** ** The system *)

Definition cl_rel (cl : zcl) (c : bool) (cs : csnd) (cr : crcv) (p : rphase) : Prop :=
  match cl with
  | ZcIdle => c = false /\ cs = CsIdle /\ cr = CrIdle /\ p = PIdle
  | ZcSend o => c = false /\ sending cs /\ cr = CrIdle /\ out_bufs p = Some o
  | ZcRecv => c = false /\ cs = CsIdle /\ exists o, cr = CrIn false o /\ out_bufs p = Some o
  | ZcDead => c = true /\ cs = CsIdle /\ cr = CrIdle /\ p = PIdle
  end.
Definition sv_rel (sv : zsv) (dd : bool) (data : list N) (cr : crcv) (cs : csnd) : Prop :=
  match sv with
  | ZsIdle => dd = false /\ cr = CrIdle /\ cs = CsIdle
  | ZsRecv try => dd = false /\ cr = CrIn try [data] /\ cs = CsIdle
  | ZsReply => dd = false /\ cr = CrIdle /\ sending cs
  | ZsDead => dd = true /\ cr = CrIdle /\ cs = CsIdle
  end.
Definition ph_rel (p : rphase) (pu pd : list tmsg) : Prop :=
  match p with
  | PBad => False
  | PIdle | PLost _ => pu = [] /\ pd = []
  | PReq id din _ => (exists h, pu = [(h, concat din)] /\ r_type h = id) /\ pd = []
  | PRep _ r => pu = [] /\ exists h, pd = [(h, r)]
  end.
Definition zinv {St} (tbl : gmap N (handler St)) (y : zsys St) (sp : St * rphase * bool * bool) : Prop :=
  let '(st, p, c, dd) := sp in
  sv_handlers (z_srv y) = tbl /\ sv_st (z_srv y) = st /\ N.of_nat (length (sv_data (z_srv y))) = 8192%N /\
  hdr_typed (z_hdr y) /\
  exists au ad, tinv (z_up y) au /\ tinv (z_down y) ad /\
    cl_rel (z_cl y) c au.1.2 ad.2 p /\ sv_rel (z_sv y) dd (sv_data (z_srv y)) au.2 ad.1.2 /\
    ph_rel p (pend au) (pend ad).

Lemma out_bufs_rel cl c cs cr p p' : cl_rel cl c cs cr p -> out_bufs p' = out_bufs p -> out_bufs p <> None ->
  cl_rel cl c cs cr p'.
Proof.
  intros H E N. destruct cl; simpl in *.
  - destruct H as (_ & _ & _ & ->). done.
  - by rewrite E.
  - by rewrite E.
  - destruct H as (_ & _ & _ & ->). done.
Qed.
Lemma cl_rel_adv cl c cs cs' cr p : cl_rel cl c cs cr p -> adv cs cs' -> cl_rel cl c cs' cr p.
Proof.
  intros H A. destruct cl; simpl in *.
  - destruct H as (-> & -> & ? & ?). by apply adv_idle in A as ->.
  - destruct H as (-> & H & ? & ?). split_and!; try done. by eapply adv_sending.
  - destruct H as (-> & -> & ?). by apply adv_idle in A as ->.
  - destruct H as (-> & -> & ? & ?). by apply adv_idle in A as ->.
Qed.
Lemma sv_rel_adv sv dd data cr cs cs' : sv_rel sv dd data cr cs -> adv cs cs' -> sv_rel sv dd data cr cs'.
Proof.
  intros H A. destruct sv; simpl in *.
  - destruct H as (-> & ? & ->). by apply adv_idle in A as ->.
  - destruct H as (-> & ? & ->). by apply adv_idle in A as ->.
  - destruct H as (-> & ? & H). split_and!; try done. by eapply adv_sending.
  - destruct H as (-> & ? & ->). by apply adv_idle in A as ->.
Qed.

(** The channel after a step: the messages, the receiver, the sender. *)
Lemma step_nil txc rxc d a act d' : tinv d a -> t_step txc rxc d act = Some (d', []) ->
  exists b, tinv d' b /\ pend b = pend a /\ b.2 = a.2 /\ adv a.1.2 b.1.2.
Proof.
  intros I E. destruct (sim_step _ _ _ _ _ _ _ I E) as (b & B & [[h ?]|I']); [by constructor|done|].
  exists b. split; [done|]. by eapply chs_nil.
Qed.
Lemma step_sent txc rxc d a act d' ok : tinv d a -> t_step txc rxc d act = Some (d', [TvSent ok]) -> sending a.1.2 ->
  exists b, tinv d' b /\ pend b = pend a /\ b.2 = a.2 /\ b.1.2 = CsIdle.
Proof.
  intros I E Hs. destruct (sim_step _ _ _ _ _ _ _ I E) as (b & B & [[h ?]|I']); [by repeat constructor|done|].
  exists b. split; [done|]. by eapply chs_sent.
Qed.
Lemma step_got txc rxc d a act d' r : tinv d a -> t_step txc rxc d act = Some (d', [TvGot r]) ->
  exists b, (match r with GErr _ => True | _ => tinv d' b end) /\ exists try bufs,
  a.2 = CrIn try bufs /\ b.2 = CrIdle /\ adv a.1.2 b.1.2 /\
  match r with
  | GMsg h bufs' => exists p, pend a = (h, p) :: pend b /\ length p <= length (concat bufs) /\ filled bufs bufs' p
  | GNone => pend a = pend b /\ try = true
  | GErr h => exists p, pend a = (h, p) :: pend b /\ length (concat bufs) < length p
  end.
Proof.
  intros I E. destruct (sim_step _ _ _ _ _ _ _ I E) as (b & B & H); [by repeat constructor|].
  exists b. split; [|by apply chs_got]. destruct r; try done; destruct H as [[h' ?]|]; done.
Qed.

Local Ltac spl := repeat match goal with |- _ /\ _ => split end; try done.
Section calls.
  Context {St : Type} (tbl : gmap N (handler St)) (txc rxc : nat).
  Hypothesis Hty : forall i f, tbl !! i = Some f -> handler_typed f.

  Lemma z_served_shows try r t : (r = ROkay tt /\ t = ROkay true) \/ (r = RErr NoHandlerForRPCType /\ t = ROkay false) \/
      (exists n, r = RErr (HandlerError n) /\ t = RErr (HandlerError n)) \/ (r = RPanic /\ t = RPanic) ->
    shows (z_served try r) r t.
  Proof.
    intros H. unfold shows, z_served. destruct try; [right|by left].
    destruct H as [[-> ->]|[[-> ->]|[(n & -> & ->)|[-> ->]]]]; done.
  Qed.

  Lemma z_handle_sim y st p c dd try up' a' h data y' es ad id din dout :
    sv_handlers (z_srv y) = tbl -> sv_st (z_srv y) = st -> hdr_typed (z_hdr y) ->
    tinv up' a' -> tinv (z_down y) ad ->
    cl_rel (z_cl y) c a'.1.2 ad.2 p -> dd = false -> a'.2 = CrIdle -> ad.1.2 = CsIdle ->
    p = PReq id din dout -> r_type h = id -> pend a' = [] -> pend ad = [] -> request_of id din h data ->
    z_handle txc rxc try y up' h data = Some (y', es) ->
    exists sp', tp_steps tbl (st, p, c, dd) es sp' /\ zinv tbl y' sp'.
  Proof.
    destruct y as [up down cl hdr srv sv]. simpl. intros Htbl Hst Hh Iu Id Hcl -> Hcr Hcs Hp Ht Pu Pd Hreq E.
    unfold z_handle in E. rewrite Htbl, Ht in E. destruct (tbl !! id) as [f|] eqn:Hf.
    - rewrite Hst in E. destruct (f st h data) as [st' [[h' d']|n]] eqn:Hfun.
      + destruct (Hty _ _ Hf _ _ _ _ _ _ Hfun) as [Hlen Hh'].
        assert (Hd' : N.of_nat (length d') = 8192%N) by (rewrite Hlen; apply Hreq).
        destruct (Nat.leb_spec (N.to_nat (r_len h')) (length d')) as [Hle|Hgt].
        * destruct (call_send txc rxc down ad h' [take (N.to_nat (r_len h')) d']) as (down' & e' & b & E' & Ib & ->).
          { done. } { done. } { done. } { simpl. rewrite app_nil_r, take_length. lia. }
          rewrite E' in E. injection E as <- <-.
          exists (st', PRep dout (take (N.to_nat (r_len h')) d'), c, false). split.
          { rewrite Hp. eapply TPS_cons; [|apply TPS_nil]. apply (TP_serve tbl st id din dout c f h data st' h' d'); try done; [lia|].
            apply z_served_shows. by left. }
          simpl. spl. exists a', (ad.1.1, CsWill false (h', concat [take (N.to_nat (r_len h')) d']), ad.2).
          split; [done|]. split; [done|]. split; [|split].
          -- simpl. rewrite Hp in Hcl. eapply out_bufs_rel; [exact Hcl|done|done].
          -- simpl. split; [done|]. split; [done|]. right. by eexists.
          -- simpl. split; [done|]. exists h'. unfold pend in Pd |- *. rewrite Hcs, app_nil_r in Pd. simpl. by rewrite Pd, app_nil_r.
        * injection E as <- <-. exists (st', PLost dout, c, true). split.
          { rewrite Hp. eapply TPS_cons; [|apply TPS_nil]. apply (TP_serve_large tbl st id din dout c f h data st' h' d'); try done; [lia|].
            apply z_served_shows. by right; right; right. }
          simpl. spl. exists a', ad. spl.
          rewrite Hp in Hcl. eapply out_bufs_rel; [exact Hcl|done|done].
      + injection E as <- <-. exists (st', PLost dout, c, false). split.
        { rewrite Hp. eapply TPS_cons; [|apply TPS_nil]. apply (TP_serve_fail tbl st id din dout c f h data st' n); try done.
          apply z_served_shows. right; right; left. by eexists. }
        simpl. spl; [by apply Hreq|]. exists a', ad. spl.
        rewrite Hp in Hcl. eapply out_bufs_rel; [exact Hcl|done|done].
    - injection E as <- <-. exists (st, PLost dout, c, false). split.
      { rewrite Hp. eapply TPS_cons; [|apply TPS_nil]. apply TP_unknown; [done|].
        apply z_served_shows. by right; left. }
      simpl. spl; [by apply Hreq|]. exists a', ad. spl.
      rewrite Hp in Hcl. eapply out_bufs_rel; [exact Hcl|done|done].
  Qed.

  Lemma filled_one data bufs p : filled [data] bufs p -> exists data', bufs = [data'] /\ length data' = length data /\
    take (length p) data' = p.
  Proof.
    intros [H1 H2]. destruct bufs as [|b [|? ?]]; try done. exists b. simpl in H1, H2. rewrite !app_nil_r in H2.
    injection H1 as H1. spl. rewrite H2. by rewrite take_app.
  Qed.

  Definition zerr (es : list zev) : Prop := exists e, es = [e] /\ z_err e.

  Lemma z_sim_up y sp a y' es : zinv tbl y sp -> z_step txc rxc y (ZUp a) = Some (y', es) ->
    exists sp', tp_steps tbl sp es sp' /\ (zerr es \/ zinv tbl y' sp').
  Proof.
    destruct y as [up down cl hdr srv sv], sp as [[[st p] c] dd].
    intros (Htbl & Hst & Hdl & Hh & au & ad & Iu & Id & Hcl & Hsv & Hph) E. simpl in *.
    destruct (z_internal a) eqn:Ha; [|done]. destruct (t_step txc rxc up a) as [[up' e]|] eqn:S; [|done].
    destruct (internal_one _ _ _ _ _ _ Ha S) as [->|[[ok ->]|[r ->]]].
    - injection E as <- <-. exists (st, p, c, dd). split; [apply TPS_nil|]. right.
      destruct (step_nil _ _ _ _ _ _ Iu S) as (b & Ib & Pb & Rb & Ab).
      simpl. spl. exists b, ad. rewrite Pb, Rb. spl. by eapply cl_rel_adv.
    - destruct cl as [|dout| |]; try done. destruct Hcl as (-> & Hs & Hcr & Ho).
      destruct (step_sent _ _ _ _ _ _ _ Iu S Hs) as (b & Ib & Pb & Rb & Cb).
      destruct (call_recv txc rxc down ad false dout Id Hcr) as (down' & e' & bd & E' & Ibd & ->). rewrite E' in E.
      injection E as <- <-. exists (st, p, false, dd). split; [apply TPS_nil|]. right.
      simpl. spl. exists b, (ad.1.1, ad.1.2, CrIn false dout). rewrite Pb, Rb. split; [done|]. split; [exact Ibd|]. simpl. spl. by exists dout.
    - destruct (step_got _ _ _ _ _ _ _ Iu S) as (b & Ib & tr & bufs & Ra & Rb & Ab & Hr).
      destruct sv as [|try| |]; simpl in Hsv; [by destruct Hsv as (_ & ? & _); congruence| |
        by destruct Hsv as (_ & ? & _); congruence|by destruct Hsv as (_ & ? & _); congruence].
      destruct Hsv as (-> & Hcr & Hcs). rewrite Ra in Hcr. injection Hcr as -> ->.
      destruct r as [h bufs'| |h].
      + destruct Hr as (pl & Pu & Hpl & Hfill). destruct (filled_one _ _ _ Hfill) as (data & -> & Hdata & Htake).
        destruct p as [| |id din dout|dout r|dout]; simpl in Hph; try (destruct Hph as [Hph _]; by rewrite Pu in Hph); [done|].
        destruct Hph as [(hh & Hpu & Hid) Hpd]. rewrite Pu in Hpu. injection Hpu as -> -> Pb.
        pose proof (tinv_pend _ _ Iu) as Hok. rewrite Pu in Hok. apply Forall_cons in Hok as [[Hok1 Hok2] _]. simpl in Hok1, Hok2.
        destruct (z_handle_sim (mkZs up down cl hdr srv (ZsRecv try)) st (PReq id din dout) c false try up' b hh data y' es ad id din dout)
          as (sp' & T & I'); try done.
        { by eapply cl_rel_adv. }
        { unfold request_of. spl. lia. }
        exists sp'. split; [done|]. by right.
      + destruct Hr as [Pu ->]. injection E as <- <-. exists (st, p, c, false). split.
        { eapply TPS_cons; [apply TP_poll|apply TPS_nil]. }
        right. simpl. spl. exists b, ad. rewrite <- Pu, Rb. spl. by eapply cl_rel_adv.
      + destruct Hr as (pl & Pu & Hpl). injection E as <- <-.
        destruct p as [| |id din dout|dout r|dout]; simpl in Hph; try (destruct Hph as [Hph _]; by rewrite Pu in Hph); [done|].
        destruct Hph as [(hh & Hpu & Hid) Hpd]. rewrite Pu in Hpu. injection Hpu as -> -> Pb.
        exists (st, PLost dout, c, false). split.
        { eapply TPS_cons; [apply TP_request_large|apply TPS_nil]. simpl in Hpl. rewrite app_nil_r in Hpl. lia. }
        left. eexists. split; [done|]. by right.
  Qed.

  Lemma z_sim_down y sp a y' es : zinv tbl y sp -> z_step txc rxc y (ZDown a) = Some (y', es) ->
    exists sp', tp_steps tbl sp es sp' /\ (zerr es \/ zinv tbl y' sp').
  Proof.
    destruct y as [up down cl hdr srv sv], sp as [[[st p] c] dd].
    intros (Htbl & Hst & Hdl & Hh & au & ad & Iu & Id & Hcl & Hsv & Hph) E. simpl in *.
    destruct (z_internal a) eqn:Ha; [|done]. destruct (t_step txc rxc down a) as [[down' e]|] eqn:S; [|done].
    destruct (internal_one _ _ _ _ _ _ Ha S) as [->|[[ok ->]|[r ->]]].
    - injection E as <- <-. exists (st, p, c, dd). split; [apply TPS_nil|]. right.
      destruct (step_nil _ _ _ _ _ _ Id S) as (b & Ib & Pb & Rb & Ab).
      simpl. spl. exists au, b. rewrite Pb, Rb. spl. by eapply sv_rel_adv.
    - destruct sv as [|try| |]; try done. destruct Hsv as (-> & Hcr & Hs).
      destruct (step_sent _ _ _ _ _ _ _ Id S Hs) as (b & Ib & Pb & Rb & Cb).
      injection E as <- <-. exists (st, p, c, false). split; [apply TPS_nil|]. right.
      simpl. spl. exists au, b. rewrite Pb, Rb. spl.
    - destruct (step_got _ _ _ _ _ _ _ Id S) as (b & Ib & tr & bufs & Ra & Rb & Ab & Hr).
      destruct cl as [|dout| |]; simpl in Hcl; [by destruct Hcl as (_ & _ & ? & _); congruence|
        by destruct Hcl as (_ & _ & ? & _); congruence| |by destruct Hcl as (_ & _ & ? & _); congruence].
      destruct Hcl as (-> & Hcs & o & Hcr & Ho). rewrite Ra in Hcr. injection Hcr as -> ->.
      destruct r as [h bufs'| |h]; [|done|].
      + destruct Hr as (pl & Pd & Hpl & Hfill). injection E as <- <-.
        destruct p as [| |id din dout|dout r|dout]; simpl in Hph; try (destruct Hph as [_ Hph]; by rewrite Pd in Hph); [done|].
        destruct Hph as [Hpu (hh & Hpd)]. rewrite Pd in Hpd. injection Hpd as -> -> Pb. simpl in Ho. injection Ho as ->.
        pose proof (tinv_pend _ _ Id) as Hok. rewrite Pd in Hok. apply Forall_cons in Hok as [[Hok1 Hok2] _]. simpl in Hok1, Hok2.
        exists (st, PIdle, false, dd). split; [eapply TPS_cons; [by apply TP_return|apply TPS_nil]|]. right.
        simpl. spl. exists au, b. spl. by eapply sv_rel_adv.
      + destruct Hr as (pl & Pd & Hpl). injection E as <- <-.
        destruct p as [| |id din dout|dout r|dout]; simpl in Hph; try (destruct Hph as [_ Hph]; by rewrite Pd in Hph); [done|].
        destruct Hph as [Hpu (hh & Hpd)]. rewrite Pd in Hpd. injection Hpd as -> -> Pb. simpl in Ho. injection Ho as ->.
        exists (st, PIdle, false, dd). split; [eapply TPS_cons; [by apply TP_return_large|apply TPS_nil]|].
        left. eexists. split; [done|]. by left.
  Qed.

  Lemma z_sim y sp a y' es : zinv tbl y sp -> z_step txc rxc y a = Some (y', es) -> Forall id_ok es ->
    exists sp', tp_steps tbl sp es sp' /\ (zerr es \/ zinv tbl y' sp').
  Proof.
    destruct a as [id din dout|try|a|a]; intros I E Hid; [| |by eapply z_sim_up|by eapply z_sim_down];
      destruct y as [up down cl hdr srv sv], sp as [[[st p] c] dd];
      destruct I as (Htbl & Hst & Hdl & Hh & au & ad & Iu & Id & Hcl & Hsv & Hph); simpl in *.
    - destruct cl; try done. destruct Hcl as (-> & Hcs & Hcr & ->). rewrite total_len_concat in E.
      destruct (N.ltb_spec (N.of_nat (length (concat din))) 65535) as [Hlt|Hge].
      + assert (Hl : as_u16 (length (concat din)) = N.of_nat (length (concat din))).
        { unfold as_u16. apply N.mod_small. change (2 ^ 16)%N with 65536%N. lia. }
        rewrite Hl in E. set (h := mkHdr (r_id hdr) id (N.of_nat (length (concat din)))) in E.
        assert (Hhd : (id < 256)%N -> hdr_typed h). { intros. destruct Hh as (? & ? & ?). unfold hdr_typed. simpl. spl; lia. }
        destruct (t_step txc rxc up (TSend false h din)) as [[up' e']|] eqn:S; [|done]. injection E as <- <-.
        apply Forall_cons in Hid as [Hid _]. simpl in Hid.
        destruct (call_send txc rxc up au h din Iu Hcs (Hhd Hid) eq_refl) as (up2 & e2 & b & E2 & Ib & ->).
        assert (up2 = up') as -> by congruence.
        exists (st, PReq id din dout, false, dd). split; [eapply TPS_cons; [by apply TP_call|apply TPS_nil]|]. right.
        simpl. spl; [by apply Hhd|]. eexists _, ad. split; [exact Ib|]. split; [done|]. simpl. spl.
        * right. by eexists.
        * exists h. unfold pend. simpl. destruct Hph as [Hu _]. unfold pend in Hu. rewrite Hcs, app_nil_r in Hu. by rewrite Hu.
        * by destruct Hph as [_ Hd].
      + injection E as <- <-. exists (st, PIdle, true, dd). split.
        { eapply TPS_cons; [by apply TP_call_bad|]. eapply TPS_cons; [apply TP_bad|apply TPS_nil]. }
        right. simpl. spl. by exists au, ad.
    - destruct sv; try done. destruct Hsv as (-> & Hcr & Hcs).
      destruct (call_recv txc rxc up au try [sv_data srv] Iu Hcr) as (up' & e' & b & E' & Ib & ->). rewrite E' in E.
      injection E as <- <-. exists (st, p, c, false). split; [apply TPS_nil|]. right.
      simpl. spl. eexists _, ad. split; [exact Ib|]. simpl. by spl.
  Qed.

  (** A step of a direction is a step of the system. *)
  Lemma chs_sent_pre a ok b : ch_steps a [TvSent ok] b -> a.1.2 <> CsIdle.
  Proof.
    intros C Hi. destruct (chs_one _ _ _ C _ eq_refl) as (a1 & b1 & C1 & S & C2).
    apply chs_nil in C1 as (_ & _ & A1); [|done]. rewrite Hi in A1. apply adv_idle in A1.
    inversion S; subst; simpl in *; done.
  Qed.
  Lemma step_sent_pre d a act d' ok : tinv d a -> t_step txc rxc d act = Some (d', [TvSent ok]) -> a.1.2 <> CsIdle.
  Proof.
    intros I E. destruct (sim_step _ _ _ _ _ _ _ I E) as (b & B & _); [by repeat constructor|].
    by eapply chs_sent_pre.
  Qed.

  Lemma z_up_enabled y sp a up' e : zinv tbl y sp -> z_internal a = true -> t_step txc rxc (z_up y) a = Some (up', e) ->
    z_step txc rxc y (ZUp a) <> None.
  Proof.
    destruct y as [up down cl hdr srv sv], sp as [[[st p] c] dd].
    intros (Htbl & Hst & Hdl & Hh & au & ad & Iu & Id & Hcl & Hsv & Hph) Ha S. simpl in *. rewrite Ha, S.
    destruct (internal_one _ _ _ _ _ _ Ha S) as [->|[[ok ->]|[r ->]]]; [done| |].
    - pose proof (step_sent_pre _ _ _ _ _ Iu S) as Hn. destruct cl as [|dout| |]; simpl in Hcl;
        try (exfalso; apply Hn; by destruct Hcl as (_ & ? & _)).
      destruct Hcl as (_ & _ & Hcr & _).
      destruct (call_recv txc rxc down ad false dout Id Hcr) as (down' & e' & bd & -> & _). done.
    - destruct (step_got _ _ _ _ _ _ _ Iu S) as (b & Ib & tr & bufs & Ra & Rb & Ab & Hr).
      destruct sv as [|try| |]; simpl in Hsv; try (by destruct Hsv as (_ & ? & _); congruence).
      destruct Hsv as (-> & Hcr & Hcs). rewrite Ra in Hcr. injection Hcr as -> ->.
      destruct r as [h bufs'| |h]; [|done|done].
      destruct Hr as (pl & Pu & Hpl & Hfill). destruct (filled_one _ _ _ Hfill) as (data & -> & Hdata & Htake).
      unfold z_handle. destruct (sv_handlers srv !! r_type h) as [f|] eqn:Hf; [|done].
      destruct (f (sv_st srv) h data) as [st' [[h' d']|n]] eqn:Hfun; [|done].
      rewrite Htbl in Hf. destruct (Hty _ _ Hf _ _ _ _ _ _ Hfun) as [Hlen Hh'].
      destruct (Nat.leb_spec (N.to_nat (r_len h')) (length d')) as [Hle|Hgt]; [|done].
      destruct (call_send txc rxc down ad h' [take (N.to_nat (r_len h')) d']) as (down' & e' & bb & -> & _); try done.
      simpl. rewrite app_nil_r, take_length. lia.
  Qed.
  Lemma z_down_enabled y sp a down' e : zinv tbl y sp -> z_internal a = true -> t_step txc rxc (z_down y) a = Some (down', e) ->
    z_step txc rxc y (ZDown a) <> None.
  Proof.
    destruct y as [up down cl hdr srv sv], sp as [[[st p] c] dd].
    intros (Htbl & Hst & Hdl & Hh & au & ad & Iu & Id & Hcl & Hsv & Hph) Ha S. simpl in *. rewrite Ha, S.
    destruct (internal_one _ _ _ _ _ _ Ha S) as [->|[[ok ->]|[r ->]]]; [done| |].
    - pose proof (step_sent_pre _ _ _ _ _ Id S) as Hn. destruct sv as [|try| |]; simpl in Hsv;
        try (exfalso; apply Hn; by destruct Hsv as (_ & _ & ?)). done.
    - destruct (step_got _ _ _ _ _ _ _ Id S) as (b & Ib & tr & bufs & Ra & Rb & Ab & Hr).
      destruct cl as [|dout| |]; simpl in Hcl; try (by destruct Hcl as (_ & _ & ? & _); congruence).
      destruct Hcl as (-> & Hcs & o & Hcr & Ho). rewrite Ra in Hcr. injection Hcr as -> ->.
      destruct r as [h bufs'| |h]; [done| |done]. destruct Hr as [_ ?]. done.
  Qed.

  Lemma z_stuck y sp : zinv tbl y sp -> (forall a, z_internal_act a -> z_step txc rxc y a = None) ->
    stuck txc rxc (z_up y) /\ stuck txc rxc (z_down y).
  Proof.
    intros I K. split; intros a Ha; apply z_internal_iff in Ha.
    - destruct (t_step txc rxc (z_up y) a) as [[d' e]|] eqn:S; [|done]. exfalso.
      eapply z_up_enabled; [exact I|exact Ha|exact S|]. by apply K.
    - destruct (t_step txc rxc (z_down y) a) as [[d' e]|] eqn:S; [|done]. exfalso.
      eapply z_down_enabled; [exact I|exact Ha|exact S|]. by apply K.
  Qed.

  (** When nothing can happen and the server waits for a request, no call is under way unless
      it was served without a reply. *)
  Lemma z_quiet y sp try : 0 < txc -> 0 < rxc -> zinv tbl y sp ->
    (forall a, z_internal_act a -> z_step txc rxc y a = None) -> z_sv y = ZsRecv try ->
    (z_cl y = ZcIdle \/ z_cl y = ZcDead) \/ exists dout, sp.1.1.2 = PLost dout.
  Proof.
    intros Ht Hx I K Hs. destruct (z_stuck _ _ I K) as [Ku Kd].
    destruct y as [up down cl hdr srv sv], sp as [[[st p] c] dd]. simpl in Hs. subst sv.
    destruct I as (Htbl & Hst & Hdl & Hh & au & ad & Iu & Id & Hcl & Hsv & Hph). simpl in *.
    destruct Hsv as (-> & Hcr & Hcs).
    destruct (stuck_receiving txc rxc up au Ht Hx Iu Ku (tinv_in_rcv _ _ _ _ Iu Hcr)) as [_ Hu].
    assert (Pu : pend au = []) by (unfold pend; by rewrite Hu).
    destruct cl as [|dout| |]; [by left; left| | |by left; right].
    - destruct Hcl as (_ & Hsd & _). rewrite Hu in Hsd. destruct Hsd as [?|[m ?]]; done.
    - destruct Hcl as (_ & _ & o & Hcr2 & Ho).
      destruct (stuck_receiving txc rxc down ad Ht Hx Id Kd (tinv_in_rcv _ _ _ _ Id Hcr2)) as [_ Hd].
      assert (Pd : pend ad = []) by (unfold pend; by rewrite Hd).
      right. rewrite Pu, Pd in Hph. destruct p as [| |id din dout|dout r|dout]; simpl in *; try done.
      + by destruct Hph as [(h & ? & _) _].
      + by destruct Hph as [_ (h & ?)].
      + by exists dout.
  Qed.

  (** The work left. *)
  Definition zwork (y : zsys St) : nat :=
    work (z_up y) + work (z_down y) + (match z_cl y with ZcSend _ => 2 | _ => 0 end) +
    (match z_sv y with ZsRecv _ => 5 * (4 + length (sv_data (z_srv y))) + 2 | _ => 0 end).

  Lemma z_work_step y sp a y' es : zinv tbl y sp -> z_internal_act a -> z_step txc rxc y a = Some (y', es) ->
    zwork y' < zwork y.
  Proof.
    destruct y as [up down cl hdr srv sv], sp as [[[st p] c] dd].
    intros (Htbl & Hst & Hdl & Hh & au & ad & Iu & Id & Hcl & Hsv & Hph) Ha E.
    destruct a as [| |a|a]; try done; simpl in *; clear Ha.
    - destruct (z_internal a) eqn:Ha; [|done]. destruct (t_step txc rxc up a) as [[up' e]|] eqn:S; [|done].
      pose proof Ha as Hi. apply z_internal_iff in Hi. pose proof (work_step _ _ _ _ _ _ Hi S) as W.
      unfold zwork. cbn [z_up z_down z_cl z_sv z_srv].
      destruct (internal_one _ _ _ _ _ _ Ha S) as [->|[[ok ->]|[r ->]]].
      + injection E as <- <-. cbn [z_up z_down z_cl z_sv z_srv]. lia.
      + destruct cl as [|dout| |]; try done. destruct down as [tx wire rx s rr]. simpl in E. destruct rr; try done.
        injection E as <- <-. cbn [z_up z_down z_cl z_sv z_srv]. unfold work at 2 4.
        cbn [t_tx t_wire t_rx t_snd t_rcv w_rcv]. lia.
      + destruct (step_got _ _ _ _ _ _ _ Iu S) as (b & Ib & tr & bufs & Ra & Rb & Ab & Hr).
        destruct sv as [|try| |]; try done; simpl in Hsv. destruct Hsv as (-> & Hcr & Hcs).
        rewrite Ra in Hcr. injection Hcr as -> ->.
        destruct r as [h bufs'| |h].
        * destruct Hr as (pl & Pu & Hpl & Hfill). destruct (filled_one _ _ _ Hfill) as (data & -> & Hdata & Htake).
          unfold z_handle in E. destruct (sv_handlers srv !! r_type h) as [f|] eqn:Hf;
            [|injection E as <- <-; cbn [z_up z_down z_cl z_sv z_srv]; lia].
          destruct (f (sv_st srv) h data) as [st' [[h' d']|n]] eqn:Hfun;
            [|injection E as <- <-; cbn [z_up z_down z_cl z_sv z_srv]; lia].
          rewrite Htbl in Hf. destruct (Hty _ _ Hf _ _ _ _ _ _ Hfun) as [Hlen Hh'].
          destruct (Nat.leb_spec (N.to_nat (r_len h')) (length d')) as [Hle|Hgt];
            [|injection E as <- <-; cbn [z_up z_down z_cl z_sv z_srv]; lia].
          destruct down as [tx wire rx s rr]. simpl in E. destruct s; try done.
          injection E as <- <-. cbn [z_up z_down z_cl z_sv z_srv]. unfold work at 2 4.
          cbn [t_tx t_wire t_rx t_snd t_rcv w_snd unsent].
          rewrite hdr_len. cbn [concat]. rewrite app_nil_r, take_length. lia.
        * injection E as <- <-. cbn [z_up z_down z_cl z_sv z_srv]. lia.
        * injection E as <- <-. cbn [z_up z_down z_cl z_sv z_srv]. lia.
    - destruct (z_internal a) eqn:Ha; [|done]. destruct (t_step txc rxc down a) as [[down' e]|] eqn:S; [|done].
      pose proof Ha as Hi. apply z_internal_iff in Hi. pose proof (work_step _ _ _ _ _ _ Hi S) as W.
      unfold zwork. cbn [z_up z_down z_cl z_sv z_srv].
      destruct (internal_one _ _ _ _ _ _ Ha S) as [->|[[ok ->]|[r ->]]].
      + injection E as <- <-. cbn [z_up z_down z_cl z_sv z_srv]. lia.
      + destruct sv; try done. injection E as <- <-. cbn [z_up z_down z_cl z_sv z_srv]. lia.
      + destruct cl; try done. destruct r; try done; injection E as <- <-; cbn [z_up z_down z_cl z_sv z_srv]; lia.
  Qed.

  Lemma tp_steps_app a es b es' c : tp_steps tbl a es b -> tp_steps tbl b es' c -> tp_steps tbl a (es ++ es') c.
  Proof. induction 1; intros H'; simpl; [done|]. eapply TPS_cons; eauto. Qed.

  Lemma z_sim_run l : forall y sp y' es, zinv tbl y sp -> z_run txc rxc y l = Some (y', es) -> Forall id_ok es ->
    (forall es1 e es2, es = es1 ++ e :: es2 -> z_err e -> es2 = []) ->
    exists sp', tp_steps tbl sp es sp' /\ (Forall (fun e => ~ z_err e) es -> zinv tbl y' sp').
  Proof.
    induction l as [|a l IH]; intros y sp y' es I E Hid X; simpl in E.
    - injection E as <- <-. exists sp. split; [apply TPS_nil|done].
    - destruct (z_step txc rxc y a) as [[y1 e1]|] eqn:S; [|done].
      destruct (z_run txc rxc y1 l) as [[y2 e2]|] eqn:R; [|done]. injection E as <- <-.
      apply Forall_app in Hid as [Hid1 Hid2].
      destruct (z_sim y sp a y1 e1 I S Hid1) as (sp1 & T1 & [(e & -> & He)|I1]).
      + assert (e2 = []) as -> by (apply (X [] e e2); done).
        exists sp1. split; [done|]. intros F. apply Forall_cons in F as [F _]. done.
      + destruct (IH y1 sp1 y2 e2 I1 R Hid2) as (sp2 & T2 & I2).
        { intros es1 e es2 -> He. apply (X (e1 ++ es1) e es2); [|done]. by rewrite app_assoc. }
        exists sp2. split; [by eapply tp_steps_app|]. intros F. apply Forall_app in F as [_ F]. auto.
  Qed.
  Lemma z_work_run l : forall y sp y' es, zinv tbl y sp -> Forall z_internal_act l ->
    z_run txc rxc y l = Some (y', es) -> Forall (fun e => ~ z_err e) es -> Forall id_ok es -> length l <= zwork y.
  Proof.
    induction l as [|a l IH]; intros y sp y' es I F E Ne Hid; simpl in E; [simpl; lia|].
    apply Forall_cons in F as [Fa F]. destruct (z_step txc rxc y a) as [[y1 e1]|] eqn:S; [|done].
    destruct (z_run txc rxc y1 l) as [[y2 e2]|] eqn:R; [|done]. injection E as <- <-.
    apply Forall_app in Ne as [Ne1 Ne2]. apply Forall_app in Hid as [Hid1 Hid2].
    pose proof (z_work_step _ _ _ _ _ I Fa S) as W.
    destruct (z_sim y sp a y1 e1 I S Hid1) as (sp1 & T1 & [(e & -> & He)|I1]).
    - apply Forall_cons in Ne1 as [Ne1 _]. done.
    - pose proof (IH y1 sp1 y2 e2 I1 F R Ne2 Hid2). simpl. lia.
  Qed.

  (** With good handlers and registered types every request gets a reply. *)
  Definition fine (p : rphase) : Prop :=
    match p with PReq id _ _ => is_Some (tbl !! id) | PLost _ => False | _ => True end.
  Lemma tp_fine a es b : tp_steps tbl a es b ->
    (forall i f, tbl !! i = Some f -> forall st h buf, N.of_nat (length buf) = 8192%N ->
       exists st' h' d', f st h buf = (st', inl (h', d')) /\ (r_len h' <= 8192)%N) ->
    (forall id din dout, In (ZvY (VCall id din dout)) es -> is_Some (tbl !! id)) ->
    Forall (fun e => ~ z_err e) es -> fine a.1.1.2 -> fine b.1.1.2.
  Proof.
    intros T Hg. induction T as [|a e b es c S T IH]; intros Hc Ne Fa; [done|].
    apply Forall_cons in Ne as [Ne1 Ne2]. apply IH; [intros id din dout Hin; eapply Hc; by right|done|].
    inversion S; subst; simpl in *; try done.
    - eapply Hc. by left.
    - destruct (Hg _ _ H st h buf) as (st2 & h2 & d2 & E2 & L2); [apply H0|]. rewrite H1 in E2. injection E2 as <- <- <-. lia.
    - destruct (Hg _ _ H st h buf) as (st2 & h2 & d2 & E2 & L2); [apply H0|]. rewrite H1 in E2. done.
    - rewrite H in Fa. by destruct Fa.
    - apply Ne1. by right.
  Qed.
End calls.
