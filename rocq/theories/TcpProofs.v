(** The byte stream of a socket carries the messages of the channel. *)
From Verif Require Import Base RpcModel RpcSpec RpcProofs RpcProps TcpModel TcpSpec.

(** A message as bytes. *)
Definition enc (m : tmsg) : list N := hdr_bytes m.1 ++ m.2.
Definition msg_ok (m : tmsg) : Prop := hdr_typed m.1 /\ r_len m.1 = N.of_nat (length m.2).

(** The sender and its state in the channel; [u]: bytes of messages of the channel that are not
    in the send buffer. *)
Definition snd_rel (s : tsnd) (cs : csnd) (u : list N) : Prop :=
  match s, cs with
  | SdIdle, CsIdle => u = []
  | SdFirst try buf rest, CsWill try' m =>
      try' = try /\ buf = hdr_bytes m.1 /\ m.2 = concat rest /\ msg_ok m /\ u = []
  | SdFirst try buf rest, CsDid => try = false /\ buf <> [] /\ u = buf ++ concat rest
  | SdLoop buf rest, CsDid => buf <> [] /\ u = buf ++ concat rest
  | _, _ => False
  end.

(** The receiver; [c]: bytes taken out of the receive buffer of the first message. *)
Definition rcv_rel (r : trcv) (cr : crcv) (q : list tmsg) (c : list N) : Prop :=
  match r, cr with
  | RvIdle, CrIdle => c = []
  | RvFirst try bufs, CrIn try' bufs0 => try' = try /\ bufs0 = bufs /\ c = []
  | RvHdr got bufs, CrIn _ bufs0 => bufs0 = bufs /\ c = got /\ length got < 4
  | RvBuf h done got n cur rest next, CrIn _ bufs0 => exists p q' d0,
      q = (h, p) :: q' /\ c = hdr_bytes h ++ concat done ++ got /\
      bufs0 = d0 ++ cur :: rest /\ map length d0 = map length done /\
      length got < n /\ n <= length cur /\ length p <= length (concat bufs0) /\
      match next with
      | None => length (concat done) + n = length p
      | Some count => n = length cur /\ count = length (concat done) + length cur /\ count <= length p
      end
  | _, _ => False
  end.

Definition tinv (d : tdir) (a : tchan) : Prop :=
  let '(q, cs, cr) := a in
  exists u c, snd_rel (t_snd d) cs u /\ rcv_rel (t_rcv d) cr q c /\ Forall msg_ok q /\
    c ++ t_rx d ++ t_wire d ++ t_tx d ++ u = concat (enc <$> q).

Lemma tinv_init : tinv td_init ch_init.
Proof. exists [], []. done. Qed.

Lemma chunk_true k a b : chunk k a b = true <-> 1 <= k <= a /\ k <= b.
Proof. unfold chunk. rewrite !andb_true_iff, !Nat.leb_le. lia. Qed.

(** ** Sending *)

Lemma concat_length_map (l l' : list (list N)) : map length l = map length l' ->
  length (concat l) = length (concat l').
Proof.
  revert l'. induction l as [|x l IH]; intros [|y l'] H; simpl in *; try done.
  injection H as H1 H2. rewrite !app_length, H1, (IH l' H2). done.
Qed.

Lemma sd_next_spec rest :
  (sd_next rest = SdIdle /\ concat rest = []) \/
  (exists buf rest', sd_next rest = SdFirst false buf rest' /\ buf <> [] /\ buf ++ concat rest' = concat rest).
Proof.
  induction rest as [|[|x p] rest IH]; simpl; [by left|done|]. right. by exists (x :: p), rest.
Qed.

(** After [k] bytes of a message that is on its way. *)
Lemma sd_after_spec buf rest k : 1 <= k <= length buf ->
  exists cs u, drop k buf ++ concat rest = u /\
    ((sd_after buf rest k = SdIdle /\ u = [] /\ cs = CsIdle /\ sd_ret (sd_after buf rest k) = [TvSent true]) \/
     (snd_rel (sd_after buf rest k) CsDid u /\ sd_ret (sd_after buf rest k) = [] /\ cs = CsDid)).
Proof.
  intros Hk. unfold sd_after. destruct (Nat.eqb_spec k (length buf)) as [->|Hne].
  - rewrite drop_all. destruct (sd_next_spec rest) as [[-> Hc]|(b & r & -> & Hb & Hc)].
    + exists CsIdle, []. rewrite Hc. split; [done|]. by left.
    + exists CsDid, (concat rest). split; [done|]. right. by rewrite <- Hc.
  - exists CsDid, (drop k buf ++ concat rest). split; [done|]. right. split; [|done]. split; [|done].
    intros E. apply (f_equal length) in E. rewrite drop_length in E. simpl in E. lia.
Qed.

Lemma enc_app q m : concat (enc <$> q ++ [m]) = concat (enc <$> q) ++ enc m.
Proof. rewrite fmap_app, concat_app. simpl. by rewrite app_nil_r. Qed.

Lemma rcv_rel_app r cr q c m : rcv_rel r cr q c -> rcv_rel r cr (q ++ [m]) c.
Proof.
  destruct r, cr; try done. intros (p & q' & d0 & -> & H). exists p, (q' ++ [m]), d0. done.
Qed.

Lemma take_app_drop {A} k (l t : list A) : take k l ++ drop k l ++ t = l ++ t.
Proof. by rewrite app_assoc, take_drop. Qed.

Lemma sim_snd txc d a k tx' s' e : tinv d a -> snd_step txc (t_tx d) (t_snd d) k = Some (tx', s', e) ->
  exists b, ch_steps a e b /\ tinv (mkTd tx' (t_wire d) (t_rx d) s' (t_rcv d)) b.
Proof.
  destruct d as [tx wire rx s r], a as [[q cs] cr]. intros (u & c & Hs & Hr & Hq & Hst) E. simpl in *.
  destruct s as [|try buf rest|buf rest]; simpl in E; [done| |].
  - destruct (Nat.ltb_spec (length tx) txc).
    + destruct (chunk k (length buf) (txc - length tx)) eqn:K; [|done]. apply chunk_true in K as [K1 K2].
      injection E as <- <- <-.
      assert (A : exists q', ch_steps (q, cs, cr) [] (q', CsDid, cr) /\ rcv_rel r cr q' c /\ Forall msg_ok q' /\
        c ++ rx ++ wire ++ tx ++ buf ++ concat rest = concat (enc <$> q')).
      { destruct cs as [|try' [h p]|]; [done| |].
        - destruct Hs as (-> & -> & Hp & Hm & ->). simpl in *. exists (q ++ [(h, p)]).
          split; [eapply CHS_silent; [constructor|constructor]|]. split; [by apply rcv_rel_app|].
          split; [apply Forall_app; split; [done|by constructor]|].
          rewrite enc_app, <- Hst. unfold enc. simpl. rewrite Hp, app_nil_r, <- !app_assoc. done.
        - destruct Hs as (-> & _ & ->). exists q. split; [constructor|]. done. }
      destruct A as (q' & A1 & A2 & A3 & A4).
      destruct (sd_after_spec buf rest k K1) as (cs' & u' & Hu & Hc).
      exists (q', cs', cr). split.
      * destruct Hc as [(-> & _ & -> & ->)|(_ & -> & ->)]; [|done].
        clear -A1. change ([TvSent true]) with ([] ++ [TvSent true]).
        inversion A1; subst; [|]; [eapply CHS_cons; [constructor|constructor]|].
        eapply CHS_silent; [eassumption|]. inversion H0; subst; [eapply CHS_cons; constructor|]. inversion H; subst. inversion H1.
      * exists u', c. simpl. split; [|split; [done|split; [done|]]].
        { destruct Hc as [(-> & -> & -> & _)|(Hc & _ & ->)]; done. }
        rewrite <- A4, <- Hu, <- !app_assoc, take_app_drop. done.
    + destruct (Nat.eqb_spec k 0); [|done]. destruct try.
      * injection E as <- <- <-. destruct cs as [|try' m|]; [done| |by destruct Hs].
        destruct Hs as (-> & _ & _ & _ & ->). exists (q, CsIdle, cr). split; [eapply CHS_cons; constructor|].
        by exists [], c.
      * injection E as <- <- <-. destruct cs as [|try' [h p]|]; [done| |].
        { destruct Hs as (-> & -> & Hp & Hm & ->). simpl in *. exists (q ++ [(h, p)], CsDid, cr).
          split; [eapply CHS_silent; constructor|]. exists (hdr_bytes h ++ concat rest), c. simpl.
          split; [done|]. split; [by apply rcv_rel_app|]. split; [apply Forall_app; split; [done|by constructor]|].
          rewrite enc_app, <- Hst. unfold enc. simpl. rewrite Hp, app_nil_r, <- !app_assoc. done. }
        destruct Hs as (_ & Hb & ->). exists (q, CsDid, cr). split; [constructor|]. by exists (buf ++ concat rest), c.
  - destruct (chunk k (length buf) (txc - length tx)) eqn:K; [|done]. apply chunk_true in K as [K1 K2].
    injection E as <- <- <-. destruct cs as [| |]; [done|done|]. destruct Hs as (Hb & ->).
    destruct (sd_after_spec buf rest k K1) as (cs' & u' & Hu & Hc).
    exists (q, cs', cr). split.
    + destruct Hc as [(-> & _ & -> & ->)|(_ & -> & ->)]; [eapply CHS_cons; constructor|constructor].
    + exists u', c. simpl. split; [|split; [done|split; [done|]]].
      { destruct Hc as [(-> & -> & -> & _)|(Hc & _ & ->)]; done. }
      rewrite <- Hst, <- Hu, <- !app_assoc, take_app_drop. done.
Qed.

(** ** Receiving *)

Lemma app_same_length {A} (a b c d : list A) : a ++ c = b ++ d -> length a = length b -> a = b /\ c = d.
Proof. intros E L. by apply app_inj_1 in E. Qed.

Lemma rv_next_spec h p q' Z try bufs0 rest : forall d0 done X,
  bufs0 = d0 ++ rest -> map length d0 = map length done ->
  length (concat done) <= length p -> length p <= length (concat bufs0) ->
  concat done ++ X = p ++ Z ->
  let '(r', e) := rv_next h done rest (length (concat done)) (length p) in
  (r' = RvIdle /\ exists bufs', e = [TvGot (GMsg h bufs')] /\ filled bufs0 bufs' p /\ X = Z) \/
  (e = [] /\ rcv_rel r' (CrIn try bufs0) ((h, p) :: q') (hdr_bytes h ++ concat done)).
Proof.
  induction rest as [|b rest IH]; intros d0 done X Hb Hl Hc Hp HX; cbn [rv_next].
  - left. split; [done|]. rewrite app_nil_r in Hb. subst d0. exists done. split; [done|].
    pose proof (concat_length_map _ _ Hl) as Hl'.
    destruct (app_same_length (concat done) p X Z HX) as [Hd ->]; [lia|]. split; [|done].
    split; [done|]. rewrite Hd. rewrite drop_ge by lia. by rewrite app_nil_r.
  - pose proof (concat_length_map _ _ Hl) as Hl'.
    destruct (Nat.ltb_spec (length p) (length (concat done) + length b)).
    + destruct (Nat.eqb_spec (length p - length (concat done)) 0).
      * left. split; [done|]. exists (done ++ b :: rest). split; [done|].
        destruct (app_same_length (concat done) p X Z HX) as [Hd ->]; [lia|]. split; [|done].
        split; [by rewrite Hb, !map_app, Hl|]. rewrite concat_app, Hd, Hb, concat_app. f_equal.
        rewrite <- Hd, <- Hl', drop_app. done.
      * right. split; [done|]. exists p, q', d0. repeat split; try done.
        -- by rewrite app_nil_r.
        -- simpl. lia.
        -- lia.
        -- lia.
    + destruct (Nat.eqb_spec (length b) 0) as [Hb0|Hb0].
      * destruct b; [|done]. specialize (IH (d0 ++ [[]]) (done ++ [[]]) X).
        rewrite concat_app in IH. simpl in IH. rewrite app_nil_r in IH. apply IH; try done.
        -- rewrite Hb, <- app_assoc. done.
        -- by rewrite !map_app, Hl.
      * right. split; [done|]. exists p, q', d0. repeat split; try done; simpl; try lia. by rewrite app_nil_r.
Qed.

Lemma first_message c X q : length c = 4 -> c ++ X = concat (enc <$> q) ->
  exists h p q', q = (h, p) :: q' /\ c = hdr_bytes h /\ X = p ++ concat (enc <$> q').
Proof.
  intros Hc E. destruct q as [|[h p] q'].
  - apply (f_equal length) in E. rewrite app_length in E. simpl in E. lia.
  - exists h, p, q'. split; [done|].
    change (c ++ X = (hdr_bytes h ++ p) ++ concat (enc <$> q')) in E. rewrite <- app_assoc in E.
    by apply app_same_length in E.
Qed.

(** The receiver has the bytes [got] of the header; [X] is the stream behind them. *)
Lemma rv_got_spec try got bufs q X : length got <= 4 -> Forall msg_ok q -> got ++ X = concat (enc <$> q) ->
  let '(r', e) := rv_got got bufs in
  (exists h, e = [TvGot (GErr h)] /\ exists b, forall cs, ch_steps (q, cs, CrIn try bufs) e (b, cs, CrIdle)) \/
  (exists q' cr c, (forall cs, ch_steps (q, cs, CrIn try bufs) e (q', cs, cr)) /\ rcv_rel r' cr q' c /\
     Forall msg_ok q' /\ c ++ X = concat (enc <$> q')).
Proof.
  intros Hg Hq E. unfold rv_got. destruct (Nat.eqb_spec (length got) 4) as [H4|H4].
  2: { right. exists q, (CrIn try bufs), got. split; [constructor|]. split; [|done]. repeat split; lia. }
  destruct (first_message got X q H4 E) as (h & p & q' & -> & -> & ->).
  apply Forall_cons in Hq as [[(T1 & T2 & T3) Hm] Hq]. simpl in *.
  unfold rv_header. rewrite hdr_roundtrip by done. rewrite total_len_concat, Hm, Nat2N.id.
  destruct (Nat.ltb_spec (length (concat bufs)) (length p)).
  { left. exists h. split; [done|]. exists q'. intros cs. eapply CHS_cons; [by apply CH_too_large|constructor]. }
  destruct (Nat.eqb_spec (length p) 0) as [H0|H0].
  { right. destruct p; [|done]. exists q', CrIdle, []. split; [|done]. intros cs. eapply CHS_cons; [|constructor].
    apply CH_got; [done|]. split; [done|]. by rewrite drop_0. }
  pose proof (rv_next_spec h p q' (concat (enc <$> q')) try bufs bufs [] [] (p ++ concat (enc <$> q'))
    eq_refl eq_refl ltac:(simpl; lia) ltac:(lia) eq_refl) as S. cbn [concat length] in S.
  destruct (rv_next h [] bufs 0 (length p)) as [r' e]. right. destruct S as [(-> & bufs' & -> & Hf & HX)|(-> & Hr)].
  - (* the whole payload cannot be there already *)
    apply (f_equal length) in HX. rewrite app_length in HX. lia.
  - exists ((h, p) :: q'), (CrIn try bufs), (hdr_bytes h ++ []). split; [constructor|]. split; [done|].
    split; [constructor; [|done]; split; [split; [done|done]|done]|].
    simpl. unfold enc at 1. simpl. done.
Qed.

Definition is_err (e : list tev) : Prop := exists h, e = [TvGot (GErr h)].

Lemma sim_rcv d a k rx' r' e : tinv d a -> rcv_step (t_rx d) (t_rcv d) k = Some (rx', r', e) ->
  exists b, ch_steps a e b /\ (is_err e \/ tinv (mkTd (t_tx d) (t_wire d) rx' (t_snd d) r') b).
Proof.
  destruct d as [tx wire rx s r], a as [[q cs] cr]. intros (u & c & Hs & Hr & Hq & Hst) E. simpl in *.
  destruct r as [|try bufs|got bufs|h dn got n cur rest next]; simpl in E; [done| | |].
  - destruct cr as [|try' bufs0]; [done|]. destruct Hr as (-> & -> & ->). simpl in Hst.
    destruct (Nat.eqb_spec (length rx) 0) as [Hrx|Hrx].
    + destruct (Nat.eqb_spec k 0); [|done]. destruct try; injection E as <- <- <-.
      * exists (q, cs, CrIdle). split; [eapply CHS_cons; constructor|]. right. by exists u, [].
      * exists (q, cs, CrIn false bufs). split; [constructor|]. right. exists u, []. simpl.
        split; [done|]. split; [split; [done|split; [done|lia]]|done].
    + destruct (chunk k 4 (length rx)) eqn:K; [|done]. apply chunk_true in K as [K1 K2].
      pose proof (rv_got_spec try (take k rx) bufs q (drop k rx ++ wire ++ tx ++ u)) as S.
      rewrite take_app_drop in S. specialize (S ltac:(rewrite take_length; lia) Hq Hst).
      destruct (rv_got (take k rx) bufs) as [r1 e1]. injection E as <- <- <-.
      destruct S as [(h & -> & b & Hb)|(q' & cr' & c' & S1 & S2 & S3 & S4)].
      * exists (b, cs, CrIdle). split; [done|]. left. by exists h.
      * exists (q', cs, cr'). split; [done|]. right. exists u, c'. done.
  - destruct cr as [|try' bufs0]; [done|]. destruct Hr as (-> & -> & Hg). simpl in Hst.
    destruct (chunk k (4 - length got) (length rx)) eqn:K; [|done]. apply chunk_true in K as [K1 K2].
    pose proof (rv_got_spec try' (got ++ take k rx) bufs q (drop k rx ++ wire ++ tx ++ u)) as S.
    rewrite <- app_assoc, take_app_drop in S.
    specialize (S ltac:(rewrite app_length, take_length; lia) Hq Hst).
    destruct (rv_got (got ++ take k rx) bufs) as [r1 e1]. injection E as <- <- <-.
    destruct S as [(h & -> & b & Hb)|(q' & cr' & c' & S1 & S2 & S3 & S4)].
    + exists (b, cs, CrIdle). split; [done|]. left. by exists h.
    + exists (q', cs, cr'). split; [done|]. right. exists u, c'. done.
  - destruct cr as [|try' bufs0]; [done|].
    destruct Hr as (p & q' & d0 & -> & -> & Hb0 & Hl & Hg & Hn & Hp & Hnext).
    destruct (chunk k (n - length got) (length rx)) eqn:K; [|done]. apply chunk_true in K as [K1 K2].
    pose proof (concat_length_map _ _ Hl) as Hl'.
    apply Forall_cons in Hq as [Hm Hq]. destruct Hm as [Hty Hm]. simpl in Hty, Hm.
    change (concat (enc <$> (h, p) :: q')) with ((hdr_bytes h ++ p) ++ concat (enc <$> q')) in Hst.
    rewrite <- !app_assoc in Hst. apply app_inv_head in Hst.
    assert (Lg : length (got ++ take k rx) = length got + k) by (rewrite app_length, take_length; lia).
    destruct (Nat.eqb_spec (length (got ++ take k rx)) n) as [Hfull|Hnot].
    + destruct next as [count|].
      * destruct Hnext as (-> & -> & Hcount).
        set (cur' := (got ++ take k rx) ++ drop (length cur) cur) in *.
        assert (Hcur' : cur' = got ++ take k rx) by (unfold cur'; by rewrite drop_all, app_nil_r).
        assert (Lc : length (concat (dn ++ [cur'])) = length (concat dn) + length cur).
        { rewrite concat_app, app_length. simpl. rewrite app_nil_r, Hcur', Hfull. done. }
        pose proof (rv_next_spec h p q' (concat (enc <$> q')) try' bufs0 rest (d0 ++ [cur]) (dn ++ [cur'])
          (drop k rx ++ wire ++ tx ++ u)) as S.
        rewrite Lc in S. rewrite Hm, Nat2N.id in E.
        assert (P1 : bufs0 = (d0 ++ [cur]) ++ rest) by (rewrite Hb0, <- app_assoc; done).
        assert (P2 : map length (d0 ++ [cur]) = map length (dn ++ [cur'])).
        { rewrite !map_app, Hl. simpl. by rewrite Hcur', Hfull. }
        assert (P3 : concat (dn ++ [cur']) ++ drop k rx ++ wire ++ tx ++ u = p ++ concat (enc <$> q')).
        { rewrite concat_app. simpl. rewrite app_nil_r, Hcur', <- !app_assoc, take_app_drop. done. }
        specialize (S P1 P2 Hcount Hp P3).
        destruct (rv_next h (dn ++ [cur']) rest (length (concat dn) + length cur) (length p)) as [r1 e1].
        injection E as <- <- <-. destruct S as [(-> & bufs' & -> & Hf & HX)|(-> & Hr)].
        -- exists (q', cs, CrIdle). split; [eapply CHS_cons; [apply CH_got; [done|done]|constructor]|]. right.
           exists u, []. done.
        -- exists ((h, p) :: q', cs, CrIn try' bufs0). split; [constructor|]. right.
           exists u, (hdr_bytes h ++ concat (dn ++ [cur'])).
           split; [done|]. split; [done|]. split; [by constructor|].
           change (concat (enc <$> (h, p) :: q')) with ((hdr_bytes h ++ p) ++ concat (enc <$> q')).
           cbn [t_rx t_wire t_tx]. by rewrite <- !app_assoc, P3.
      * injection E as <- <- <-.
        destruct (app_same_length (concat dn ++ got ++ take k rx) p (drop k rx ++ wire ++ tx ++ u) (concat (enc <$> q')))
          as [Hpay HX].
        { rewrite <- !app_assoc, take_app_drop. done. }
        { rewrite !app_length, take_length. lia. }
        exists (q', cs, CrIdle). split.
        { eapply CHS_cons; [apply CH_got; [done|]|constructor].
          split.
          - rewrite Hb0, !map_app, Hl. simpl. do 2 f_equal. rewrite app_length, Hfull, drop_length. lia.
          - rewrite concat_app. simpl. rewrite <- !app_assoc, <- Hpay, <- !app_assoc. do 3 f_equal.
            rewrite Hb0, concat_app. simpl.
            rewrite (app_length (concat dn)), Lg, <- Hl', <- drop_drop, drop_app.
            rewrite drop_app_le by lia. f_equal. f_equal. lia. }
        right. exists u, []. done.
    + injection E as <- <- <-. exists ((h, p) :: q', cs, CrIn try' bufs0). split; [constructor|]. right.
      exists u, (hdr_bytes h ++ concat dn ++ got ++ take k rx).
      split; [done|]. split.
      { exists p, q', d0. split; [done|]. split; [done|]. split; [done|]. split; [done|].
        split; [lia|]. split; [done|]. split; [done|]. done. }
      split; [constructor; [done|done]|].
      change (concat (enc <$> (h, p) :: q')) with ((hdr_bytes h ++ p) ++ concat (enc <$> q')).
      cbn [t_rx t_wire t_tx]. rewrite <- !app_assoc. f_equal. rewrite take_app_drop. done.
Qed.

Lemma sim_step txc rxc d a act d' e : tinv d a -> t_step txc rxc d act = Some (d', e) ->
  Forall proper_send e -> exists b, ch_steps a e b /\ (is_err e \/ tinv d' b).
Proof.
  intros I E P. destruct act as [try h payload|try bufs|k|k|k|k]; destruct d as [tx wire rx s r]; simpl in E.
  - destruct s; [|done|done]. injection E as <- <-. destruct a as [[q cs] cr].
    destruct I as (u & c & Hs & Hr & Hq & Hst). simpl in *. destruct cs; try done. simpl in Hs. subst u.
    exists (q, CsWill try (h, concat payload), cr). split; [eapply CHS_cons; constructor|]. right.
    exists [], c. simpl. split; [|done]. apply Forall_cons in P as [[P1 P2] _]. done.
  - destruct r; try done. injection E as <- <-. destruct a as [[q cs] cr].
    destruct I as (u & c & Hs & Hr & Hq & Hst). simpl in *. destruct cr; try done. simpl in Hr. subst c.
    exists (q, cs, CrIn try bufs). split; [eapply CHS_cons; constructor|]. right. exists u, []. done.
  - destruct (snd_step txc tx s k) as [[[tx' s'] e']|] eqn:S; [|done]. injection E as <- <-.
    destruct (sim_snd txc _ _ _ _ _ _ I S) as (b & B & I'). exists b. split; [done|]. by right.
  - destruct (rcv_step rx r k) as [[[rx' r'] e']|] eqn:S; [|done]. injection E as <- <-.
    destruct (sim_rcv _ _ _ _ _ _ I S) as (b & B & I'). by exists b.
  - destruct (chunk k (length tx) _) eqn:K; [|done]. injection E as <- <-. exists a. split; [constructor|]. right.
    destruct a as [[q cs] cr]. destruct I as (u & c & Hs & Hr & Hq & Hst). exists u, c. simpl in *.
    split; [done|]. split; [done|]. split; [done|]. rewrite <- Hst. do 2 f_equal. rewrite <- !app_assoc, take_app_drop. done.
  - destruct (chunk k (length wire) _) eqn:K; [|done]. injection E as <- <-. exists a. split; [constructor|]. right.
    destruct a as [[q cs] cr]. destruct I as (u & c & Hs & Hr & Hq & Hst). exists u, c. simpl in *.
    split; [done|]. split; [done|]. split; [done|]. rewrite <- Hst. f_equal. rewrite <- !app_assoc, take_app_drop. done.
Qed.

Lemma ch_steps_trans a e b e' c : ch_steps a e b -> ch_steps b e' c -> ch_steps a (e ++ e') c.
Proof.
  induction 1; intros H'; simpl; [done| |].
  - eapply CHS_silent; [eassumption|]. auto.
  - eapply CHS_cons; [eassumption|]. auto.
Qed.

(** A run in which an error is at most the last thing seen. *)
Lemma sim_run txc rxc l : forall d a d' es, tinv d a -> t_run txc rxc d l = Some (d', es) ->
  Forall proper_send es -> (forall es1 h es2, es = es1 ++ TvGot (GErr h) :: es2 -> es2 = []) ->
  exists b, ch_steps a es b /\ (no_error es -> tinv d' b).
Proof.
  induction l as [|act l IH]; intros d a d' es I E P X; simpl in E.
  - injection E as <- <-. exists a. split; [constructor|done].
  - destruct (t_step txc rxc d act) as [[d1 e1]|] eqn:S; [|done].
    destruct (t_run txc rxc d1 l) as [[d2 e2]|] eqn:R; [|done]. injection E as <- <-.
    apply Forall_app in P as [P1 P2].
    destruct (sim_step _ _ _ _ _ _ _ I S P1) as (b & B & [[h ->]|I1]).
    + assert (e2 = []) as -> by exact (X [] h e2 eq_refl).
      exists b. split; [done|]. intros Hne. exfalso. apply (Hne h). by left.
    + destruct (IH d1 b d2 e2 I1 R P2) as (b2 & B2 & I2).
      { intros es1 h es2 ->. apply (X (e1 ++ es1) h es2). by rewrite <- app_assoc. }
      exists b2. split; [by eapply ch_steps_trans|]. intros Hne. apply I2. intros h Hin. apply (Hne h).
      apply in_or_app. by right.
Qed.

(** ** Progress *)

Definition w_snd (s : tsnd) : nat := match s with SdFirst _ _ _ => 1 | _ => 0 end.
Definition w_rcv (r : trcv) : nat := match r with RvFirst _ _ => 1 | _ => 0 end.
Definition work (d : tdir) : nat :=
  5 * unsent (t_snd d) + 3 * length (t_tx d) + 2 * length (t_wire d) + length (t_rx d) +
  w_snd (t_snd d) + w_rcv (t_rcv d).

Lemma sd_next_unsent rest : unsent (sd_next rest) = length (concat rest) /\ w_snd (sd_next rest) <= 1.
Proof. induction rest as [|[|x p] rest IH]; simpl; [split; lia|done|]. rewrite app_length. split; lia. Qed.

Lemma sd_after_unsent buf rest k : k <= length buf ->
  unsent (sd_after buf rest k) = length buf - k + length (concat rest) /\ w_snd (sd_after buf rest k) <= 1.
Proof.
  intros Hk. unfold sd_after. destruct (Nat.eqb_spec k (length buf)) as [->|Hne].
  - destruct (sd_next_unsent rest) as [-> ?]. split; lia.
  - simpl. rewrite drop_length. split; lia.
Qed.

Lemma rv_next_w h rest : forall dn count exp, w_rcv (rv_next h dn rest count exp).1 = 0.
Proof.
  induction rest as [|p rest IH]; intros dn count exp; cbn [rv_next]; [done|].
  destruct (exp <? count + length p); [destruct (exp - count =? 0); done|].
  destruct (length p =? 0); [apply IH|done].
Qed.
Lemma rv_got_w got bufs : w_rcv (rv_got got bufs).1 = 0.
Proof.
  unfold rv_got, rv_header. destruct (length got =? 4); [|done].
  destruct (_ <? _); [done|]. destruct (_ =? 0); [done|]. apply rv_next_w.
Qed.

Lemma work_step txc rxc d a d' e : internal a -> t_step txc rxc d a = Some (d', e) -> work d' < work d.
Proof.
  destruct d as [tx wire rx s r]. destruct a as [try h payload|try bufs|k|k|k|k]; intros Ha E; try done; simpl in E.
  - destruct (snd_step txc tx s k) as [[[tx' s'] e']|] eqn:S; [|done]. injection E as <- <-. unfold work.
    cbn [t_tx t_wire t_rx t_snd t_rcv].
    destruct s as [|try buf rest|buf rest]; simpl in S; [done| |].
    + destruct (length tx <? txc).
      * destruct (chunk k (length buf) (txc - length tx)) eqn:K; [|done]. apply chunk_true in K as [K1 K2].
        injection S as <- <- _. destruct (sd_after_unsent buf rest k ltac:(lia)) as [-> ?].
        rewrite app_length, take_length. simpl. lia.
      * destruct (k =? 0); [|done]. destruct try; injection S as <- <- _; simpl; lia.
    + destruct (chunk k (length buf) (txc - length tx)) eqn:K; [|done]. apply chunk_true in K as [K1 K2].
      injection S as <- <- _. destruct (sd_after_unsent buf rest k ltac:(lia)) as [-> ?].
      rewrite app_length, take_length. simpl. lia.
  - destruct (rcv_step rx r k) as [[[rx' r'] e']|] eqn:S; [|done]. injection E as <- <-. unfold work.
    cbn [t_tx t_wire t_rx t_snd t_rcv].
    destruct r as [|try bufs|got bufs|h dn got n cur rest next]; simpl in S; [done| | |].
    + destruct (length rx =? 0).
      * destruct (k =? 0); [|done]. destruct try; injection S as <- <- _; simpl; lia.
      * destruct (chunk k 4 (length rx)) eqn:K; [|done]. apply chunk_true in K as [K1 K2].
        pose proof (rv_got_w (take k rx) bufs) as W. destruct (rv_got (take k rx) bufs) as [r1 e1].
        injection S as <- <- _. simpl in W. rewrite drop_length. simpl. lia.
    + destruct (chunk k (4 - length got) (length rx)) eqn:K; [|done]. apply chunk_true in K as [K1 K2].
      pose proof (rv_got_w (got ++ take k rx) bufs) as W. destruct (rv_got (got ++ take k rx) bufs) as [r1 e1].
      injection S as <- <- _. simpl in W. rewrite drop_length. simpl. lia.
    + destruct (chunk k (n - length got) (length rx)) eqn:K; [|done]. apply chunk_true in K as [K1 K2].
      destruct (_ =? n).
      * destruct next as [count|].
        -- match type of S with context [rv_next ?a ?b ?c ?d ?e] => pose proof (rv_next_w a c b d e) as W;
             destruct (rv_next a b c d e) as [r1 e1] end.
           injection S as <- <- _. simpl in W. rewrite drop_length. simpl. lia.
        -- injection S as <- <- _. rewrite drop_length. simpl. lia.
      * injection S as <- <- _. rewrite drop_length. simpl. lia.
  - destruct (chunk k (length tx) _) eqn:K; [|done]. apply chunk_true in K as [K1 K2]. injection E as <- <-.
    unfold work. cbn [t_tx t_wire t_rx t_snd t_rcv]. rewrite app_length, drop_length, take_length. lia.
  - destruct (chunk k (length wire) _) eqn:K; [|done]. apply chunk_true in K as [K1 K2]. injection E as <- <-.
    unfold work. cbn [t_tx t_wire t_rx t_snd t_rcv]. rewrite app_length, drop_length, take_length. lia.
Qed.

Lemma work_run txc rxc l : forall d d' e, Forall internal l -> t_run txc rxc d l = Some (d', e) ->
  length l + work d' <= work d.
Proof.
  induction l as [|a l IH]; intros d d' e F E; simpl in E.
  - injection E as <- <-. simpl. lia.
  - apply Forall_cons in F as [Fa F]. destruct (t_step txc rxc d a) as [[d1 e1]|] eqn:S; [|done].
    destruct (t_run txc rxc d1 l) as [[d2 e2]|] eqn:R; [|done]. injection E as <- <-.
    pose proof (work_step _ _ _ _ _ _ Fa S). pose proof (IH _ _ _ F R). simpl. lia.
Qed.

Definition stuck (txc rxc : nat) (d : tdir) : Prop := forall a, internal a -> t_step txc rxc d a = None.

Lemma stuck_receiving txc rxc d a : 0 < txc -> 0 < rxc -> tinv d a -> stuck txc rxc d -> t_rcv d <> RvIdle ->
  t_snd d = SdIdle /\ a.1 = ([], CsIdle).
Proof.
  destruct d as [tx wire rx s r], a as [[q cs] cr]. intros Ht Hx (u & c & Hs & Hr & Hq & Hst) K Hr0. simpl in *.
  assert (C1 : forall a b, 0 < a -> 0 < b -> chunk 1 a b = true) by (intros; apply chunk_true; lia).
  assert (Hrx : rx = []).
  { destruct rx as [|x rx]; [done|]. pose proof (K (TRcv 1) I) as E. simpl in E.
    destruct r as [|try bufs|got bufs|h dn got n cur rest next]; [done| | |]; cbn [rcv_step] in E.
    - rewrite C1 in E by (simpl; lia). change (length (x :: rx) =? 0) with false in E. cbv iota in E.
      destruct (rv_got _ bufs); done.
    - destruct cr; [done|]. destruct Hr as (_ & _ & Hg). rewrite C1 in E by (simpl; lia).
      destruct (rv_got _ bufs); done.
    - destruct cr; [done|]. destruct Hr as (p & q' & d0 & _ & _ & _ & _ & Hg & _). rewrite C1 in E by (simpl; lia).
      cbn zeta in E. destruct (_ =? n); [|done]. destruct next; [|done]. destruct (rv_next _ _ _ _ _); done. }
  subst rx.
  assert (Hw : wire = []).
  { destruct wire as [|x wire]; [done|]. pose proof (K (TPollR 1) I) as E. cbn [t_step] in E.
    rewrite C1 in E by (simpl; lia). done. }
  subst wire.
  assert (Htx : tx = []).
  { destruct tx as [|x tx]; [done|]. pose proof (K (TPollS 1) I) as E. cbn [t_step] in E.
    rewrite C1 in E by (simpl; lia). done. }
  subst tx.
  assert (Hsi : s = SdIdle).
  { destruct s as [|try buf rest|buf rest]; [done| |].
    - pose proof (K (TSnd 1) I) as E. cbn [t_step snd_step] in E.
      assert (buf <> []) by (destruct cs; [done| |]; [destruct Hs as (_ & -> & _); done|by destruct Hs as (_ & ? & _)]).
      assert (0 < length buf) by (destruct buf; simpl; [done|lia]).
      destruct (Nat.ltb_spec (length (@nil N)) txc) as [_|Hf]; [|simpl in Hf; lia].
      rewrite C1 in E by (simpl; lia). done.
    - pose proof (K (TSnd 1) I) as E. cbn [t_step snd_step] in E.
      destruct cs; [done|done|]. destruct Hs as (Hb & _).
      assert (0 < length buf) by (destruct buf; simpl; [done|lia]).
      rewrite C1 in E by (simpl; lia). done. }
  subst s. split; [done|]. destruct cs; try done. simpl in Hs. subst u. rewrite !app_nil_r in Hst.
  destruct q as [|[h p] q]; [done|]. exfalso.
  assert (L : length c = 4 + length p + length (concat (enc <$> q))).
  { rewrite Hst. change (concat (enc <$> (h, p) :: q)) with ((hdr_bytes h ++ p) ++ concat (enc <$> q)).
    rewrite !app_length. done. }
  destruct r as [|try bufs|got bufs|h' dn got n cur rest next]; [done| | |]; (destruct cr; [done|]).
  - destruct Hr as (_ & _ & ->). simpl in L. lia.
  - destruct Hr as (_ & -> & Hg). lia.
  - destruct Hr as (p' & q' & d0 & Hqq & -> & _ & _ & Hg & _ & _ & Hnext). injection Hqq as <- <- <-.
    rewrite !app_length in L. change (length (hdr_bytes h)) with 4 in L.
    destruct next as [count|]; [destruct Hnext as (-> & -> & ?)|]; lia.
Qed.

(** ** Counting *)

Lemma count_steps a es b : ch_steps a es b -> no_error es ->
  length b.1.1 + count_got es + (match a.1.2 with CsDid => 1 | _ => 0 end) =
  length a.1.1 + count_sent es + (match b.1.2 with CsDid => 1 | _ => 0 end).
Proof.
  unfold count_got, count_sent. induction 1 as [a|a b es c S _ IH|a e b es c S _ IH]; intros Ne.
  - simpl. lia.
  - specialize (IH Ne). inversion S; subst; simpl in *. rewrite app_length in IH. simpl in IH. lia.
  - assert (Ne' : no_error es) by (intros h Hh; apply (Ne h); by right). specialize (IH Ne').
    inversion S; subst; simpl in *; try lia. exfalso. apply (Ne h). by left.
Qed.
