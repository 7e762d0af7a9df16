(** C27: the kernel's work queue. *)
From Verif Require Import Base QueueModel QueueSpec.
From stdpp Require Import functions.

(** ** The capacity is a power of two *)

Lemma land_pred_pow2 c : 2 <= c -> Nat.land c (c - 1) = 0 -> c = 2 ^ Nat.log2 c.
Proof.
  intros Hc H. pose proof (Nat.log2_spec c ltac:(lia)) as [L U].
  destruct (decide (c = 2 ^ Nat.log2 c)) as [|Hn]; [done|exfalso].
  assert (L2 : Nat.log2 (c - 1) = Nat.log2 c) by (apply Nat.log2_unique; lia).
  pose proof (Nat.bit_log2 c ltac:(lia)) as B1.
  pose proof (Nat.bit_log2 (c - 1) ltac:(lia)) as B2. rewrite L2 in B2.
  assert (B : Nat.testbit (Nat.land c (c - 1)) (Nat.log2 c) = true) by (rewrite Nat.land_spec, B1, B2; done).
  rewrite H, Nat.bits_0 in B. done.
Qed.

Lemma round_capacity_spec c : exists k, 1 <= k /\ round_capacity c = 2 ^ k.
Proof.
  unfold round_capacity. destruct (Nat.ltb_spec c 2) as [H|H]; simpl; [by exists 1|].
  destruct (Nat.eqb_spec (Nat.land c (c - 1)) 0) as [E|E]; simpl.
  - exists (Nat.log2 c). split; [|by apply land_pred_pow2].
    pose proof (Nat.log2_le_mono 2 c H) as M. change (Nat.log2 2) with 1 in M. lia.
  - exists (Nat.log2_up c). split; [|done].
    pose proof (Nat.log2_up_le_mono 2 c H) as M. change (Nat.log2_up 2) with 1 in M. lia.
Qed.

Lemma land_mask k p : Nat.land p (2 ^ k - 1) = p mod 2 ^ k.
Proof. rewrite <- Nat.land_ones, Nat.ones_equiv. f_equal. lia. Qed.

(** Every capacity is rounded up to a power of two, at least 2. *)
Theorem C27_capacity c : 2 <= round_capacity c /\ c <= round_capacity c /\ (2 <= c -> round_capacity c < 2 * c).
Proof.
  unfold round_capacity. destruct (Nat.ltb_spec c 2) as [H|H]; simpl; [lia|].
  destruct (Nat.eqb_spec (Nat.land c (c - 1)) 0) as [E|E]; simpl; [lia|].
  pose proof (Nat.log2_up_spec c ltac:(lia)) as [L U].
  assert (2 ^ Nat.log2_up c = 2 * 2 ^ Nat.pred (Nat.log2_up c)).
  { pose proof (Nat.log2_up_le_mono 2 c H) as M. change (Nat.log2_up 2) with 1 in M.
    destruct (Nat.log2_up c); [lia|]. simpl. lia. }
  lia.
Qed.

(** ** Invariant *)

(** The position a thread has claimed: [true] for push. *)
Definition claim {V} (pc : qpc V) : option (bool * nat) :=
  match pc with
  | PuWrite _ p | PuStore p => Some (true, p)
  | PoTake p | PoStore p _ => Some (false, p)
  | _ => None
  end.

Definition slot_ok {V} (cap : nat) (s : mq V) (log : list V) (p : nat) : Prop :=
  let j := p mod cap in
  (q_seq s !! j = Some p /\ q_enq s <= p < q_deq s + cap) \/
  (q_seq s !! j = Some p /\ q_deq s <= p < q_enq s /\
   exists i pc, q_th s !! i = Some pc /\ claim pc = Some (true, p)) \/
  (q_seq s !! j = Some (p + 1) /\ q_deq s <= p < q_enq s /\
   exists v, q_val s !! j = Some (Some v) /\ log !! p = Some v) \/
  (q_seq s !! j = Some (p + 1) /\ p < q_deq s /\ q_enq s <= p + cap /\
   exists i pc, q_th s !! i = Some pc /\ claim pc = Some (false, p)).

Definition pc_ok {V} (cap : nat) (s : mq V) (log : list V) (pc : qpc V) : Prop :=
  match pc with
  | QIdle | PuLoad _ | PoLoad => True
  | PuSeq _ pos => pos <= q_enq s
  | PuCas _ pos => pos <= q_enq s /\ (pos = q_enq s -> q_seq s !! (pos mod cap) = Some pos)
  | PuWrite v p => q_deq s <= p < q_enq s /\ q_seq s !! (p mod cap) = Some p /\ log !! p = Some v
  | PuStore p => q_deq s <= p < q_enq s /\ q_seq s !! (p mod cap) = Some p /\
      exists v, log !! p = Some v /\ q_val s !! (p mod cap) = Some (Some v)
  | PoSeq pos => pos <= q_deq s
  | PoCas pos => pos <= q_deq s /\ (pos = q_deq s -> q_seq s !! (pos mod cap) = Some (pos + 1))
  | PoTake p => p < q_deq s /\ q_enq s <= p + cap /\ q_seq s !! (p mod cap) = Some (p + 1) /\
      exists v, log !! p = Some v /\ q_val s !! (p mod cap) = Some (Some v)
  | PoStore p r => p < q_deq s /\ q_enq s <= p + cap /\ q_seq s !! (p mod cap) = Some (p + 1) /\
      exists v, log !! p = Some v /\ r = Some v
  | QPanic => False
  end.

Definition stat_of {V} (log : list V) (pc : qpc V) (st : astat V) : Prop :=
  match pc with
  | QIdle => st = AIdle
  | PuLoad v | PuSeq v _ | PuCas v _ => st = APush v
  | PuWrite _ _ | PuStore _ => st = APushed
  | PoLoad | PoSeq _ | PoCas _ => st = APop
  | PoTake p | PoStore p _ => exists v, log !! p = Some v /\ st = APopped v
  | QPanic => False
  end.

Record minv {V} (cap : nat) (log : list V) (s : mq V) (a : list V * (nat -> astat V)) : Prop := {
  mi_cap : 2 <= cap /\ forall p, Nat.land p (q_mask s) = p mod cap;
  mi_mask : q_mask s + 1 = cap;
  mi_len : length (q_seq s) = cap /\ length (q_val s) = cap;
  mi_pos : q_deq s <= q_enq s <= q_deq s + cap;
  mi_log : length log = q_enq s;
  mi_slot : forall j, j < cap -> exists p, p mod cap = j /\ slot_ok cap s log p;
  mi_pc : forall i pc, q_th s !! i = Some pc -> pc_ok cap s log pc /\ stat_of log pc (a.2 i);
  mi_uniq : forall i j pc pc' c, q_th s !! i = Some pc -> q_th s !! j = Some pc' ->
    claim pc = Some c -> claim pc' = Some c -> i = j;
  mi_q : a.1 = drop (q_deq s) log }.

Lemma minv_init V c n : minv (round_capacity c) [] (mq_init V c n) aq_init.
Proof.
  destruct (round_capacity_spec c) as (k & Hk & E).
  assert (H2 : 2 <= 2 ^ k) by (pose proof (Nat.pow_le_mono_r 2 1 k ltac:(lia) Hk); simpl in *; lia).
  split; unfold mq_init, aq_init; cbn [q_mask q_seq q_val q_enq q_deq q_th fst snd length].
  - rewrite E. split; [done|]. intros p. apply land_mask.
  - lia.
  - by rewrite seq_length, replicate_length.
  - lia.
  - done.
  - intros j Hj. exists j. rewrite Nat.mod_small by done. split; [done|]. left. cbn. 
    rewrite Nat.mod_small by done. split; [|lia]. by rewrite lookup_seq_lt.
  - intros i pc H. apply lookup_replicate in H as [-> _]. done.
  - intros i j pc pc' c' H _ Hc. apply lookup_replicate in H as [-> _]. done.
  - done.
Qed.

Lemma mod_eq_close cap p p' : p mod cap = p' mod cap -> p < p' -> 0 < cap -> p + cap <= p'.
Proof.
  intros H L C. pose proof (Nat.div_mod p cap ltac:(lia)). pose proof (Nat.div_mod p' cap ltac:(lia)).
  rewrite H in *. assert (p / cap < p' / cap) by nia. nia.
Qed.
Lemma mod_neq_succ cap p p' : 2 <= cap -> p mod cap = p' mod cap -> p = p' + 1 -> False.
Proof. intros C H ->. assert (p' + cap <= p' + 1) by (eapply mod_eq_close; [done|lia|lia]). lia. Qed.

Section step.
Context {V : Type} (cap : nat) (log : list V) (s : mq V) (q : list V) (f : nat -> astat V).
Context (I : minv cap log s (q, f)).
Context (i : nat) (pc : qpc V) (Hi : q_th s !! i = Some pc).

Lemma th_insert pc' j pcj : <[i := pc']> (q_th s) !! j = Some pcj ->
  (j = i /\ pcj = pc') \/ (j <> i /\ q_th s !! j = Some pcj).
Proof using All.
  intros H. destruct (decide (j = i)) as [->|Hn].
  - left. rewrite list_lookup_insert in H by (by eapply lookup_lt_Some). by injection H as ->.
  - right. by rewrite list_lookup_insert_ne in H by done.
Qed.

(** Existing claims other than [i]'s survive; [i]'s claim is replaced. *)
Lemma claim_keep pc' c j pcj : q_th s !! j = Some pcj -> claim pcj = Some c ->
  (claim pc = Some c -> claim pc' = Some c) ->
  exists k pck, <[i := pc']> (q_th s) !! k = Some pck /\ claim pck = Some c.
Proof using All.
  intros Hj Hc Hk. destruct (decide (j = i)) as [->|Hn].
  - rewrite Hi in Hj. injection Hj as <-. exists i, pc'. split; [|by apply Hk].
    apply list_lookup_insert. by eapply lookup_lt_Some.
  - exists j, pcj. by rewrite list_lookup_insert_ne.
Qed.

Lemma uniq_keep pc' : (forall c, claim pc' = Some c -> claim pc = Some c) ->
  forall k j pck pcj c, <[i := pc']> (q_th s) !! k = Some pck -> <[i := pc']> (q_th s) !! j = Some pcj ->
    claim pck = Some c -> claim pcj = Some c -> k = j.
Proof using All.
  intros Hc k j pck pcj c Hk Hj C1 C2.
  apply th_insert in Hk as [[-> ->]|[Hk1 Hk]], Hj as [[-> ->]|[Hj1 Hj]]; try done.
  - eapply (mi_uniq _ _ _ _ I); [exact Hi|exact Hj|by apply Hc|done].
  - eapply (mi_uniq _ _ _ _ I); [exact Hk|exact Hi|done|by apply Hc].
  - by eapply (mi_uniq _ _ _ _ I).
Qed.

(** A step that changes only the place of the thread, claims nothing. *)
Lemma minv_local pc' f' :
  claim pc = None -> claim pc' = None -> pc_ok cap s log pc' -> stat_of log pc' (f' i) ->
  (forall j, j <> i -> f' j = f j) ->
  minv cap log (mkMq (q_mask s) (q_seq s) (q_val s) (q_enq s) (q_deq s) (<[i := pc']> (q_th s))) (q, f').
Proof using All.
  intros C1 C2 P S F. pose proof I as [IC IM IL IP IG IS IT IU IQ].
  split; cbn [q_mask q_seq q_val q_enq q_deq q_th fst snd]; try done.
  - intros j Hj. destruct (IS j Hj) as (p & Hp & H). exists p. split; [done|].
    destruct H as [H|[(H1 & H2 & k & pck & H3 & H4)|[H|(H1 & H2 & H5 & k & pck & H3 & H4)]]].
    + left. done.
    + right; left. split; [done|]. split; [done|].
      eapply (claim_keep pc'); [done..|]. rewrite C1. done.
    + right; right; left. done.
    + right; right; right. split; [done|]. split; [done|]. split; [done|].
      eapply (claim_keep pc'); [done..|]. rewrite C1. done.
  - intros j pcj H. apply th_insert in H as [[-> ->]|[Hn H]]; [done|].
    rewrite F by done. by apply IT in H.
  - apply uniq_keep. rewrite C2. done.
Qed.

(** Slots are determined by position. *)
Lemma slot_at p : exists p', p' mod cap = p mod cap /\ slot_ok cap s log p'.
Proof using All.
  pose proof (mi_cap _ _ _ _ I) as [C _]. apply (mi_slot _ _ _ _ I). apply Nat.mod_upper_bound. lia.
Qed.

Lemma minv_push_claim v : pc = PuCas v (q_enq s) ->
  length q < cap /\ q_deq s < q_deq s + cap /\
  minv cap (log ++ [v]) (mkMq (q_mask s) (q_seq s) (q_val s) (q_enq s + 1) (q_deq s)
      (<[i := PuWrite v (q_enq s)]> (q_th s))) (q ++ [v], <[i := APushed]> f).
Proof using All.
  intros Epc. pose proof Hi as Hi'. rewrite Epc in Hi'. pose proof I as [IC IM IL IP IG IS IT IU IQ]. simpl in IQ.
  destruct (IT _ _ Hi') as [[_ Hseq] Hst]. specialize (Hseq eq_refl).
  destruct IC as [C2 CL].
  (* the slot is free *)
  destruct (slot_at (q_enq s)) as (p' & Hp' & Hs).
  assert (Hfree : p' = q_enq s /\ q_enq s < q_deq s + cap).
  { unfold slot_ok in Hs. rewrite Hp' in Hs. rewrite Hseq in Hs.
    destruct Hs as [[E H]|[(E & H & _)|[(E & H & _)|(E & H & H' & _)]]]; injection E as E.
    - lia.
    - lia.
    - exfalso. eapply (mod_neq_succ cap (q_enq s) p'); [done|by rewrite Hp'|done].
    - exfalso. eapply (mod_neq_succ cap (q_enq s) p'); [done|by rewrite Hp'|done]. }
  destruct Hfree as [-> Hroom].
  assert (Hlq : length q = q_enq s - q_deq s) by (rewrite IQ, drop_length; lia).
  assert (LG : forall p v0, log !! p = Some v0 -> (log ++ [v]) !! p = Some v0)
    by (intros; by apply lookup_app_l_Some).
  split; [lia|]. split; [lia|].
  split; cbn [q_mask q_seq q_val q_enq q_deq q_th fst snd].
  - done.
  - done.
  - done.
  - lia.
  - rewrite app_length. simpl. lia.
  - intros j Hj. destruct (decide (j = q_enq s mod cap)) as [->|Hne].
    + exists (q_enq s). split; [done|]. right; left. cbn. split; [done|]. split; [lia|].
      exists i, (PuWrite v (q_enq s)). split; [|done]. apply list_lookup_insert. by eapply lookup_lt_Some.
    + destruct (IS j Hj) as (p & Hp & H). exists p. split; [done|].
      assert (p <> q_enq s) by congruence.
      unfold slot_ok in *. cbn [q_mask q_seq q_val q_enq q_deq q_th].
      destruct H as [[H1 H2]|[(H1 & H2 & k & pck & H3 & H4)|[(H1 & H2 & w & H3 & H4)|(H1 & H2 & H5 & k & pck & H3 & H4)]]].
      * left. split; [done|]. lia.
      * right; left. split; [done|]. split; [lia|].
        eapply (claim_keep (PuWrite v (q_enq s))); [done..|]. by rewrite Epc.
      * right; right; left. split; [done|]. split; [lia|]. eauto.
      * right; right; right. split; [done|]. split; [done|]. split.
        { destruct (decide (q_enq s = p + cap)) as [E|]; [|lia]. exfalso. apply Hne.
          rewrite <- Hp, E. rewrite <- (Nat.mul_1_l cap) at 2. by rewrite Nat.mod_add by lia. }
        eapply (claim_keep (PuWrite v (q_enq s))); [done..|]. by rewrite Epc.
  - intros j pcj H. apply th_insert in H as [[-> ->]|[Hn H]].
    + split; [|cbn; by rewrite fn_lookup_insert]. cbn. split; [lia|]. split; [done|].
      rewrite lookup_app_r by lia. rewrite IG, Nat.sub_diag. done.
    + rewrite fn_lookup_insert_ne by done. destruct (IT _ _ H) as [P S]. simpl in S. split.
      * destruct pcj; cbn in *; try done; try lia.
        -- destruct P as (? & ? & ?). split; [lia|]. split; [done|]. by apply LG.
        -- destruct P as (? & ? & w & ? & ?). split; [lia|]. split; [done|]. eauto.
        -- destruct P as (? & ? & Hq & w & ? & ?). split; [lia|].
           split; [|eauto]. destruct (decide (q_enq s = pos + cap)) as [E|]; [|lia]. exfalso.
           assert (EM : q_enq s mod cap = pos mod cap).
           { rewrite E. rewrite <- (Nat.mul_1_l cap) at 1. by rewrite Nat.mod_add by lia. }
           rewrite EM, Hq in Hseq. injection Hseq as Hseq.
           eapply (mod_neq_succ cap (q_enq s) pos); [done|done|lia].
        -- destruct P as (? & ? & Hq & w & ? & ?). split; [lia|].
           split; [|eauto]. destruct (decide (q_enq s = pos + cap)) as [E|]; [|lia]. exfalso.
           assert (EM : q_enq s mod cap = pos mod cap).
           { rewrite E. rewrite <- (Nat.mul_1_l cap) at 1. by rewrite Nat.mod_add by lia. }
           rewrite EM, Hq in Hseq. injection Hseq as Hseq.
           eapply (mod_neq_succ cap (q_enq s) pos); [done|done|lia].
      * destruct pcj; cbn in *; try done.
        -- destruct S as (w & ? & ?). eauto.
        -- destruct S as (w & ? & ?). eauto.
  - intros k j pck pcj c Hk Hj Ck Cj.
    assert (FR : forall m pcm, q_th s !! m = Some pcm -> claim pcm = Some (true, q_enq s) -> False).
    { intros m pcm Hm Cm. destruct (IT _ _ Hm) as [P _]. destruct pcm; try done; cbn in *; injection Cm as ->; lia. }
    apply th_insert in Hk as [[-> ->]|[Hk1 Hk]], Hj as [[-> ->]|[Hj1 Hj]]; try done.
    + cbn in Ck. injection Ck as <-. exfalso. by eapply FR.
    + cbn in Cj. injection Cj as <-. exfalso. by eapply FR.
    + by eapply IU.
  - rewrite drop_app_le by lia. by rewrite IQ.
Qed.

Lemma minv_pop_claim : pc = PoCas (q_deq s) ->
  exists v q', q = v :: q' /\
  minv cap log (mkMq (q_mask s) (q_seq s) (q_val s) (q_enq s) (q_deq s + 1)
      (<[i := PoTake (q_deq s)]> (q_th s))) (q', <[i := APopped v]> f).
Proof using All.
  intros Epc. pose proof Hi as Hi'. rewrite Epc in Hi'. pose proof I as [IC IM IL IP IG IS IT IU IQ]. simpl in IQ.
  destruct (IT _ _ Hi') as [[_ Hseq] Hst]. specialize (Hseq eq_refl).
  destruct IC as [C2 CL].
  destruct (slot_at (q_deq s)) as (p' & Hp' & Hs).
  assert (Hfull : p' = q_deq s /\ q_deq s < q_enq s /\
     exists v, q_val s !! (q_deq s mod cap) = Some (Some v) /\ log !! q_deq s = Some v).
  { unfold slot_ok in Hs. rewrite Hp' in Hs. rewrite Hseq in Hs.
    destruct Hs as [[E H]|[(E & H & _)|[(E & H & v & H3 & H4)|(E & H & H' & _)]]]; injection E as E.
    - exfalso. eapply (mod_neq_succ cap p' (q_deq s)); [done|by rewrite Hp'|done].
    - exfalso. eapply (mod_neq_succ cap p' (q_deq s)); [done|by rewrite Hp'|done].
    - assert (p' = q_deq s) by lia. subst p'. split; [done|]. split; [lia|]. eauto.
    - lia. }
  destruct Hfull as (-> & Hne & v & Hv & Hl).
  exists v, (drop (S (q_deq s)) log). split; [by rewrite IQ, (drop_S _ v)|].
  split; cbn [q_mask q_seq q_val q_enq q_deq q_th fst snd].
  - done.
  - done.
  - done.
  - lia.
  - done.
  - intros j Hj. destruct (decide (j = q_deq s mod cap)) as [->|Hnj].
    + exists (q_deq s). split; [done|]. right; right; right. cbn. split; [done|]. split; [lia|]. split; [lia|].
      exists i, (PoTake (q_deq s)). split; [|done]. apply list_lookup_insert. by eapply lookup_lt_Some.
    + destruct (IS j Hj) as (p & Hp & H). exists p. split; [done|].
      assert (p <> q_deq s) by congruence.
      unfold slot_ok in *. cbn [q_mask q_seq q_val q_enq q_deq q_th].
      destruct H as [[H1 H2]|[(H1 & H2 & k & pck & H3 & H4)|[(H1 & H2 & w & H3 & H4)|(H1 & H2 & H5 & k & pck & H3 & H4)]]].
      * left. split; [done|]. lia.
      * right; left. split; [done|]. split; [lia|].
        eapply (claim_keep (PoTake (q_deq s))); [done..|]. by rewrite Epc.
      * right; right; left. split; [done|]. split; [lia|]. eauto.
      * right; right; right. split; [done|]. split; [lia|]. split; [done|].
        eapply (claim_keep (PoTake (q_deq s))); [done..|]. by rewrite Epc.
  - intros j pcj H. apply th_insert in H as [[-> ->]|[Hn H]].
    + split; [|cbn; exists v; split; [done|by rewrite fn_lookup_insert]]. cbn. split; [lia|]. split; [lia|].
      split; [done|]. eauto.
    + rewrite fn_lookup_insert_ne by done. destruct (IT _ _ H) as [P S]. simpl in S. split; [|done].
      assert (NE : forall pos, q_seq s !! (pos mod cap) = Some pos -> pos <> q_deq s).
      { intros pos Hq ->. rewrite Hseq in Hq. injection Hq as Hq. lia. }
      destruct pcj; cbn in *; try done; try lia.
      * destruct P as (? & Hq & ?). pose proof (NE _ Hq). split; [lia|]. done.
      * destruct P as (? & Hq & ?). pose proof (NE _ Hq). split; [lia|]. done.
      * destruct P as (? & ?). split; [lia|]. done.
      * destruct P as (? & ?). split; [lia|]. done.
  - intros k j pck pcj c Hk Hj Ck Cj.
    assert (FR : forall m pcm, q_th s !! m = Some pcm -> claim pcm = Some (false, q_deq s) -> False).
    { intros m pcm Hm Cm. destruct (IT _ _ Hm) as [P _]. destruct pcm; try done; cbn in *; injection Cm as ->; lia. }
    apply th_insert in Hk as [[-> ->]|[Hk1 Hk]], Hj as [[-> ->]|[Hj1 Hj]]; try done.
    + cbn in Ck. injection Ck as <-. exfalso. by eapply FR.
    + cbn in Cj. injection Cj as <-. exfalso. by eapply FR.
    + by eapply IU.
  - f_equal. lia.
Qed.

Lemma claim_seq j pcj b p : q_th s !! j = Some pcj -> claim pcj = Some (b, p) ->
  q_seq s !! (p mod cap) = Some (if b then p else p + 1) /\ (if b then q_deq s <= p < q_enq s else p < q_deq s).
Proof using All.
  intros Hj Hc. destruct (mi_pc _ _ _ _ I _ _ Hj) as [P _].
  destruct pcj; cbn in *; try done; injection Hc as <- <-; tauto.
Qed.

(** Two different threads never have claims on the same slot. *)
Lemma idx_clash j j' pcj pcj' b b' p p' : q_th s !! j = Some pcj -> q_th s !! j' = Some pcj' ->
  claim pcj = Some (b, p) -> claim pcj' = Some (b', p') -> p mod cap = p' mod cap -> j = j'.
Proof using All.
  intros Hj Hj' C C' E. pose proof (mi_cap _ _ _ _ I) as [C2 _].
  destruct (claim_seq _ _ _ _ Hj C) as [S _], (claim_seq _ _ _ _ Hj' C') as [S' _].
  rewrite E, S' in S. injection S as S.
  assert (b = b' /\ p = p') as [-> ->].
  { destruct b, b'; try (split; [done|lia]); exfalso.
    - eapply (mod_neq_succ cap p p'); [done|done|lia].
    - eapply (mod_neq_succ cap p' p); [done|done|lia]. }
  by eapply (mi_uniq _ _ _ _ I).
Qed.

(** What a claimed slot looks like. *)
Lemma clash b p : claim pc = Some (b, p) -> forall j pcj b' p', j <> i -> q_th s !! j = Some pcj ->
  claim pcj = Some (b', p') -> p' mod cap <> p mod cap.
Proof using All. intros C j pcj b' p' Hn Hj C' E. apply Hn. by eapply (idx_clash j i). Qed.

Lemma minv_write v p : pc = PuWrite v p ->
  minv cap log (mkMq (q_mask s) (q_seq s) (<[p mod cap := Some v]> (q_val s)) (q_enq s) (q_deq s)
      (<[i := PuStore p]> (q_th s))) (q, f).
Proof using All.
  intros Epc. assert (Cl : claim pc = Some (true, p)) by (by rewrite Epc).
  pose proof (clash _ _ Cl) as CC.
  pose proof Hi as Hi'. rewrite Epc in Hi'. pose proof I as [IC IM IL IP IG IS IT IU IQ]. simpl in IQ.
  destruct (IT _ _ Hi') as [(Hp & Hseq & Hl) Hst]. destruct IC as [C2 CL].
  assert (Hlt : p mod cap < length (q_val s)) by (rewrite (proj2 IL); apply Nat.mod_upper_bound; lia).
  split; cbn [q_mask q_seq q_val q_enq q_deq q_th fst snd]; try done.
  - by rewrite insert_length.
  - intros j Hj. destruct (IS j Hj) as (p' & Hp' & H). exists p'. split; [done|].
    unfold slot_ok in *. cbn [q_mask q_seq q_val q_enq q_deq q_th].
    destruct H as [H|[(H1 & H2 & k & pck & H3 & H4)|[(H1 & H2 & w & H3 & H4)|(H1 & H2 & H5 & k & pck & H3 & H4)]]].
    + left. done.
    + right; left. split; [done|]. split; [done|].
      eapply (claim_keep (PuStore p)); [done..|]. by rewrite Epc.
    + right; right; left. split; [done|]. split; [done|]. exists w. split; [|done].
      rewrite list_lookup_insert_ne; [done|]. intros E. rewrite <- E, Hseq in H1. injection H1 as H1.
      by eapply (mod_neq_succ cap p p').
    + right; right; right. split; [done|]. split; [done|]. split; [done|].
      eapply (claim_keep (PuStore p)); [done..|]. by rewrite Epc.
  - intros j pcj H. apply th_insert in H as [[-> ->]|[Hn H]].
    + split; [|done]. cbn. split; [done|]. split; [done|]. exists v. split; [done|]. by apply list_lookup_insert.
    + destruct (IT _ _ H) as [P S]. split; [|done].
      pose proof (CC j pcj) as CJ.
      destruct pcj; try done; cbn in *; (rewrite list_lookup_insert_ne; [done|]);
        intros E; eapply CJ; eauto.
  - apply uniq_keep. rewrite Epc. done.
Qed.

Lemma minv_store p : pc = PuStore p ->
  minv cap log (mkMq (q_mask s) (<[p mod cap := p + 1]> (q_seq s)) (q_val s) (q_enq s) (q_deq s)
      (<[i := QIdle]> (q_th s))) (q, <[i := AIdle]> f).
Proof using All.
  intros Epc. assert (Cl : claim pc = Some (true, p)) by (by rewrite Epc).
  pose proof (clash _ _ Cl) as CC.
  pose proof Hi as Hi'. rewrite Epc in Hi'. pose proof I as [IC IM IL IP IG IS IT IU IQ]. simpl in IQ.
  destruct (IT _ _ Hi') as [(Hp & Hseq & v & Hl & Hv) Hst]. destruct IC as [C2 CL].
  assert (Hlt : p mod cap < length (q_seq s)) by (rewrite (proj1 IL); apply Nat.mod_upper_bound; lia).
  split; cbn [q_mask q_seq q_val q_enq q_deq q_th fst snd]; try done.
  - by rewrite insert_length.
  - intros j Hj. destruct (decide (j = p mod cap)) as [->|Hnj].
    + exists p. split; [done|]. right; right; left. cbn. split; [by apply list_lookup_insert|]. split; [done|]. eauto.
    + destruct (IS j Hj) as (p' & Hp' & H). exists p'. split; [done|].
      unfold slot_ok in *. cbn [q_mask q_seq q_val q_enq q_deq q_th].
      rewrite list_lookup_insert_ne by congruence.
      destruct H as [H|[(H1 & H2 & k & pck & H3 & H4)|[H|(H1 & H2 & H5 & k & pck & H3 & H4)]]].
      * left. done.
      * right; left. split; [done|]. split; [done|].
        eapply (claim_keep QIdle); [done..|]. rewrite Cl. congruence.
      * right; right; left. done.
      * right; right; right. split; [done|]. split; [done|]. split; [done|].
        eapply (claim_keep QIdle); [done..|]. by rewrite Cl.
  - intros j pcj H. apply th_insert in H as [[-> ->]|[Hn H]].
    + split; [done|]. cbn. by rewrite fn_lookup_insert.
    + rewrite fn_lookup_insert_ne by done. destruct (IT _ _ H) as [P S]. split; [|done].
      pose proof (CC j pcj) as CJ.
      destruct pcj; try done; cbn in *.
      * destruct P as [P1 P2]. split; [done|]. intros E. rewrite list_lookup_insert_ne; [by apply P2|].
        intros E2. specialize (P2 E). rewrite <- E2, Hseq in P2. injection P2 as P2. lia.
      * rewrite list_lookup_insert_ne; [done|]. intros E; eapply CJ; eauto.
      * rewrite list_lookup_insert_ne; [done|]. intros E; eapply CJ; eauto.
      * destruct P as [P1 P2]. split; [done|]. intros E. rewrite list_lookup_insert_ne; [by apply P2|].
        intros E2. specialize (P2 E). rewrite <- E2, Hseq in P2. injection P2 as P2.
        by eapply (mod_neq_succ cap p pos).
      * rewrite list_lookup_insert_ne; [done|]. intros E; eapply CJ; eauto.
      * rewrite list_lookup_insert_ne; [done|]. intros E; eapply CJ; eauto.
  - apply uniq_keep. done.
Qed.

Lemma minv_take p : pc = PoTake p ->
  exists v, q_val s !! (p mod cap) = Some (Some v) /\ f i = APopped v /\
  minv cap log (mkMq (q_mask s) (q_seq s) (<[p mod cap := None]> (q_val s)) (q_enq s) (q_deq s)
      (<[i := PoStore p (Some v)]> (q_th s))) (q, f).
Proof using All.
  intros Epc. assert (Cl : claim pc = Some (false, p)) by (by rewrite Epc).
  pose proof (clash _ _ Cl) as CC.
  pose proof Hi as Hi'. rewrite Epc in Hi'. pose proof I as [IC IM IL IP IG IS IT IU IQ]. simpl in IQ.
  destruct (IT _ _ Hi') as [(Hp & He & Hseq & v & Hl & Hv) Hst]. destruct IC as [C2 CL].
  cbn in Hst. destruct Hst as (v' & Hl' & Hst). assert (v' = v) as -> by congruence.
  exists v. split; [done|]. split; [done|].
  assert (Hlt : p mod cap < length (q_val s)) by (rewrite (proj2 IL); apply Nat.mod_upper_bound; lia).
  split; cbn [q_mask q_seq q_val q_enq q_deq q_th fst snd]; try done.
  - by rewrite insert_length.
  - intros j Hj. destruct (IS j Hj) as (p' & Hp' & H). exists p'. split; [done|].
    unfold slot_ok in *. cbn [q_mask q_seq q_val q_enq q_deq q_th].
    destruct H as [H|[(H1 & H2 & k & pck & H3 & H4)|[(H1 & H2 & w & H3 & H4)|(H1 & H2 & H5 & k & pck & H3 & H4)]]].
    + left. done.
    + right; left. split; [done|]. split; [done|].
      eapply (claim_keep (PoStore p (Some v))); [done..|]. by rewrite Epc.
    + right; right; left. split; [done|]. split; [done|]. exists w. split; [|done].
      rewrite list_lookup_insert_ne; [done|]. intros E. rewrite <- E, Hseq in H1. injection H1 as H1. lia.
    + right; right; right. split; [done|]. split; [done|]. split; [done|].
      eapply (claim_keep (PoStore p (Some v))); [done..|]. by rewrite Epc.
  - intros j pcj H. apply th_insert in H as [[-> ->]|[Hn H]].
    + split; [|by exists v]. cbn. eauto 8.
    + destruct (IT _ _ H) as [P S]. split; [|done].
      pose proof (CC j pcj) as CJ.
      destruct pcj; try done; cbn in *; (rewrite list_lookup_insert_ne; [done|]);
        intros E; eapply CJ; eauto.
  - apply uniq_keep. rewrite Epc. done.
Qed.

Lemma minv_free p r : pc = PoStore p r ->
  exists v, r = Some v /\ f i = APopped v /\
  minv cap log (mkMq (q_mask s) (<[p mod cap := p + q_mask s + 1]> (q_seq s)) (q_val s) (q_enq s) (q_deq s)
      (<[i := QIdle]> (q_th s))) (q, <[i := AIdle]> f).
Proof using All.
  intros Epc. assert (Cl : claim pc = Some (false, p)) by (by rewrite Epc).
  pose proof (clash _ _ Cl) as CC.
  pose proof Hi as Hi'. rewrite Epc in Hi'. pose proof I as [IC IM IL IP IG IS IT IU IQ]. simpl in IQ.
  destruct (IT _ _ Hi') as [(Hp & He & Hseq & v & Hl & Hv) Hst]. destruct IC as [C2 CL].
  cbn in Hst. destruct Hst as (v' & Hl' & Hst). assert (v' = v) as -> by congruence.
  exists v. split; [done|]. split; [done|].
  replace (p + q_mask s + 1) with (p + cap) by lia.
  assert (Hlt : p mod cap < length (q_seq s)) by (rewrite (proj1 IL); apply Nat.mod_upper_bound; lia).
  assert (EM : (p + cap) mod cap = p mod cap).
  { rewrite <- (Nat.mul_1_l cap) at 1. by rewrite Nat.mod_add by lia. }
  split; cbn [q_mask q_seq q_val q_enq q_deq q_th fst snd]; try done.
  - by rewrite insert_length.
  - intros j Hj. destruct (decide (j = p mod cap)) as [->|Hnj].
    + exists (p + cap). split; [done|]. left. cbn. rewrite EM. split; [by apply list_lookup_insert|]. lia.
    + destruct (IS j Hj) as (p' & Hp' & H). exists p'. split; [done|].
      unfold slot_ok in *. cbn [q_mask q_seq q_val q_enq q_deq q_th].
      rewrite list_lookup_insert_ne by congruence.
      destruct H as [H|[(H1 & H2 & k & pck & H3 & H4)|[H|(H1 & H2 & H5 & k & pck & H3 & H4)]]].
      * left. done.
      * right; left. split; [done|]. split; [done|].
        eapply (claim_keep QIdle); [done..|]. by rewrite Cl.
      * right; right; left. done.
      * right; right; right. split; [done|]. split; [done|]. split; [done|].
        eapply (claim_keep QIdle); [done..|]. rewrite Cl. congruence.
  - intros j pcj H. apply th_insert in H as [[-> ->]|[Hn H]].
    + split; [done|]. cbn. by rewrite fn_lookup_insert.
    + rewrite fn_lookup_insert_ne by done. destruct (IT _ _ H) as [P S]. split; [|done].
      pose proof (CC j pcj) as CJ.
      destruct pcj; try done; cbn in *.
      * destruct P as [P1 P2]. split; [done|]. intros E. rewrite list_lookup_insert_ne; [by apply P2|].
        intros E2. specialize (P2 E). rewrite <- E2, Hseq in P2. injection P2 as P2.
        by eapply (mod_neq_succ cap pos p).
      * rewrite list_lookup_insert_ne; [done|]. intros E; eapply CJ; eauto.
      * rewrite list_lookup_insert_ne; [done|]. intros E; eapply CJ; eauto.
      * destruct P as [P1 P2]. split; [done|]. intros E. rewrite list_lookup_insert_ne; [by apply P2|].
        intros E2. specialize (P2 E). rewrite <- E2, Hseq in P2. injection P2 as P2. lia.
      * rewrite list_lookup_insert_ne; [done|]. intros E; eapply CJ; eauto.
      * rewrite list_lookup_insert_ne; [done|]. intros E; eapply CJ; eauto.
  - apply uniq_keep. done.
Qed.

(** A slot found behind: the queue is full or a pop is under way. *)
Lemma push_refused pos x : pos <= q_enq s -> q_seq s !! (pos mod cap) = Some x -> x < pos ->
  length q = cap \/ exists j w, f j = APopped w.
Proof using All.
  intros Hpos Hx Hlt. pose proof I as [IC IM IL IP IG IS IT IU IQ]. simpl in IQ. destruct IC as [C2 _].
  assert (Hlq : length q = q_enq s - q_deq s) by (rewrite IQ, drop_length; lia).
  destruct (slot_at pos) as (p' & Hp' & Hs). unfold slot_ok in Hs. rewrite Hp', Hx in Hs.
  destruct Hs as [[E H]|[(E & H & _)|[(E & H & v & H3 & H4)|(E & H & H' & k & pck & H3 & H4)]]]; injection E as E.
  - lia.
  - left. pose proof (mod_eq_close cap p' pos Hp' ltac:(lia) ltac:(lia)). lia.
  - left. pose proof (mod_eq_close cap p' pos Hp' ltac:(lia) ltac:(lia)). lia.
  - right. destruct (IT _ _ H3) as [_ S]. simpl in S. exists k.
    destruct pck; cbn in *; try done; destruct S as (w & _ & S); eauto.
Qed.

Lemma pop_refused pos x : pos <= q_deq s -> q_seq s !! (pos mod cap) = Some x -> x < pos + 1 ->
  q = [] \/ exists j, f j = APushed.
Proof using All.
  intros Hpos Hx Hlt. pose proof I as [IC IM IL IP IG IS IT IU IQ]. simpl in IQ. destruct IC as [C2 _].
  assert (Hq : q_enq s <= q_deq s -> q = []) by (intros; rewrite IQ; apply drop_ge; lia).
  destruct (slot_at pos) as (p' & Hp' & Hs). unfold slot_ok in Hs. rewrite Hp', Hx in Hs.
  destruct Hs as [[E H]|[(E & H & k & pck & H3 & H4)|[(E & H & v & H3 & H4)|(E & H & H' & k & pck & H3 & H4)]]]; injection E as E.
  - left. apply Hq. lia.
  - right. destruct (IT _ _ H3) as [_ S]. simpl in S. exists k. destruct pck; cbn in *; done.
  - lia.
  - left. apply Hq. pose proof (mod_eq_close cap p' pos Hp' ltac:(lia) ltac:(lia)). lia.
Qed.
End step.

Lemma minv_step {V} cap (log : list V) s a i act s' es :
  minv cap log s a -> q_step s i act = Some (s', es) ->
  exists log' a', aq_steps cap a es a' /\ minv cap log' s' a'.
Proof.
  intros I E. destruct a as [q f]. unfold q_step in E.
  destruct (q_th s !! i) as [pc|] eqn:Hi; [|done].
  destruct (q_exec s i pc act) as [[[[[[sq vs] enq] deq] pc'] e]|] eqn:Ex; [|done].
  injection E as <- <-.
  pose proof (mi_pc _ _ _ _ I _ _ Hi) as [P S]. simpl in S.
  pose proof (mi_cap _ _ _ _ I) as [C2 CL].
  assert (LT : forall p, p mod cap < length (q_seq s)).
  { intros p. rewrite (proj1 (mi_len _ _ _ _ I)). apply Nat.mod_upper_bound. lia. }
  destruct s as [mask sq0 vs0 enq0 deq0 th]. cbn [q_mask q_seq q_val q_enq q_deq q_th] in *.
  unfold q_exec in Ex.
  assert (LOC : forall pc'' f', claim pc = None -> claim pc'' = None ->
     pc_ok cap (mkMq mask sq0 vs0 enq0 deq0 th) log pc'' -> stat_of log pc'' (f' i) ->
     (forall j, j <> i -> f' j = f j) -> minv cap log (mkMq mask sq0 vs0 enq0 deq0 (<[i:=pc'']> th)) (q, f'))
    by (intros; by eapply (minv_local cap log _ q f I i pc Hi)).
  destruct pc, act; try discriminate Ex.
  - destruct c; injection Ex as <- <- <- <- <- <-; cbn in S.
    + exists log, (q, <[i := APush v]> f). split.
      * eapply AQ_cons; [by apply A_push|apply AQ_nil].
      * apply LOC; try done; [cbn; by rewrite fn_lookup_insert|]. intros. by rewrite fn_lookup_insert_ne.
    + exists log, (q, <[i := APop]> f). split.
      * eapply AQ_cons; [by apply A_pop|apply AQ_nil].
      * apply LOC; try done; [cbn; by rewrite fn_lookup_insert|]. intros. by rewrite fn_lookup_insert_ne.
  - injection Ex as <- <- <- <- <- <-. exists log, (q, f). split; [apply AQ_nil|].
    apply LOC; try done. cbn. lia.
  - rewrite CL in Ex. destruct (sq0 !! (pos mod cap)) as [x|] eqn:Ex0.
    2: { apply lookup_ge_None in Ex0. specialize (LT pos). lia. }
    destruct (Z.eqb_spec (Z.of_nat x - Z.of_nat pos) 0) as [D|D].
    { injection Ex as <- <- <- <- <- <-. exists log, (q, f). split; [apply AQ_nil|].
      apply LOC; try done. cbn in *. split; [done|]. intros _. rewrite Ex0. f_equal. lia. }
    destruct (Z.ltb_spec (Z.of_nat x - Z.of_nat pos) 0) as [D'|D'].
    { injection Ex as <- <- <- <- <- <-. cbn in S. exists log, (q, <[i := AIdle]> f). split.
      - eapply AQ_cons; [|apply AQ_nil]. apply A_push_full; [done|].
        eapply (push_refused cap log _ q f I i _ Hi pos x); [done|done|lia].
      - apply LOC; try done; [cbn; by rewrite fn_lookup_insert|]. intros. by rewrite fn_lookup_insert_ne. }
    injection Ex as <- <- <- <- <- <-. exists log, (q, f). split; [apply AQ_nil|]. by apply LOC.
  - destruct (Nat.eqb_spec enq0 pos) as [<-|Hn].
    + injection Ex as <- <- <- <- <- <-. cbn in S.
      destruct (minv_push_claim cap log _ q f I i _ Hi v eq_refl) as (L1 & _ & J).
      eexists _, _. split; [|exact J]. eapply AQ_cons; [by apply A_push_in|apply AQ_nil].
    + injection Ex as <- <- <- <- <- <-. exists log, (q, f). split; [apply AQ_nil|].
      apply LOC; try done. cbn. lia.
  - injection Ex as <- <- <- <- <- <-. exists log, (q, f). split; [apply AQ_nil|].
    apply LOC; try done. cbn. lia.
  - injection Ex as <- <- <- <- <- <-. exists log, (q, f). split; [apply AQ_nil|].
    rewrite CL. exact (minv_write cap log _ q f I i _ Hi v pos eq_refl).
  - injection Ex as <- <- <- <- <- <-. exists log, (q, <[i := AIdle]> f). split.
    + eapply AQ_cons; [by apply A_push_ok|apply AQ_nil].
    + rewrite CL. exact (minv_store cap log _ q f I i _ Hi pos eq_refl).
  - injection Ex as <- <- <- <- <- <-. exists log, (q, f). split; [apply AQ_nil|].
    apply LOC; try done. cbn. lia.
  - rewrite CL in Ex. destruct (sq0 !! (pos mod cap)) as [x|] eqn:Ex0.
    2: { apply lookup_ge_None in Ex0. specialize (LT pos). lia. }
    destruct (Z.eqb_spec (Z.of_nat x - Z.of_nat (pos + 1)) 0) as [D|D].
    { injection Ex as <- <- <- <- <- <-. exists log, (q, f). split; [apply AQ_nil|].
      apply LOC; try done. cbn in *. split; [done|]. intros _. rewrite Ex0. f_equal. lia. }
    destruct (Z.ltb_spec (Z.of_nat x - Z.of_nat (pos + 1)) 0) as [D'|D'].
    { injection Ex as <- <- <- <- <- <-. cbn in S. exists log, (q, <[i := AIdle]> f). split.
      - eapply AQ_cons; [|apply AQ_nil]. apply A_pop_none; [done|].
        eapply (pop_refused cap log _ q f I i _ Hi pos x); [done|done|lia].
      - apply LOC; try done; [cbn; by rewrite fn_lookup_insert|]. intros. by rewrite fn_lookup_insert_ne. }
    injection Ex as <- <- <- <- <- <-. exists log, (q, f). split; [apply AQ_nil|]. by apply LOC.
  - destruct (Nat.eqb_spec deq0 pos) as [<-|Hn].
    + injection Ex as <- <- <- <- <- <-. cbn in S.
      destruct (minv_pop_claim cap log _ q f I i _ Hi eq_refl) as (v & q' & -> & J).
      eexists _, _. split; [|exact J]. eapply AQ_cons; [by apply A_pop_out|apply AQ_nil].
    + injection Ex as <- <- <- <- <- <-. exists log, (q, f). split; [apply AQ_nil|].
      apply LOC; try done. cbn. lia.
  - injection Ex as <- <- <- <- <- <-. exists log, (q, f). split; [apply AQ_nil|].
    apply LOC; try done. cbn. lia.
  - destruct (minv_take cap log _ q f I i _ Hi pos eq_refl) as (v & Hv & Hf & J).
    cbn [q_mask q_seq q_val q_enq q_deq q_th] in *. rewrite CL, Hv in Ex.
    injection Ex as <- <- <- <- <- <-. exists log, (q, f). split; [apply AQ_nil|]. exact J.
  - destruct (minv_free cap log _ q f I i _ Hi pos r eq_refl) as (v & -> & Hf & J).
    cbn [q_mask q_seq q_val q_enq q_deq q_th] in *. rewrite CL in Ex.
    injection Ex as <- <- <- <- <- <-. exists log, (q, <[i := AIdle]> f). split; [|exact J].
    eapply AQ_cons; [by apply A_pop_some|apply AQ_nil].
Qed.

Lemma aq_steps_app {V} cap (a b c : list V * (nat -> astat V)) es es' :
  aq_steps cap a es b -> aq_steps cap b es' c -> aq_steps cap a (es ++ es') c.
Proof. induction 1 as [|a e b es d H _ IH]; intros H'; simpl; [done|]. eapply AQ_cons; [done|]. by apply IH. Qed.

Lemma minv_run {V} cap (log : list V) s a l s' es :
  minv cap log s a -> q_run s l = Some (s', es) ->
  exists log' a', aq_steps cap a es a' /\ minv cap log' s' a'.
Proof.
  revert log s a es. induction l as [|[i act] l IH]; intros log s a es I E; simpl in E.
  - injection E as <- <-. exists log, a. split; [apply AQ_nil|done].
  - destruct (q_step s i act) as [[s1 e1]|] eqn:E1; [|done].
    destruct (q_run s1 l) as [[s2 e2]|] eqn:E2; [|done]. injection E as <- <-.
    destruct (minv_step _ _ _ _ _ _ _ _ I E1) as (log1 & a1 & S1 & I1).
    destruct (IH _ _ _ _ I1 E2) as (log2 & a2 & S2 & I2).
    exists log2, a2. split; [|done]. by eapply aq_steps_app.
Qed.

(** ** C27 *)

(** For every capacity, number of threads, item type, sequence of calls and interleaving,
    what can be seen of an execution is a behaviour of the bounded FIFO queue of the
    specification, whose capacity is the rounded one. *)
Theorem C27_bounded_fifo V c n l (s : mq V) es :
  q_run (mq_init V c n) l = Some (s, es) ->
  exists q f, aq_steps (round_capacity c) aq_init es (q, f) /\ length q <= round_capacity c.
Proof.
  intros E. destruct (minv_run _ _ _ _ _ _ _ (minv_init V c n) E) as (log & [q f] & S & I).
  exists q, f. split; [done|].
  pose proof (mi_q _ _ _ _ I) as Q. simpl in Q. rewrite Q, drop_length, (mi_log _ _ _ _ I).
  pose proof (mi_pos _ _ _ _ I). lia.
Qed.

(** Items: what pops return is, in the order in which the pops took effect, a prefix of
    what pushes put in, in the order in which they took effect: nothing is lost,
    duplicated, invented or reordered. *)
Fixpoint put_in {V} (f : nat -> option V) (es : list (qev V)) : list V :=
  match es with
  | [] => []
  | ECall i (CPush v) :: es => put_in (<[i := Some v]> f) es
  | ECall i CPop :: es => put_in (<[i := None]> f) es
  | EClaim i :: es => match f i with Some v => v :: put_in f es | None => put_in f es end
  | ERet i _ :: es => put_in f es
  end.

Fixpoint returned {V} (es : list (qev V)) : list V :=
  match es with
  | [] => []
  | ERet _ (RItem v) :: es => v :: returned es
  | _ :: es => returned es
  end.

(** [pend]: the items taken by pops that have not returned yet. *)
Definition in_flight {V} (f : nat -> astat V) (pend : list (nat * V)) : Prop :=
  NoDup pend.*1 /\ forall i v, (i, v) ∈ pend <-> f i = APopped v.

Lemma in_flight_other {V} (f : nat -> astat V) pend i st : in_flight f pend ->
  (forall v, f i <> APopped v) -> (forall v, st <> APopped v) -> in_flight (<[i := st]> f) pend.
Proof.
  intros [N H] Hf Hs. split; [done|]. intros j v. destruct (decide (j = i)) as [->|Hn].
  - rewrite fn_lookup_insert. rewrite H. split; intros E; [by apply Hf in E|by apply Hs in E].
  - rewrite fn_lookup_insert_ne by done. apply H.
Qed.
Lemma in_flight_take {V} (f : nat -> astat V) pend i v : in_flight f pend ->
  f i = APop -> in_flight (<[i := APopped v]> f) ((i, v) :: pend).
Proof.
  intros [N H] Hf. split.
  - simpl. apply stdpp.list.NoDup_cons. split; [|done]. intros Hi. apply elem_of_list_fmap in Hi as ([j w] & E & Hj).
    simpl in E. subst j. apply H in Hj. congruence.
  - intros j w. rewrite elem_of_cons. destruct (decide (j = i)) as [->|Hn].
    + rewrite fn_lookup_insert. rewrite H. split; [intros [E|E]; congruence|intros [= ->]; by left].
    + rewrite fn_lookup_insert_ne by done. rewrite H. split; [intros [E|E]; congruence|by right].
Qed.
Lemma in_flight_ret {V} (f : nat -> astat V) pend i v : in_flight f pend -> f i = APopped v ->
  exists pend', pend ≡ₚ (i, v) :: pend' /\ in_flight (<[i := AIdle]> f) pend'.
Proof.
  intros [N H] Hf. apply H in Hf. apply elem_of_Permutation in Hf as [pend' P].
  exists pend'. split; [done|]. rewrite P in N. simpl in N. apply stdpp.list.NoDup_cons in N as [Ni N].
  split; [done|]. intros j w. destruct (decide (j = i)) as [->|Hn].
  - rewrite fn_lookup_insert. split; [|done]. intros Hj. exfalso. apply Ni.
    apply elem_of_list_fmap. by exists (i, w).
  - rewrite fn_lookup_insert_ne by done. rewrite <- H, P, elem_of_cons. split; [by right|].
    intros [E|E]; [congruence|done].
Qed.

Lemma conservation {V} cap (a b : list V * (nat -> astat V)) es (g : nat -> option V) pend :
  aq_steps cap a es b -> (forall i, match a.2 i with APush v => g i = Some v | APop => g i = None | _ => True end) ->
  in_flight a.2 pend ->
  exists pend', in_flight b.2 pend' /\
    returned es ++ pend'.*2 ++ b.1 ≡ₚ pend.*2 ++ a.1 ++ put_in g es.
Proof.
  intros H. revert g pend. induction H as [a|a e b es c H _ IH]; intros g pend G F.
  - exists pend. split; [done|]. simpl. by rewrite app_nil_r.
  - assert (KEEP : forall i st f, match st with APush _ | APop => False | _ => True end ->
       (forall i, match f i with APush v => g i = Some v | APop => g i = None | _ => True end) ->
       forall j, match <[i := st]> f j with APush v => g j = Some v | APop => g j = None | _ => True end).
    { intros i st f Hst Hf j. destruct (decide (j = i)) as [->|].
      - rewrite fn_lookup_insert. by destruct st.
      - rewrite fn_lookup_insert_ne by done. apply Hf. }
    destruct H as [q f i v Hf|q f i Hf|q f i v Hf Hl|q f i v Hf|q f i Hf|q f i v Hf Hx|q f i v Hf|q f i Hf Hx];
      cbn [fst snd] in *.
    + destruct (IH (<[i := Some v]> g) pend) as (tk & E & R); [| |by exists tk].
      * intros j. destruct (decide (j = i)) as [->|]; [by rewrite !fn_lookup_insert|].
        rewrite !fn_lookup_insert_ne by done. apply G.
      * apply in_flight_other; [done|by rewrite Hf|done].
    + destruct (IH (<[i := None]> g) pend) as (tk & E & R); [| |by exists tk].
      * intros j. destruct (decide (j = i)) as [->|]; [by rewrite !fn_lookup_insert|].
        rewrite !fn_lookup_insert_ne by done. apply G.
      * apply in_flight_other; [done|by rewrite Hf|done].
    + destruct (IH g pend) as (tk & E & R); [by apply KEEP|apply in_flight_other; [done|by rewrite Hf|done]|].
      pose proof (G i) as Gi. rewrite Hf in Gi. cbn [put_in returned]. rewrite Gi.
      exists tk. split; [done|]. rewrite R. by rewrite <- app_assoc.
    + destruct (IH g ((i, v) :: pend)) as (tk & E & R); [by apply KEEP|by apply in_flight_take|].
      pose proof (G i) as Gi. rewrite Hf in Gi. cbn [put_in returned]. rewrite Gi.
      exists tk. split; [done|]. rewrite R. rewrite fmap_cons. cbn [app fst snd]. apply Permutation_middle.
    + destruct (IH g pend) as (tk & E & R); [by apply KEEP|apply in_flight_other; [done|by rewrite Hf|done]|].
      by exists tk.
    + destruct (IH g pend) as (tk & E & R); [by apply KEEP|apply in_flight_other; [done|by rewrite Hf|done]|].
      by exists tk.
    + destruct (in_flight_ret _ _ _ _ F Hf) as (pend' & P & F').
      destruct (IH g pend') as (tk & E & R); [by apply KEEP|done|].
      exists tk. split; [done|]. cbn [returned put_in]. rewrite P, fmap_cons. cbn [app fst snd]. by rewrite R.
    + destruct (IH g pend) as (tk & E & R); [by apply KEEP|apply in_flight_other; [done|by rewrite Hf|done]|].
      by exists tk.
Qed.

(** The items returned by pops, those taken by pops still running and those in the queue
    are together exactly the items put in by pushes, each as often as it was put in. *)
Theorem C27_no_loss_no_duplication V c n l (s : mq V) es :
  q_run (mq_init V c n) l = Some (s, es) ->
  exists q f pend, aq_steps (round_capacity c) aq_init es (q, f) /\ in_flight f pend /\
    returned es ++ pend.*2 ++ q ≡ₚ put_in (fun _ => None) es.
Proof.
  intros E. destruct (C27_bounded_fifo _ _ _ _ _ _ E) as (q & f & S & _).
  destruct (conservation _ _ _ _ (fun _ => None) [] S) as (pend & F & P).
  - done.
  - split; [constructor|]. intros i v. simpl. split; [|done]. intros H. by apply elem_of_nil in H.
  - eauto 8.
Qed.

(** No two threads access the value of the same slot at the same time, and no index is out
    of bounds. *)
Definition accesses {V} (s : mq V) (i idx : nat) : Prop :=
  exists p, Nat.land p (q_mask s) = idx /\
    ((exists v, q_th s !! i = Some (PuWrite v p)) \/ q_th s !! i = Some (PoTake p)).

Theorem C27_no_data_race V c n l (s : mq V) es i j idx :
  q_run (mq_init V c n) l = Some (s, es) -> accesses s i idx -> accesses s j idx -> i = j.
Proof.
  intros E (p & Hp & Ai) (p' & Hp' & Aj).
  destruct (minv_run _ _ _ _ _ _ _ (minv_init V c n) E) as (log & [q f] & S & I).
  pose proof (mi_cap _ _ _ _ I) as [_ CL]. rewrite CL in Hp, Hp'.
  assert (Ci : exists pc b, q_th s !! i = Some pc /\ claim pc = Some (b, p))
    by (destruct Ai as [[v A]|A]; eauto).
  assert (Cj : exists pc b, q_th s !! j = Some pc /\ claim pc = Some (b, p'))
    by (destruct Aj as [[v A]|A]; eauto).
  destruct Ci as (pci & bi & Hi & Ci), Cj as (pcj & bj & Hj & Cj).
  eapply (idx_clash _ _ _ _ _ I i pci Hi i j); [done..|congruence].
Qed.

Theorem C27_no_panic V c n l (s : mq V) es i :
  q_run (mq_init V c n) l = Some (s, es) -> q_th s !! i <> Some QPanic.
Proof.
  intros E H. destruct (minv_run _ _ _ _ _ _ _ (minv_init V c n) E) as (log & [q f] & S & I).
  by destruct (mi_pc _ _ _ _ I _ _ H) as [P _].
Qed.

(** A thread running while no other operation is under way: push succeeds if and only if
    there is room, pop returns the oldest item if there is one. *)
Theorem C27_alone V c n l (s : mq V) es i v :
  q_run (mq_init V c n) l = Some (s, es) -> (forall j pc, q_th s !! j = Some pc -> pc = QIdle) ->
  i < length (q_th s) ->
  exists q f, aq_steps (round_capacity c) aq_init es (q, f) /\
  (exists s', if decide (length q < round_capacity c)
    then q_run s ((i, QCall (CPush v)) :: replicate 5 (i, QStep)) =
         Some (s', [ECall i (CPush v); EClaim i; ERet i ROk])
    else q_run s ((i, QCall (CPush v)) :: replicate 2 (i, QStep)) =
         Some (s', [ECall i (CPush v); ERet i (RFull v)])) /\
  (exists s', match q with
    | w :: _ => q_run s ((i, QCall CPop) :: replicate 5 (i, QStep)) =
         Some (s', [ECall i CPop; EClaim i; ERet i (RItem w)])
    | [] => q_run s ((i, QCall CPop) :: replicate 2 (i, QStep)) =
         Some (s', [ECall i CPop; ERet i REmpty])
    end).
Proof.
  intros E Idle Hi.
  destruct (minv_run _ _ _ _ _ _ _ (minv_init V c n) E) as (log & [q f] & S & I).
  exists q, f. split; [done|].
  destruct (lookup_lt_is_Some_2 _ _ Hi) as [pc Hpc]. rewrite (Idle _ _ Hpc) in Hpc. clear pc.
  set (cap := round_capacity c) in *. clearbody cap.
  pose proof I as [IC IM IL IP IG IS IT IU IQ]. destruct IC as [C2 CL]. simpl in IQ.
  assert (SL : forall p, exists p', p' mod cap = p mod cap /\
     ((q_seq s !! (p mod cap) = Some p' /\ q_enq s <= p' < q_deq s + cap) \/
      (q_seq s !! (p mod cap) = Some (p' + 1) /\ q_deq s <= p' < q_enq s /\
       exists v, q_val s !! (p mod cap) = Some (Some v) /\ log !! p' = Some v))).
  { intros p. destruct (slot_at cap log s q f I i _ Hpc p) as (p' & Hp' & H). exists p'. split; [done|].
    unfold slot_ok in H. rewrite Hp' in H.
    destruct H as [H|[(H1 & H2 & k & pck & H3 & H4)|[H|(H1 & H2 & H5 & k & pck & H3 & H4)]]].
    - by left.
    - rewrite (Idle _ _ H3) in H4. done.
    - by right.
    - rewrite (Idle _ _ H3) in H4. done. }
  assert (Hlq : length q = q_enq s - q_deq s) by (rewrite IQ, drop_length; lia).
  destruct s as [mask sq vs enq deq th]. cbn [q_mask q_seq q_val q_enq q_deq q_th] in *.
  split.
  - destruct (SL enq) as (p' & Hp' & Hs). destruct (decide (length q < cap)) as [Hr|Hr].
    + assert (q_s : sq !! (enq mod cap) = Some enq).
      { destruct Hs as [[H1 H2]|(H1 & H2 & _)].
        - destruct (decide (p' = enq)) as [->|Hne]; [done|].
          pose proof (mod_eq_close cap enq p' ltac:(done) ltac:(lia) ltac:(lia)). lia.
        - pose proof (mod_eq_close cap p' enq ltac:(done) ltac:(lia) ltac:(lia)). lia. }
      eexists. unfold q_run, q_step, replicate. cbn [q_th].
      rewrite Hpc. cbn -[Nat.land lookup insert]. 
      rewrite list_lookup_insert by done. cbn -[Nat.land lookup insert]. rewrite list_insert_insert.
      rewrite list_lookup_insert by done. cbn -[Nat.land lookup insert].
      rewrite CL, q_s, Z.sub_diag. cbn -[Nat.land lookup insert]. rewrite list_insert_insert.
      rewrite list_lookup_insert by done. cbn -[Nat.land lookup insert].
      rewrite Nat.eqb_refl. cbn -[Nat.land lookup insert]. rewrite list_insert_insert.
      rewrite list_lookup_insert by done. cbn -[Nat.land lookup insert]. rewrite list_insert_insert.
      rewrite list_lookup_insert by done. cbn -[Nat.land lookup insert]. reflexivity.
    + assert (q_s : exists x, sq !! (enq mod cap) = Some x /\ x < enq).
      { destruct Hs as [[H1 H2]|(H1 & H2 & _)]; [lia|]. exists (p' + 1). split; [done|].
        destruct (decide (p' + 1 = enq)) as [Ex|]; [|lia]. exfalso.
        eapply (mod_neq_succ cap enq p'); [done|done|lia]. }
      destruct q_s as (x & q_s & Hx).
      eexists. unfold q_run, q_step, replicate. cbn [q_th].
      rewrite Hpc. cbn -[Nat.land lookup insert].
      rewrite list_lookup_insert by done. cbn -[Nat.land lookup insert]. rewrite list_insert_insert.
      rewrite list_lookup_insert by done. cbn -[Nat.land lookup insert].
      rewrite CL, q_s. 
      destruct (Z.eqb_spec (Z.of_nat x - Z.of_nat enq) 0); [lia|].
      destruct (Z.ltb_spec (Z.of_nat x - Z.of_nat enq) 0); [|lia]. reflexivity.
  - destruct (SL deq) as (p' & Hp' & Hs). destruct q as [|w q].
    + simpl in Hlq. assert (q_s : exists x, sq !! (deq mod cap) = Some x /\ x < deq + 1).
      { destruct Hs as [[H1 H2]|(H1 & H2 & _)]; [|lia]. exists p'. split; [done|].
        destruct (decide (p' < deq + 1)); [done|].
        pose proof (mod_eq_close cap deq p' ltac:(done) ltac:(lia) ltac:(lia)). lia. }
      destruct q_s as (x & q_s & Hx).
      eexists. unfold q_run, q_step, replicate. cbn [q_th].
      rewrite Hpc. cbn -[Nat.land lookup insert].
      rewrite list_lookup_insert by done. cbn -[Nat.land lookup insert]. rewrite list_insert_insert.
      rewrite list_lookup_insert by done. cbn -[Nat.land lookup insert].
      rewrite CL, q_s.
      destruct (Z.eqb_spec (Z.of_nat x - Z.of_nat (deq + 1)) 0); [lia|].
      destruct (Z.ltb_spec (Z.of_nat x - Z.of_nat (deq + 1)) 0); [|lia]. reflexivity.
    + simpl in Hlq. assert (Hw : log !! deq = Some w).
      { pose proof (f_equal (lookup 0) IQ) as H. simpl in H. rewrite lookup_drop, Nat.add_0_r in H. done. }
      assert (q_s : sq !! (deq mod cap) = Some (deq + 1) /\ vs !! (deq mod cap) = Some (Some w)).
      { destruct Hs as [[H1 H2]|(H1 & H2 & v0 & H3 & H4)].
        - pose proof (mod_eq_close cap deq p' ltac:(done) ltac:(lia) ltac:(lia)). lia.
        - destruct (decide (p' = deq)) as [->|]; [split; [done|congruence]|].
          pose proof (mod_eq_close cap deq p' ltac:(done) ltac:(lia) ltac:(lia)). lia. }
      destruct q_s as [q_s q_v].
      eexists. unfold q_run, q_step, replicate. cbn [q_th].
      rewrite Hpc. cbn -[Nat.land lookup insert].
      rewrite list_lookup_insert by done. cbn -[Nat.land lookup insert]. rewrite list_insert_insert.
      rewrite list_lookup_insert by done. cbn -[Nat.land lookup insert].
      rewrite CL, q_s, Z.sub_diag. cbn -[Nat.land lookup insert]. rewrite list_insert_insert.
      rewrite list_lookup_insert by done. cbn -[Nat.land lookup insert].
      rewrite Nat.eqb_refl. cbn -[Nat.land lookup insert]. rewrite list_insert_insert.
      rewrite list_lookup_insert by done. cbn -[Nat.land lookup insert]. rewrite CL, q_v.
      cbn -[Nat.land lookup insert]. rewrite list_insert_insert.
      rewrite list_lookup_insert by done. cbn -[Nat.land lookup insert]. reflexivity.
Qed.

(** The queue is not linearizable as a whole: a pop can report an empty queue although a
    push has returned before the pop was called and nothing was popped, because an earlier
    push of another thread is still under way. *)
Theorem C27_empty_despite_completed_push_refuted : exists l s,
  q_run (mq_init nat 4 3) l = Some (s,
    [ECall 0 (CPush 10); EClaim 0; ECall 1 (CPush 20); EClaim 1; ERet 1 ROk; ECall 2 CPop; ERet 2 REmpty]).
Proof.
  exists ([(0, QCall (CPush 10)); (0, QStep); (0, QStep); (0, QStep);
          (1, QCall (CPush 20)); (1, QStep); (1, QStep); (1, QStep); (1, QStep); (1, QStep);
          (2, QCall CPop); (2, QStep); (2, QStep)]).
  eexists. vm_compute. reflexivity.
Qed.

(** An execution with contention, a spurious failure, a refused push and two items
    delivered in order. *)
Example C27_hyps_met : exists l s es,
  q_run (mq_init nat 1 2) l = Some (s, es) /\ returned es = [10; 20] /\
  In (ERet 1 (RFull 30)) es /\ (forall j pc, q_th s !! j = Some pc -> pc = QIdle).
Proof.
  exists ([(0, QCall (CPush 10)); (0, QStep); (0, QStep); (1, QCall (CPush 20)); (1, QStep); (1, QStep);
          (0, QSpurious); (0, QStep); (0, QStep); (1, QStep); (1, QStep); (1, QStep); (0, QStep); (0, QStep);
          (1, QStep); (1, QStep);
          (1, QCall (CPush 30)); (1, QStep); (1, QStep);
          (0, QCall CPop); (0, QStep); (0, QStep); (0, QStep); (0, QStep); (0, QStep);
          (1, QCall CPop); (1, QStep); (1, QStep); (1, QStep); (1, QStep); (1, QStep)]).
  eexists _, _. split; [vm_compute; reflexivity|]. split; [reflexivity|]. split; [simpl; tauto|].
  intros [|[|j]] pc H; simpl in H; by simplify_eq.
Qed.

Print Assumptions C27_capacity.
Print Assumptions C27_bounded_fifo.
Print Assumptions C27_no_loss_no_duplication.
Print Assumptions C27_no_data_race.
Print Assumptions C27_no_panic.
Print Assumptions C27_alone.
Print Assumptions C27_empty_despite_completed_push_refuted.
