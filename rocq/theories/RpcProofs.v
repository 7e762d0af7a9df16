(** Lemmas about copying messages and about the simulation of the byte queue by the queue of
    messages. *)
From Verif Require Import Base QueueModel QueueSpec QueueProps RpcModel RpcSpec.
From stdpp Require Import functions.

Lemma total_len_acc l n : foldl (fun acc (x : list N) => acc + length x) n l = n + length (concat l).
Proof.
  revert n. induction l as [|x l IH]; intros n; simpl; [lia|]. rewrite IH, app_length. lia.
Qed.
Lemma total_len_concat l : total_len l = length (concat l).
Proof. apply total_len_acc. Qed.

Lemma gather_spec sl : forall buf off, off + length (concat sl) <= length buf ->
  gather buf off sl = Some (take off buf ++ concat sl ++ drop (off + length (concat sl)) buf).
Proof.
  induction sl as [|d sl IH]; intros buf off H; cbn [gather concat] in *.
  - simpl. rewrite Nat.add_0_r. by rewrite take_drop.
  - rewrite app_length in H. unfold copy_at. destruct (Nat.leb_spec (off + length d) (length buf)); [|lia].
    rewrite IH.
    2: { rewrite !app_length, take_length, drop_length. lia. }
    f_equal. set (x := take off buf).
    assert (Lx : length x = off) by (unfold x; rewrite take_length; lia).
    rewrite take_add_app by done. rewrite take_app. rewrite <- !app_assoc. do 3 f_equal.
    rewrite <- Nat.add_assoc, drop_add_app by done. rewrite drop_add_app by done. rewrite drop_drop.
    f_equal. rewrite app_length. lia.
Qed.

Lemma fill_length bufs : forall m, map length (fill bufs m) = map length bufs.
Proof.
  induction bufs as [|b bufs IH]; intros m; simpl; [done|]. rewrite IH. f_equal.
  rewrite app_length, take_length, drop_length. lia.
Qed.
Lemma fill_concat bufs : forall m, length m <= length (concat bufs) ->
  concat (fill bufs m) = m ++ drop (length m) (concat bufs).
Proof.
  induction bufs as [|b bufs IH]; intros m H; simpl in *.
  - destruct m; [done|simpl in H; lia].
  - rewrite app_length in H. rewrite IH by (rewrite drop_length; lia).
    destruct (decide (length b <= length m)) as [L|L].
    + rewrite (drop_ge b) by lia. rewrite app_nil_r, app_assoc, take_drop.
      f_equal. rewrite drop_app_ge by lia. by rewrite drop_length.
    + rewrite (drop_ge m) by lia. rewrite (take_ge m) by lia. simpl. rewrite drop_0.
      rewrite <- app_assoc. f_equal. by rewrite drop_app_le by lia.
Qed.
Lemma fill_nil bufs : fill bufs [] = bufs.
Proof. induction bufs as [|b bufs IH]; simpl; [done|]. rewrite drop_nil, IH, take_nil. by rewrite drop_0. Qed.

Lemma scatter_spec src len : len <= length src -> forall fuel values vi tot,
  tot <= len -> vi <= length values -> len - tot <= length (concat (drop vi values)) ->
  length values - vi < fuel ->
  scatter fuel src len values vi 0 tot =
    Some (take vi values ++ fill (drop vi values) (drop tot (take len src))).
Proof.
  intros Hl. induction fuel as [|fuel IH]; intros values vi tot Ht Hv Hc Hf; [lia|].
  cbn [scatter]. destruct (Nat.ltb_spec tot len) as [Hlt|Hge].
  2: { rewrite (drop_ge (take len src)) by (rewrite take_length; lia). by rewrite fill_nil, take_drop. }
  destruct (values !! vi) as [v|] eqn:Ev.
  2: { apply lookup_ge_None in Ev. rewrite drop_ge in Hc by lia. simpl in Hc. lia. }
  pose proof (lookup_lt_Some _ _ _ Ev) as Hvl.
  rewrite (drop_S _ v) in * by done. cbn [concat fill] in *. rewrite app_length in Hc.
  destruct (Nat.leb_spec (0 + length v `min` (len - tot)) (length v)); [|lia].
  destruct (Nat.leb_spec (tot + length v `min` (len - tot)) (length src)); [|lia]. cbn [andb].
  set (n := length v `min` (len - tot)) in *.
  assert (Ln : length (take n (drop tot src)) = n) by (rewrite take_length, drop_length; unfold n; lia).
  assert (Lv : length (take 0 v ++ take n (drop tot src) ++ drop (0 + n) v) = length v)
    by (rewrite !app_length, Ln, drop_length; simpl; unfold n; lia).
  rewrite Lv. cbn [take app plus] in *.
  assert (Em : drop tot (take len src) = take (len - tot) (drop tot src)).
  { rewrite take_drop_commute. do 2 f_equal. lia. }
  assert (E1 : take n (drop tot src) = take (length v) (drop tot (take len src))).
  { rewrite Em, take_take. f_equal. }
  assert (E2 : drop n v = drop (length (drop tot (take len src))) v).
  { rewrite Em, take_length, drop_length. unfold n.
    destruct (decide (length v <= len - tot)).
    - rewrite !drop_ge by lia. done.
    - f_equal. lia. }
  destruct (Nat.eqb_spec n (length v)) as [En|En].
  - rewrite IH; [| unfold n; lia | rewrite insert_length; lia | | rewrite insert_length; lia].
    2: { rewrite drop_insert_gt by lia. unfold n. lia. }
    rewrite drop_insert_gt by lia. f_equal.
    rewrite (take_S_r _ _ (take n (drop tot src) ++ drop n v)) by (by apply list_lookup_insert).
    rewrite take_insert by lia. rewrite <- app_assoc. simpl. do 2 f_equal; [by rewrite <- E1, <- E2|].
    f_equal. rewrite drop_drop. f_equal. unfold n. lia.
  - assert (En' : n = len - tot) by (unfold n in *; lia).
    destruct fuel as [|fuel]; [lia|]. cbn [scatter].
    destruct (Nat.ltb_spec (tot + n) len); [lia|]. f_equal.
    rewrite (drop_ge (drop tot (take len src))) by (rewrite drop_length, take_length; unfold n in *; lia).
    rewrite fill_nil. rewrite <- E1, <- E2.
    rewrite <- (take_drop_middle _ _ _ Ev) at 1. 
    rewrite insert_app_r_alt by (rewrite take_length; lia).
    rewrite take_length, Nat.min_l by lia. rewrite Nat.sub_diag. done.
Qed.

Lemma scatter_fill src len bufs : len <= length src -> len <= length (concat bufs) ->
  scatter (S (len + length bufs)) src len bufs 0 0 0 = Some (fill bufs (take len src)).
Proof. intros. rewrite scatter_spec; try lia; [done|]. rewrite drop_0. lia. Qed.

(** ** Simulation *)

Definition small (esz : nat) (sl : list (list N)) : Prop := 0 < length (concat sl) <= esz.

Definition st_rel (x : astat (list N)) (y : bstat) : Prop :=
  match x, y with
  | AIdle, BIdle | AIdle, BDead => True
  | APush v, BPush m => v = m
  | APushed, BPushed => True
  | APop, BPop _ => True
  | APopped v, BPopped _ m => v = m
  | APopped v, BDeadWith m => v = m
  | _, _ => False
  end.

Definition pc_sim (esz : nat) (pc : spc) (pc' : qpc (list N)) (st : bstat) : Prop :=
  match pc, pc' with
  | SIdle, QIdle => st = BIdle
  | SuLoad sl, PuLoad v => v = concat sl /\ small esz sl
  | SuSeq sl p, PuSeq v p' => v = concat sl /\ small esz sl /\ p' = p
  | SuCas sl p, PuCas v p' => v = concat sl /\ small esz sl /\ p' = p
  | SuWrite sl p, PuWrite v p' => v = concat sl /\ small esz sl /\ p' = p
  | SuStore p, PuStore p' => p' = p
  | SoLoad b, PoLoad => st = BPop b
  | SoSeq b p, PoSeq p' => st = BPop b /\ p' = p
  | SoCas b p, PoCas p' => st = BPop b /\ p' = p
  | SoCopy b p, PoTake p' => (exists m, st = BPopped b m) /\ p' = p
  | SoStore p n b', PoStore p' r => exists b v, r = Some v /\ p' = p /\ st = BPopped b v /\
      n = length v /\ b' = fill b v /\ length v <= length (concat b)
  | SPanic, QIdle => True
  | SPanic, PoTake _ => True
  | _, _ => False
  end.

Record sim (esz : nat) (s : shq) (m : mq (list N)) (fb : nat -> bstat) : Prop := {
  si_mask : h_mask s = q_mask m; si_seq : h_seq s = q_seq m;
  si_enq : h_enq s = q_enq m; si_deq : h_deq s = q_deq m;
  si_nlen : length (h_node s) = length (q_val m);
  si_nd : forall j nd, h_node s !! j = Some nd -> length (nd_buf nd) = esz;
  si_val : forall j v, q_val m !! j = Some (Some v) -> exists nd, h_node s !! j = Some nd /\
    nd_len nd = N.of_nat (length v) /\ take (length v) (nd_buf nd) = v;
  si_tlen : length (h_th s) = length (q_th m);
  si_th : forall i pc, h_th s !! i = Some pc -> exists pc', q_th m !! i = Some pc' /\ pc_sim esz pc pc' (fb i) }.

Lemma sim_init esz c n : sim esz (shq_init esz c n) (mq_init (list N) c n) (fun _ => BIdle).
Proof.
  split; unfold shq_init, mq_init; cbn [h_mask h_seq h_node h_enq h_deq h_th q_mask q_seq q_val q_enq q_deq q_th];
    try done.
  - by rewrite !replicate_length.
  - intros j nd H. apply lookup_replicate in H as [-> _]. simpl. apply replicate_length.
  - intros j v H. by apply lookup_replicate in H as [? _].
  - by rewrite !replicate_length.
  - intros i pc H. apply lookup_replicate in H as [-> Hi]. exists QIdle. split; [|done].
    apply lookup_replicate. done.
Qed.

(** Threads after a step of thread [i]. *)
Lemma sim_threads esz s m fb i pc1 pc1' fb' :
  sim esz s m fb -> i < length (h_th s) -> pc_sim esz pc1 pc1' (fb' i) ->
  (forall j, j <> i -> fb' j = fb j) ->
  length (<[i := pc1]> (h_th s)) = length (<[i := pc1']> (q_th m)) /\
  forall j pc, <[i := pc1]> (h_th s) !! j = Some pc ->
    exists pc', <[i := pc1']> (q_th m) !! j = Some pc' /\ pc_sim esz pc pc' (fb' j).
Proof.
  intros S Hi P F. split; [rewrite !insert_length; apply (si_tlen _ _ _ _ S)|].
  intros j pc H. destruct (decide (j = i)) as [->|Hn].
  - rewrite list_lookup_insert in H by done. injection H as <-. exists pc1'. split; [|done].
    apply list_lookup_insert. by rewrite <- (si_tlen _ _ _ _ S).
  - rewrite list_lookup_insert_ne in H by done. rewrite list_lookup_insert_ne by done.
    rewrite F by done. by apply (si_th _ _ _ _ S).
Qed.

Definition nodes_ok (esz : nat) (nds : list node) (vs : list (option (list N))) : Prop :=
  length nds = length vs /\
  (forall j nd, nds !! j = Some nd -> length (nd_buf nd) = esz) /\
  (forall j v, vs !! j = Some (Some v) -> exists nd, nds !! j = Some nd /\
    nd_len nd = N.of_nat (length v) /\ take (length v) (nd_buf nd) = v).

Lemma sim_mk esz mask sq nds enq deq th vs th' fb i pc1 pc1' fb' sq1 nds1 vs1 enq1 deq1 :
  sim esz (mkShq mask sq nds enq deq th) (mkMq mask sq vs enq deq th') fb ->
  i < length th -> pc_sim esz pc1 pc1' (fb' i) -> (forall j, j <> i -> fb' j = fb j) ->
  nodes_ok esz nds1 vs1 ->
  sim esz (mkShq mask sq1 nds1 enq1 deq1 (<[i := pc1]> th)) (mkMq mask sq1 vs1 enq1 deq1 (<[i := pc1']> th')) fb'.
Proof.
  intros S Hi P F (N1 & N2 & N3).
  destruct (sim_threads _ _ _ _ i pc1 pc1' fb' S Hi P F) as [T1 T2]. by split.
Qed.

Lemma nodes_write esz nds vs j v nd buf :
  nodes_ok esz nds vs -> nds !! j = Some nd -> length buf = esz -> take (length v) buf = v ->
  nodes_ok esz (<[j := mkNode (N.of_nat (length v)) buf]> nds) (<[j := Some v]> vs).
Proof.
  intros (N1 & N2 & N3) Hj Hb Ht. pose proof (lookup_lt_Some _ _ _ Hj) as L. split; [|split].
  - by rewrite !insert_length.
  - intros k nd' H. destruct (decide (k = j)) as [->|].
    + rewrite list_lookup_insert in H by done. by injection H as <-.
    + rewrite list_lookup_insert_ne in H by done. by eapply N2.
  - intros k w H. destruct (decide (k = j)) as [->|].
    + rewrite list_lookup_insert in H by lia. injection H as <-. eexists.
      rewrite list_lookup_insert by done. done.
    + rewrite list_lookup_insert_ne in H by done. rewrite list_lookup_insert_ne by done. by apply N3.
Qed.

Lemma nodes_take esz nds vs j : nodes_ok esz nds vs -> nodes_ok esz nds (<[j := None]> vs).
Proof.
  intros (N1 & N2 & N3). split; [|split].
  - by rewrite insert_length.
  - done.
  - intros k w H. apply N3. apply list_lookup_insert_Some in H as [(-> & ? & _)|[_ H]]; done.
Qed.

(** Where the two systems are after a step. *)
Definition linked (esz cap : nat) (s : shq) (q : list (list N)) (fb : nat -> bstat) : Prop :=
  exists m log f, sim esz s m fb /\ minv cap log m (q, f) /\ forall i, st_rel (f i) (fb i).

Lemma bq_one esz cap a e b : bq_step esz cap a e b -> bq_steps esz cap a [e] b.
Proof. intros H. eapply BQ_cons; [exact H|apply BQ_nil]. Qed.

Lemma st_rel_upd f fb i x y : (forall j, st_rel (f j) (fb j)) -> st_rel x y ->
  forall j, st_rel ((<[i := x]> f : nat -> astat (list N)) j) ((<[i := y]> fb : nat -> bstat) j).
Proof.
  intros H Hx j. destruct (decide (j = i)) as [->|]; [by rewrite !fn_lookup_insert|].
  by rewrite !fn_lookup_insert_ne.
Qed.

Lemma aq_one {V} cap (a b : list V * (nat -> astat V)) e : aq_steps cap a [e] b -> aq_step cap a e b.
Proof. intros H. inversion H as [|? ? ? ? ? H1 H2]; subst. inversion H2; by subst. Qed.
Lemma aq_zero {V} cap (a b : list V * (nat -> astat V)) : aq_steps cap a [] b -> b = a.
Proof. intros H. by inversion H. Qed.

Lemma concat_nil_len (l : list (list N)) : length (concat l) = 0 <-> concat l = [].
Proof. split; [apply nil_length_inv|by intros ->]. Qed.

Lemma sim_step esz cap s q fb i a s' es : (N.of_nat esz < 65536)%N -> linked esz cap s q fb ->
  s_step esz s i a = Some (s', es) ->
  exists q' fb', bq_steps esz cap (q, fb) es (q', fb') /\ linked esz cap s' q' fb'.
Proof.
  intros He (m & log & f & Sm & I & R) E. unfold s_step in E.
  destruct (h_th s !! i) as [pc|] eqn:Hi; [|done].
  destruct (s_exec esz s i pc a) as [[[[[[sq1 nds1] enq1] deq1] pc1] e1]|] eqn:Ex; [|done].
  injection E as <- <-.
  destruct (si_th _ _ _ _ Sm _ _ Hi) as (pc' & Hi' & P).
  pose proof (lookup_lt_Some _ _ _ Hi) as Li.
  pose proof (R i) as Ri. pose proof (mi_pc _ _ _ _ I _ _ Hi') as [PO SO]. cbn [snd] in SO.
  destruct s as [mask sq nds enq deq th], m as [mask' sq' vs enq' deq' th'].
  pose proof (si_mask _ _ _ _ Sm) as X1. pose proof (si_seq _ _ _ _ Sm) as X2.
  pose proof (si_enq _ _ _ _ Sm) as X3. pose proof (si_deq _ _ _ _ Sm) as X4.
  pose proof (si_nlen _ _ _ _ Sm) as X5. pose proof (si_nd _ _ _ _ Sm) as X6.
  pose proof (si_val _ _ _ _ Sm) as X7.
  cbn [h_mask h_seq h_node h_enq h_deq h_th q_mask q_seq q_val q_enq q_deq q_th] in *.
  subst mask' sq' enq' deq'.
  assert (NO : nodes_ok esz nds vs) by done.
  (* a step of the simulated queue *)
  assert (SIL : forall act sq1 nds1 enq1 deq1 vs1 pc1 pc1',
    q_exec (mkMq mask sq vs enq deq th') i pc' act = Some (sq1, vs1, enq1, deq1, pc1', []) ->
    pc_sim esz pc1 pc1' (fb i) -> nodes_ok esz nds1 vs1 ->
    linked esz cap (mkShq mask sq1 nds1 enq1 deq1 (<[i := pc1]> th)) q fb).
  { intros act sqx ndx ex dx vx px px' Q PS NX.
    destruct (minv_step cap log (mkMq mask sq vs enq deq th') (q, f) i act
      (mkMq mask sqx vx ex dx (<[i := px']> th')) []) as (log' & a' & S' & I'); [done| |].
    { unfold q_step. cbn [q_th q_mask]. by rewrite Hi', Q. }
    apply aq_zero in S' as ->. eexists _, log', f. split; [|split; [exact I'|done]].
    by eapply sim_mk. }
  assert (EV : forall act e sq1 nds1 enq1 deq1 vs1 pc1 pc1',
    q_exec (mkMq mask sq vs enq deq th') i pc' act = Some (sq1, vs1, enq1, deq1, pc1', [e]) ->
    nodes_ok esz nds1 vs1 ->
    exists log' q' f', minv cap log' (mkMq mask sq1 vs1 enq1 deq1 (<[i := pc1']> th')) (q', f') /\
      aq_step cap (q, f) e (q', f') /\
      forall x y, f' = <[i := x]> f -> st_rel x y -> pc_sim esz pc1 pc1' y ->
        linked esz cap (mkShq mask sq1 nds1 enq1 deq1 (<[i := pc1]> th)) q' (<[i := y]> fb)).
  { intros act e sqx ndx ex dx vx px px' Q NX.
    destruct (minv_step cap log (mkMq mask sq vs enq deq th') (q, f) i act
      (mkMq mask sqx vx ex dx (<[i := px']> th')) [e]) as (log' & [q' f'] & S' & I'); [done| |].
    { unfold q_step. cbn [q_th q_mask]. by rewrite Hi', Q. }
    apply aq_one in S'. exists log', q', f'. split; [done|]. split; [done|].
    intros x y -> Hst PS. eexists _, log', _. split; [|split; [exact I'|by apply st_rel_upd]].
    eapply sim_mk; try done; [by rewrite fn_lookup_insert|]. intros. by rewrite fn_lookup_insert_ne. }
  assert (FULL : forall w, f i = APush w ->
     (length q = cap \/ exists j w, f j = APopped w) -> 
     length q = cap \/ exists j, (exists b w, fb j = BPopped b w) \/ exists w, fb j = BDeadWith w).
  { intros _ _ [?|(j & w & Hj)]; [by left|]. right. exists j. pose proof (R j) as Rj. rewrite Hj in Rj.
    destruct (fb j); try done; [left|right]; eauto. }
  assert (NONE : (q = [] \/ exists j, f j = APushed) -> q = [] \/ exists j, fb j = BPushed).
  { intros [?|(j & Hj)]; [by left|]. right. exists j. pose proof (R j) as Rj. rewrite Hj in Rj.
    by destruct (fb j). }
  assert (STAY : forall pc1 fb', pc_sim esz pc1 pc' (fb' i) -> st_rel (f i) (fb' i) ->
     (forall j, j <> i -> fb' j = fb j) -> linked esz cap (mkShq mask sq nds enq deq (<[i := pc1]> th)) q fb').
  { intros px fb' PS ST O. exists (mkMq mask sq vs enq deq (<[i := pc']> th')), log, f. split; [by eapply sim_mk|].
    rewrite (list_insert_id th') by done. split; [done|]. intros j.
    destruct (decide (j = i)) as [->|]; [done|]. by rewrite O. }
  assert (TWO : forall x y j, j <> i -> (<[i := y]> (<[i := x]> fb) : nat -> bstat) j = fb j).
  { intros. by rewrite !fn_lookup_insert_ne. }
  assert (LT : forall p, Nat.land p mask < length vs).
  { intros p. pose proof (mi_cap _ _ _ _ I) as [C2 CL]. cbn [q_mask] in CL. rewrite CL.
    pose proof (proj2 (mi_len _ _ _ _ I)) as LV. cbn [q_val] in LV. rewrite LV. apply Nat.mod_upper_bound. lia. }
  assert (LS : length sq = length vs).
  { pose proof (mi_len _ _ _ _ I) as [C1 C2]. cbn in C1, C2. lia. }
  assert (CLM : forall p, Nat.land p mask = p mod cap) by (intros; apply (proj2 (mi_cap _ _ _ _ I))).
  unfold s_exec in Ex.
  destruct pc as [|sl|sl p|sl p|sl p|p|bf|bf p|bf p|bf p|p n bf|], a as [[sl0|bf0]| |]; try discriminate Ex;
    destruct pc' as [|v|v p0|v p0|v p0|p0| |p0|p0|p0|p0 r|]; try contradiction P; cbn [pc_sim stat_of] in P, SO.
  - (* push called *)
    rewrite total_len_concat in Ex.
    destruct (Nat.leb_spec (length (concat sl0)) esz) as [L|L].
    + destruct (Nat.eqb_spec (length (concat sl0)) 0) as [Z|Z].
      * injection Ex as <- <- <- <- <- <-. apply concat_nil_len in Z.
        eexists q, _. split.
        { eapply BQ_cons; [by apply B_push_nothing|]. apply bq_one. apply B_push_nothing_ok. by rewrite fn_lookup_insert. }
        apply STAY; [by rewrite fn_lookup_insert| |apply TWO]. by rewrite fn_lookup_insert, SO.
      * injection Ex as <- <- <- <- <- <-.
        destruct (EV (QCall (CPush (concat sl0))) _ sq nds enq deq vs (SuLoad sl0) _ eq_refl NO)
          as (log' & q' & f' & I' & A & K).
        inversion A; subst. eexists _, _. split; [apply bq_one, B_push; [done| |done]|].
        { intros Hz. apply Z. by rewrite Hz. }
        apply K with (x := APush (concat sl0)); [done|done|]. split; [done|]. unfold small. lia.
    + injection Ex as <- <- <- <- <- <-. eexists q, _. split.
      { eapply BQ_cons; [by apply B_push_large|]. apply bq_one. apply B_too_large. by rewrite fn_lookup_insert. }
      apply STAY; [done| |apply TWO]. by rewrite fn_lookup_insert, SO.
  - (* pop called *)
    rewrite total_len_concat in Ex.
    destruct (Nat.eqb_spec (length (concat bf0)) 0) as [Z|Z].
    + injection Ex as <- <- <- <- <- <-. apply concat_nil_len in Z.
      eexists q, _. split.
      { eapply BQ_cons; [by apply B_pop_nothing|]. apply bq_one. apply B_pop_nothing_ok. by rewrite fn_lookup_insert. }
      apply STAY; [by rewrite fn_lookup_insert| |apply TWO]. by rewrite fn_lookup_insert, SO.
    + injection Ex as <- <- <- <- <- <-.
      destruct (EV (QCall CPop) _ sq nds enq deq vs (SoLoad bf0) _ eq_refl NO) as (log' & q' & f' & I' & A & K).
      inversion A; subst. eexists _, _. split; [apply bq_one, B_pop; [done|]|].
      { intros Hz. apply Z. by rewrite Hz. }
      by apply K with (x := APop).
  - (* push: load *)
    injection Ex as <- <- <- <- <- <-. exists q, fb. split; [apply BQ_nil|].
    eapply (SIL QStep); [reflexivity| |done]. cbn. naive_solver.
  - (* push: sequence *)
    destruct P as (-> & Hsm & ->). rewrite SO in Ri.
    destruct (sq !! Nat.land p mask) as [x|] eqn:Eq.
    2: { apply lookup_ge_None in Eq. specialize (LT p). lia. }
    destruct (Z.eqb_spec (Z.of_nat x - Z.of_nat p) 0) as [D|D].
    { injection Ex as <- <- <- <- <- <-. exists q, fb. split; [apply BQ_nil|].
      eapply (SIL QStep); [cbn -[Nat.land]; rewrite Eq;
        by destruct (Z.eqb_spec (Z.of_nat x - Z.of_nat p) 0)|by (cbn; split_and!)|done]. }
    destruct (Z.ltb_spec (Z.of_nat x - Z.of_nat p) 0) as [D'|D'].
    { injection Ex as <- <- <- <- <- <-.
      destruct (EV QStep (ERet i (RFull (concat sl))) sq nds enq deq vs SIdle QIdle) as (log' & q' & f' & I' & A & K); [|done|].
      { cbn -[Nat.land]. rewrite Eq. destruct (Z.eqb_spec (Z.of_nat x - Z.of_nat p) 0); [done|].
        by destruct (Z.ltb_spec (Z.of_nat x - Z.of_nat p) 0); [|lia]. }
      inversion A; subst. destruct (fb i) as [|m0| | | | | | | |] eqn:Fi; try done.
      eexists _, _. split; [eapply bq_one, B_push_full; [exact Fi|by eapply FULL]|].
      by apply K with (x := AIdle). }
    injection Ex as <- <- <- <- <- <-. exists q, fb. split; [apply BQ_nil|].
    eapply (SIL QStep); [cbn -[Nat.land]; rewrite Eq;
      destruct (Z.eqb_spec (Z.of_nat x - Z.of_nat p) 0); [lia|];
      destruct (Z.ltb_spec (Z.of_nat x - Z.of_nat p) 0); [lia|done]|by (cbn; split_and!)|done].
  - (* push: compare-exchange *)
    destruct P as (-> & Hsm & ->). rewrite SO in Ri.
    destruct (Nat.eqb_spec enq p) as [->|Hn].
    + injection Ex as <- <- <- <- <- <-.
      destruct (EV QStep (EClaim i) sq nds (p + 1) deq vs (SuWrite sl p) (PuWrite (concat sl) p))
        as (log' & q' & f' & I' & A & K); [|done|].
      { cbn. by rewrite Nat.eqb_refl. }
      destruct (fb i) as [|m0| | | | | | | |] eqn:Fi; try done. cbn in Ri. subst m0.
      inversion A; subst; [|congruence]. assert (v = concat sl) as -> by congruence.
      eexists _, _. split; [by eapply bq_one, B_push_in|].
      by apply K with (x := APushed).
    + injection Ex as <- <- <- <- <- <-. exists q, fb. split; [apply BQ_nil|].
      eapply (SIL QStep); [cbn; by destruct (Nat.eqb_spec enq p)|by (cbn; split_and!)|done].
  - (* spurious failure *)
    destruct P as (-> & Hsm & ->). injection Ex as <- <- <- <- <- <-. exists q, fb. split; [apply BQ_nil|].
    by eapply (SIL QSpurious); [done|by (cbn; split_and!)|].
  - (* push: write *)
    destruct P as (-> & Hsm & ->).
    destruct (nds !! Nat.land p mask) as [nd|] eqn:Eq.
    2: { apply lookup_ge_None in Eq. specialize (LT p). lia. }
    pose proof (X6 _ _ Eq) as Lb. destruct Hsm as [Hs1 Hs2].
    rewrite gather_spec in Ex by lia. injection Ex as <- <- <- <- <- <-.
    exists q, fb. split; [apply BQ_nil|].
    eapply (SIL QStep); [reflexivity|done|].
    rewrite total_len_concat. unfold as_u16. rewrite N.mod_small by (change (2 ^ 16)%N with 65536%N; lia).
    eapply nodes_write; try done.
    + cbn [take app plus]. rewrite app_length, drop_length. lia.
    + cbn [take app plus]. by rewrite take_app.
  - (* push: store *)
    subst p0. injection Ex as <- <- <- <- <- <-. rewrite SO in Ri.
    destruct (EV QStep (ERet i ROk) (<[Nat.land p mask := p + 1]> sq) nds enq deq vs SIdle QIdle eq_refl NO)
      as (log' & q' & f' & I' & A & K).
    inversion A; subst. destruct (fb i) eqn:Fi; try done.
    eexists _, _. split; [by eapply bq_one, B_push_ok|]. by apply K with (x := AIdle).
  - (* pop: load *)
    injection Ex as <- <- <- <- <- <-. exists q, fb. split; [apply BQ_nil|].
    by eapply (SIL QStep).
  - (* pop: sequence *)
    destruct P as (Fi & ->).
    destruct (sq !! Nat.land p mask) as [x|] eqn:Eq.
    2: { apply lookup_ge_None in Eq. specialize (LT p). lia. }
    destruct (Z.eqb_spec (Z.of_nat x - Z.of_nat (p + 1)) 0) as [D|D].
    { injection Ex as <- <- <- <- <- <-. exists q, fb. split; [apply BQ_nil|].
      eapply (SIL QStep); [cbn -[Nat.land Z.of_nat]; rewrite Eq;
        by destruct (Z.eqb_spec (Z.of_nat x - Z.of_nat (p + 1)) 0)|by (cbn; split_and!)|done]. }
    destruct (Z.ltb_spec (Z.of_nat x - Z.of_nat (p + 1)) 0) as [D'|D'].
    { injection Ex as <- <- <- <- <- <-.
      destruct (EV QStep (ERet i REmpty) sq nds enq deq vs SIdle QIdle) as (log' & q' & f' & I' & A & K); [|done|].
      { cbn -[Nat.land Z.of_nat]. rewrite Eq. destruct (Z.eqb_spec (Z.of_nat x - Z.of_nat (p + 1)) 0); [done|].
        by destruct (Z.ltb_spec (Z.of_nat x - Z.of_nat (p + 1)) 0); [|lia]. }
      inversion A; subst.
      eexists _, _. split; [eapply bq_one, B_pop_none; [exact Fi|by eapply NONE]|].
      by apply K with (x := AIdle). }
    injection Ex as <- <- <- <- <- <-. exists q, fb. split; [apply BQ_nil|].
    eapply (SIL QStep); [cbn -[Nat.land Z.of_nat]; rewrite Eq;
      destruct (Z.eqb_spec (Z.of_nat x - Z.of_nat (p + 1)) 0); [lia|];
      destruct (Z.ltb_spec (Z.of_nat x - Z.of_nat (p + 1)) 0); [lia|done]|exact Fi|done].
  - (* pop: compare-exchange *)
    destruct P as (Fi & ->).
    destruct (Nat.eqb_spec deq p) as [->|Hn].
    + injection Ex as <- <- <- <- <- <-.
      destruct (EV QStep (EClaim i) sq nds enq (p + 1) vs (SoCopy bf p) (PoTake p))
        as (log' & q' & f' & I' & A & K); [|done|].
      { cbn. by rewrite Nat.eqb_refl. }
      inversion A; subst; [congruence|].
      eexists _, _. split; [by eapply bq_one, B_pop_out|].
      apply K with (x := APopped v); [done|done|]. split; [by eexists|done].
    + injection Ex as <- <- <- <- <- <-. exists q, fb. split; [apply BQ_nil|].
      eapply (SIL QStep); [cbn; by destruct (Nat.eqb_spec deq p)|by (cbn; split_and!)|done].
  - destruct P as (Fi & ->). injection Ex as <- <- <- <- <- <-. exists q, fb. split; [apply BQ_nil|].
    by eapply (SIL QSpurious); [done|by (cbn; split_and!)|].
  - (* pop: copy *)
    destruct P as ((m0 & Fi) & ->). destruct SO as (v & Hlog & Hf). rewrite Hf, Fi in Ri. cbn in Ri. subst m0.
    cbn in PO. destruct PO as (_ & _ & _ & v' & Hv1 & Hv2). rewrite Hlog in Hv1. injection Hv1 as <-.
    rewrite <- CLM in Hv2.
    destruct (X7 _ _ Hv2) as (nd & Hnd & Hl & Ht). rewrite Hnd in Ex.
    rewrite Hl, Nat2N.id, total_len_concat in Ex. pose proof (X6 _ _ Hnd) as Lb.
    assert (Lv : length v <= esz).
    { rewrite <- Ht, take_length. lia. }
    destruct (Nat.leb_spec (length v) (length (concat bf))) as [L|L].
    + rewrite scatter_fill in Ex by lia. injection Ex as <- <- <- <- <- <-.
      exists q, fb. split; [apply BQ_nil|].
      eapply (SIL QStep); [cbn -[Nat.land lookup]; by rewrite Hv2| |by apply nodes_take].
      exists bf, v. by rewrite Ht.
    + injection Ex as <- <- <- <- <- <-. eexists q, _. split; [by eapply bq_one, B_no_room|].
      apply STAY; [done|by rewrite fn_lookup_insert, Hf|]. intros. by rewrite fn_lookup_insert_ne.
  - (* pop: store *)
    destruct P as (b & v & -> & -> & Fi & -> & -> & Lv). destruct SO as (v' & Hlog & Hf).
    injection Ex as <- <- <- <- <- <-.
    destruct (EV QStep (ERet i (RItem v)) (<[Nat.land p mask := p + mask + 1]> sq) nds enq deq vs SIdle QIdle eq_refl NO)
      as (log' & q' & f' & I' & A & K).
    inversion A; subst. eexists _, _. split; [eapply bq_one, B_pop_some; [exact Fi|]|by apply K with (x := AIdle)].
    split; [apply fill_length|by apply fill_concat].
Qed.

Lemma bq_steps_app esz cap a b c es es' :
  bq_steps esz cap a es b -> bq_steps esz cap b es' c -> bq_steps esz cap a (es ++ es') c.
Proof. induction 1 as [|a e b es d H _ IH]; intros H'; simpl; [done|]. eapply BQ_cons; [done|]. by apply IH. Qed.

Lemma sim_run esz cap l : forall s q fb s' es, (N.of_nat esz < 65536)%N -> linked esz cap s q fb ->
  s_run esz s l = Some (s', es) ->
  exists q' fb', bq_steps esz cap (q, fb) es (q', fb') /\ linked esz cap s' q' fb'.
Proof.
  induction l as [|[i a] l IH]; intros s q fb s' es He L E; simpl in E.
  - injection E as <- <-. exists q, fb. split; [apply BQ_nil|done].
  - destruct (s_step esz s i a) as [[s1 e1]|] eqn:E1; [|done].
    destruct (s_run esz s1 l) as [[s2 e2]|] eqn:E2; [|done]. injection E as <- <-.
    destruct (sim_step _ _ _ _ _ _ _ _ _ He L E1) as (q1 & fb1 & B1 & L1).
    destruct (IH _ _ _ _ _ He L1 E2) as (q2 & fb2 & B2 & L2).
    exists q2, fb2. split; [|done]. by eapply bq_steps_app.
Qed.

Lemma linked_init esz c n : linked esz (round_capacity c) (shq_init esz c n) [] (fun _ => BIdle).
Proof.
  exists (mq_init (list N) c n), [], (fun _ => AIdle). split; [apply sim_init|]. split; [apply minv_init|done].
Qed.
