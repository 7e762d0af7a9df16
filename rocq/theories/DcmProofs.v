(** Proofs for C39. *)
From Verif Require Import Base DcmModel DcmSpec.
From Coq Require Import Sorting.Sorted.

(** ** Lists *)
Lemma sorted_bound l a b : StronglySorted lt l -> (forall x, x ∈ l -> a <= x < b) -> length l <= b - a.
Proof.
  revert a. induction l as [|x l IH]; intros a HS H; simpl; [lia|]. inversion_clear HS as [|? ? HS' HF].
  assert (length l <= b - S x).
  { apply IH; [done|]. intros y Hy. rewrite Forall_forall in HF. specialize (HF y Hy). specialize (H y ltac:(by right)). lia. }
  specialize (H x ltac:(left)). lia.
Qed.
Lemma sorted_seq l a : StronglySorted lt l -> (forall x, x ∈ l -> a <= x < a + length l) -> l = seq a (length l).
Proof.
  revert a. induction l as [|x l IH]; intros a HS H; [done|]. inversion_clear HS as [|? ? HS' HF]. rewrite Forall_forall in HF.
  assert (length l <= (a + S (length l)) - S x).
  { apply sorted_bound; [done|]. intros y Hy. specialize (HF y Hy). specialize (H y ltac:(by right)). simpl in H. lia. }
  pose proof (H x ltac:(left)) as Hx. simpl in Hx. assert (x = a) as -> by lia. cbn [length seq]. f_equal.
  apply IH; [done|]. intros y Hy. specialize (HF y Hy). specialize (H y ltac:(by right)). simpl in H. lia.
Qed.
Lemma sorted_app_lt l1 l2 : StronglySorted lt l1 -> StronglySorted lt l2 -> (forall x y, x ∈ l1 -> y ∈ l2 -> x < y) -> StronglySorted lt (l1 ++ l2).
Proof.
  induction l1 as [|x l IH]; intros H1 H2 H; [done|]. inversion_clear H1 as [|? ? HS HF]. simpl. constructor.
  - apply IH; auto. intros y z Hy Hz. apply H; [by right|done].
  - apply Forall_app. split; [done|]. apply Forall_forall. intros y Hy. apply H; [left|done].
Qed.

(** ** The registration loop *)
Section Reg.
  Context (assign : nat -> nat) (cs : list cell) (N : nat -> Prop).
  Lemma reg_loop_spec : forall k i tbl r,
    i + k = q_n r ->
    (forall j c, i <= j < q_n r -> tbl !! (q_id r + j) = Some c -> cell_val cs c = assign (q_id r + j) /\ N (q_id r + j)) ->
    exists E, (reg_loop k i cs tbl r).2 =
        mkReq (q_id r) (q_cores r) (q_mem r) (q_pc r) (q_base r) (q_recv r + length E)
          (q_oc r ++ ((fun j => assign (q_id r + j)) <$> filter (fun j => j < q_cores r) E))
          (q_om r ++ ((fun j => assign (q_id r + j)) <$> filter (fun j => ~ j < q_cores r) E)) (q_early r ++ E) /\
      StronglySorted lt E /\ (forall j, j ∈ E -> i <= j < q_n r /\ N (q_id r + j)) /\
      (forall κ c, (reg_loop k i cs tbl r).1 !! κ = Some c -> tbl !! κ = Some c \/ exists j, i <= j < q_n r /\ κ = q_id r + j /\ c = q_base r + j) /\
      (forall κ, (κ < q_id r + i \/ q_id r + q_n r <= κ) -> (E = [] \/ κ <> q_id r + 1) -> (reg_loop k i cs tbl r).1 !! κ = tbl !! κ) /\
      (E = [] -> forall j, i <= j < q_n r -> (reg_loop k i cs tbl r).1 !! (q_id r + j) = Some (q_base r + j) /\ tbl !! (q_id r + j) = None).
  Proof using All.
    induction k as [|k IH]; intros i tbl r Hk H; cbn [reg_loop].
    - exists []. simpl. rewrite !app_nil_r, Nat.add_0_r. split_and!; auto; try done; [by destruct r|constructor|intros j Hj; by apply elem_of_nil in Hj|intros _ j Hj; lia].
    - destruct (tbl !! (q_id r + i)) as [c|] eqn:Ei; cbv zeta.
      + destruct (H i c ltac:(lia) Ei) as [Hv HN]. rewrite Hv.
        set (r1 := add_early (bump_recv (push_out r i (assign (q_id r + i)))) i).
        assert (R1 : q_id r1 = q_id r /\ q_cores r1 = q_cores r /\ q_mem r1 = q_mem r /\ q_pc r1 = q_pc r /\ q_base r1 = q_base r /\ q_recv r1 = S (q_recv r) /\
          q_early r1 = q_early r ++ [i] /\ q_oc r1 = q_oc r ++ ((fun j => assign (q_id r + j)) <$> filter (fun j => j < q_cores r) [i]) /\
          q_om r1 = q_om r ++ ((fun j => assign (q_id r + j)) <$> filter (fun j => ~ j < q_cores r) [i])).
        { unfold r1, push_out. destruct (decide (i < q_cores r)) as [Hc|Hc]; simpl.
          - rewrite filter_cons_True, filter_cons_False by (simpl; auto). simpl. rewrite app_nil_r. done.
          - rewrite filter_cons_False, filter_cons_True by (simpl; auto). simpl. rewrite app_nil_r. done. }
        destruct R1 as (R1 & R2 & R3 & R4 & R5 & R6 & R7 & R8 & R9). assert (Rn : q_n r1 = q_n r) by (unfold q_n; congruence).
        destruct (IH (S i) (delete (q_id r + 1) (<[q_id r + i:=q_base r + i]> tbl)) r1) as (E & E1 & E2 & E3 & E4 & E5 & E6).
        { rewrite Rn. lia. }
        { rewrite R1, Rn. intros j c' Hj Hc'. apply lookup_delete_Some in Hc' as [_ Hc']. rewrite lookup_insert_ne in Hc' by lia. apply H; [lia|done]. }
        clearbody r1. rewrite R1, R2, R3, R4, R5, R6, R7, R8, R9 in E1. rewrite R1, Rn in E3. rewrite R1, R5, Rn in E4. rewrite R1, Rn in E5.
        exists (i :: E). split; [|split; [|split; [|split; [|split]]]].
        * rewrite E1. change (i :: E) with ([i] ++ E). rewrite !filter_app, !fmap_app, !app_assoc. f_equal. simpl. lia.
        * constructor; [done|]. apply Forall_forall. intros j Hj. apply E3 in Hj. lia.
        * intros j [->|Hj]%elem_of_cons; [split; [lia|done]|]. apply E3 in Hj as [? ?]. split; [lia|done].
        * intros κ c' Hc'. apply E4 in Hc' as [Hc'|(j & Hj & -> & ->)]; [|right; exists j; split; [lia|done]].
          apply lookup_delete_Some in Hc' as [_ Hc']. destruct (decide (κ = q_id r + i)) as [->|Hn].
          -- rewrite lookup_insert in Hc'. injection Hc' as <-. right. exists i. split; [lia|done].
          -- rewrite lookup_insert_ne in Hc' by done. by left.
        * intros κ Hκ [?|Hκ']; [done|]. rewrite E5; [|lia|by right]. rewrite lookup_delete_ne by lia. rewrite lookup_insert_ne by lia. done.
        * done.
      + destruct (IH (S i) (<[q_id r + i:=q_base r + i]> tbl) r ltac:(lia)) as (E & E1 & E2 & E3 & E4 & E5 & E6).
        { intros j c' Hj Hc'. rewrite lookup_insert_ne in Hc' by lia. apply H; [lia|done]. }
        exists E. split; [done|]. split; [done|]. split; [|split; [|split]].
        * intros j Hj. apply E3 in Hj as [? ?]. split; [lia|done].
        * intros κ c' Hc'. apply E4 in Hc' as [Hc'|(j & Hj & -> & ->)]; [|right; exists j; split; [lia|done]].
          destruct (decide (κ = q_id r + i)) as [->|Hn].
          -- rewrite lookup_insert in Hc'. injection Hc' as <-. right. exists i. split; [lia|done].
          -- rewrite lookup_insert_ne in Hc' by done. by left.
        * intros κ Hκ Hκ'. rewrite E5; [|lia|done]. rewrite lookup_insert_ne by lia. done.
        * intros HE j Hj. destruct (decide (j = i)) as [->|Hn].
          -- split; [|done]. rewrite E5; [|lia|by left]. by rewrite lookup_insert.
          -- destruct (E6 HE j ltac:(lia)) as [X1 X2]. split; [done|]. by rewrite lookup_insert_ne in X2 by lia.
  Qed.
End Reg.

(** ** The invariant *)
Record dq (assign : nat -> nat) (cs : list cell) (noted : list (nat * nat)) (r : dreq) : Prop := {
  dq_cells : forall i, i < q_n r -> exists v, cs !! (q_base r + i) = Some (mkCell (q_id r + i) v);
  dq_sorted : StronglySorted lt (q_early r);
  dq_early : forall i, i ∈ q_early r -> i < q_n r /\ q_id r + i ∈ noted.*1 /\ cell_val cs (q_base r + i) = 0;
  dq_recv : length (q_early r) <= q_recv r <= q_n r;
  dq_polled : forall i, length (q_early r) <= i < q_recv r -> cell_val cs (q_base r + i) <> 0;
  dq_oc : q_oc r = (fun j => assign (q_id r + j)) <$> filter (fun j => j < q_cores r) (q_early r ++ seq (length (q_early r)) (q_recv r - length (q_early r)));
  dq_om : q_om r = (fun j => assign (q_id r + j)) <$> filter (fun j => ~ j < q_cores r) (q_early r ++ seq (length (q_early r)) (q_recv r - length (q_early r)));
  dq_called : q_pc r = QCalled -> q_early r = [] /\ q_recv r = 0;
  dq_got : forall v, q_pc r = QGot v -> q_recv r < q_n r /\ cell_val cs (q_base r + q_recv r) = v /\ v <> 0
}.
Record dj (assign : nat -> nat) (s : dcm) : Prop := {
  j_tbl : forall κ c, d_tbl s !! κ = Some c -> exists v, d_cells s !! c = Some (mkCell κ v);
  j_val : forall c κ v, d_cells s !! c = Some (mkCell κ v) -> v = 0 \/ (v = assign κ /\ κ ∈ (d_noted s).*1);
  j_nz : forall κ, κ ∈ (d_noted s).*1 -> assign κ <> 0;
  j_orph : forall κ c, d_tbl s !! κ = Some c ->
    (forall p r, d_reqs s !! p = Some r -> q_pc r <> QCalled -> ~ of_req r κ) -> cell_val (d_cells s) c <> 0;
  j_disj : forall p1 p2 r1 r2 i, d_reqs s !! p1 = Some r1 -> d_reqs s !! p2 = Some r2 -> p1 <> p2 -> of_req r1 i -> of_req r2 i -> False;
  j_req : forall p r, d_reqs s !! p = Some r -> dq assign (d_cells s) (d_noted s) r;
  j_called : forall p r i, d_reqs s !! p = Some r -> q_pc r = QCalled -> i < q_n r ->
    cell_val (d_cells s) (q_base r + i) = 0 /\ forall κ, d_tbl s !! κ <> Some (q_base r + i)
}.

Lemma dj_init assign : dj assign dcm_init.
Proof. split; simpl; try done. intros κ H. by apply elem_of_nil in H. Qed.

Lemma cell_val_some cs c x : cs !! c = Some x -> cell_val cs c = c_val x.
Proof. unfold cell_val. by intros ->. Qed.

(** Values only change from zero to non-zero, for ids not noted before. *)
Definition cells_ext (cs cs' : list cell) (noted : list (nat * nat)) : Prop :=
  forall c x, cs !! c = Some x -> exists v, cs' !! c = Some (mkCell (c_key x) v) /\ (v = c_val x \/ (v <> 0 /\ c_val x = 0 /\ c_key x ∉ noted.*1)).
Lemma dq_ext assign cs cs' noted noted' r :
  cells_ext cs cs' noted -> (forall κ, κ ∈ noted.*1 -> κ ∈ noted'.*1) -> dq assign cs noted r -> dq assign cs' noted' r.
Proof.
  intros X N D. assert (V0 : forall i, i < q_n r -> q_id r + i ∈ noted.*1 -> cell_val cs' (q_base r + i) = cell_val cs (q_base r + i)).
  { intros i Hi Hn. destruct (dq_cells _ _ _ _ D i Hi) as [v Hv]. destruct (X _ _ Hv) as (v' & Hv' & C). simpl in *.
    rewrite (cell_val_some _ _ _ Hv), (cell_val_some _ _ _ Hv'). simpl. destruct C as [->|(_ & _ & C)]; done. }
  assert (V1 : forall i, i < q_n r -> cell_val cs (q_base r + i) <> 0 -> cell_val cs' (q_base r + i) = cell_val cs (q_base r + i)).
  { intros i Hi Hn. destruct (dq_cells _ _ _ _ D i Hi) as [v Hv]. destruct (X _ _ Hv) as (v' & Hv' & C). simpl in *.
    rewrite (cell_val_some _ _ _ Hv), (cell_val_some _ _ _ Hv') in *. simpl in *. destruct C as [->|(_ & C & _)]; done. }
  pose proof (dq_recv _ _ _ _ D). split; try apply D.
  - intros i Hi. destruct (dq_cells _ _ _ _ D i Hi) as [v Hv]. destruct (X _ _ Hv) as (v' & Hv' & _). by exists v'.
  - intros i Hi. destruct (dq_early _ _ _ _ D i Hi) as (H1 & H2 & H3). split; [done|]. split; [auto|]. by rewrite V0.
  - intros i Hi. pose proof (dq_polled _ _ _ _ D i Hi). rewrite V1; [done|lia|done].
  - intros v Hv. destruct (dq_got _ _ _ _ D v Hv) as (H1 & H2 & H3). split; [done|]. rewrite V1; [done|done|congruence].
Qed.

Lemma new_cells_lookup id n i : i < n -> new_cells id n !! i = Some (mkCell (id + i) 0).
Proof.
  revert id i. induction n as [|n IH]; intros id [|i] Hi; simpl; try lia; [by rewrite Nat.add_0_r|].
  rewrite IH by lia. do 2 f_equal. lia.
Qed.
Lemma new_cells_lookup_Some id n i x : new_cells id n !! i = Some x -> i < n /\ x = mkCell (id + i) 0.
Proof.
  intros H. destruct (decide (i < n)) as [Hi|Hi]; [rewrite new_cells_lookup in H by done; by injection H as <-|].
  exfalso. apply Hi. clear Hi. revert id i H. induction n as [|n IH]; intros id [|i] H; simpl in H; try done; [lia|].
  apply IH in H. lia.
Qed.
Lemma cell_val_app cs cs2 c x : cs !! c = Some x -> cell_val (cs ++ cs2) c = cell_val cs c.
Proof. intros H. unfold cell_val. by rewrite (lookup_app_l_Some _ _ _ _ H), H. Qed.

Lemma dj_begin assign s id cores mem : dj assign s -> sched_ok assign s (ABegin id cores mem) -> dj assign (dcm_step s (ABegin id cores mem)).
Proof.
  intros D [H0 HD]. cbn [dcm_step]. split; cbn [d_tbl d_cells d_reqs d_noted].
  - intros κ c Hc. destruct (j_tbl _ _ D _ _ Hc) as [v Hv]. exists v. by apply lookup_app_l_Some.
  - intros c κ v Hc. apply lookup_app_Some in Hc as [Hc|[_ Hc]]; [by apply (j_val _ _ D _ _ _ Hc)|].
    apply new_cells_lookup_Some in Hc as [_ [= -> ->]]. by left.
  - apply D.
  - intros κ c Hc HR. destruct (j_tbl _ _ D _ _ Hc) as [v Hv]. rewrite (cell_val_app _ _ _ _ Hv). apply (j_orph _ _ D _ _ Hc).
    intros p r Hp. apply (HR p). by apply lookup_app_l_Some.
  - intros p1 p2 r1 r2 i H1 H2 Hn O1 O2. apply lookup_app_Some in H1 as [H1|[L1 H1]], H2 as [H2|[L2 H2]].
    + by eapply (j_disj _ _ D p1 p2).
    + apply list_lookup_singleton_Some in H2 as [_ <-]. eapply HD; [by eapply elem_of_list_lookup_2|done|exact O2].
    + apply list_lookup_singleton_Some in H1 as [_ <-]. eapply HD; [by eapply elem_of_list_lookup_2|done|exact O1].
    + apply list_lookup_singleton_Some in H1 as [? _], H2 as [? _]. lia.
  - intros p r Hp. apply lookup_app_Some in Hp as [Hp|[_ Hp]].
    + refine (dq_ext _ _ _ _ _ _ _ (fun κ H => H) (j_req _ _ D _ _ Hp)). intros c x Hc. exists (c_val x). split; [|by left].
      rewrite (lookup_app_l_Some _ _ _ _ Hc). by destruct x.
    + apply list_lookup_singleton_Some in Hp as [_ <-]. split; simpl; try done.
      * intros i Hi. exists 0. rewrite lookup_app_r by lia. replace (length (d_cells s) + i - length (d_cells s)) with i by lia. by apply new_cells_lookup.
      * constructor.
      * intros i Hi. by apply elem_of_nil in Hi.
      * unfold q_n. simpl. lia.
      * intros i Hi. lia.
  - intros p r i Hp Hpc Hi. apply lookup_app_Some in Hp as [Hp|[_ Hp]].
    + destruct (j_called _ _ D _ _ _ Hp Hpc Hi) as [C1 C2]. split; [|done]. destruct (dq_cells _ _ _ _ (j_req _ _ D _ _ Hp) i Hi) as [v Hv].
      by rewrite (cell_val_app _ _ _ _ Hv).
    + apply list_lookup_singleton_Some in Hp as [_ <-]. cbn [q_base q_n q_id q_cores q_mem] in *. split.
      * unfold cell_val. rewrite lookup_app_r by lia. replace (length (d_cells s) + i - length (d_cells s)) with i by lia. by rewrite new_cells_lookup.
      * intros κ Hκ. destruct (j_tbl _ _ D _ _ Hκ) as [v Hv]. apply lookup_lt_Some in Hv. lia.
Qed.

Lemma dj_notify assign s id mid : dj assign s -> sched_ok assign s (ANotify id mid) -> dj assign (dcm_step s (ANotify id mid)).
Proof.
  intros D (-> & Hnz & Hn). cbn [dcm_step]. unfold dcm_notify.
  assert (NS : forall κ, κ ∈ (d_noted s).*1 -> κ ∈ (d_noted s ++ [(id, assign id)]).*1) by (intros κ H; rewrite fmap_app; set_solver).
  assert (NI : id ∈ (d_noted s ++ [(id, assign id)]).*1) by (rewrite fmap_app; set_solver).
  assert (NZ : forall κ, κ ∈ (d_noted s ++ [(id, assign id)]).*1 -> assign κ <> 0).
  { intros κ. rewrite fmap_app, elem_of_app. intros [H|H]; [by apply D|]. simpl in H. apply elem_of_list_singleton in H. by subst. }
  destruct (d_tbl s !! id) as [c|] eqn:Ec.
  - destruct (j_tbl _ _ D _ _ Ec) as [v Hv]. assert (v = 0) as ->. { destruct (j_val _ _ D _ _ _ Hv) as [->|[_ ?]]; done. }
    assert (X : cells_ext (d_cells s) (alter (λ x : cell, {| c_key := c_key x; c_val := assign id |}) c (d_cells s)) (d_noted s)).
    { intros c' x Hx. destruct (decide (c' = c)) as [->|Hne].
      - rewrite Hx in Hv. injection Hv as ->. exists (assign id). rewrite list_lookup_alter, Hx. split; [done|]. right. done.
      - exists (c_val x). rewrite list_lookup_alter_ne by done. rewrite Hx. split; [by destruct x|by left]. }
    split; cbn [d_tbl d_cells d_reqs d_noted].
    + intros κ c' Hc'. destruct (j_tbl _ _ D _ _ Hc') as [v' Hv']. destruct (X _ _ Hv') as (v2 & H2 & _). by exists v2.
    + intros c' κ v' Hc'. destruct (decide (c' = c)) as [->|Hne].
      * rewrite list_lookup_alter, Hv in Hc'. simpl in Hc'. injection Hc' as <- <-. right. done.
      * rewrite list_lookup_alter_ne in Hc' by done. destruct (j_val _ _ D _ _ _ Hc') as [->|[-> ?]]; [by left|right; auto].
    + done.
    + intros κ c' Hc' HR. pose proof (j_orph _ _ D _ _ Hc' HR) as J. destruct (j_tbl _ _ D _ _ Hc') as [v' Hv'].
      destruct (X _ _ Hv') as (v2 & H2 & C). rewrite (cell_val_some _ _ _ Hv') in J. rewrite (cell_val_some _ _ _ H2). simpl in *. destruct C as [->|[? _]]; done.
    + apply D.
    + intros p r Hp. eapply dq_ext; [exact X|done|by eapply j_req].
    + intros p r i Hp Hpc Hi. destruct (j_called _ _ D _ _ _ Hp Hpc Hi) as [C1 C2]. split; [|done].
      unfold cell_val. rewrite list_lookup_alter_ne; [done|]. intros ->. by apply (C2 id).
  - assert (X : cells_ext (d_cells s) (d_cells s ++ [mkCell id (assign id)]) (d_noted s)).
    { intros c' x Hx. exists (c_val x). rewrite (lookup_app_l_Some _ _ _ _ Hx). split; [by destruct x|by left]. }
    split; cbn [d_tbl d_cells d_reqs d_noted].
    + intros κ c' Hc'. destruct (decide (κ = id)) as [->|Hne].
      * rewrite lookup_insert in Hc'. injection Hc' as <-. exists (assign id). by rewrite list_lookup_middle.
      * rewrite lookup_insert_ne in Hc' by done. destruct (j_tbl _ _ D _ _ Hc') as [v' Hv']. exists v'. by apply lookup_app_l_Some.
    + intros c' κ v' Hc'. apply lookup_app_Some in Hc' as [Hc'|[_ Hc']].
      * destruct (j_val _ _ D _ _ _ Hc') as [->|[-> ?]]; [by left|right; auto].
      * apply list_lookup_singleton_Some in Hc' as [_ [= <- <-]]. by right.
    + done.
    + intros κ c' Hc' HR. destruct (decide (κ = id)) as [->|Hne].
      * rewrite lookup_insert in Hc'. injection Hc' as <-. unfold cell_val. rewrite list_lookup_middle by done. done.
      * rewrite lookup_insert_ne in Hc' by done. destruct (j_tbl _ _ D _ _ Hc') as [v' Hv']. rewrite (cell_val_app _ _ _ _ Hv'). by eapply j_orph.
    + apply D.
    + intros p r Hp. eapply dq_ext; [exact X|done|by eapply j_req].
    + intros p r i Hp Hpc Hi. destruct (j_called _ _ D _ _ _ Hp Hpc Hi) as [C1 C2]. destruct (dq_cells _ _ _ _ (j_req _ _ D _ _ Hp) i Hi) as [v Hv]. split.
      * by rewrite (cell_val_app _ _ _ _ Hv).
      * intros κ. apply lookup_lt_Some in Hv. destruct (decide (κ = id)) as [->|Hne]; [rewrite lookup_insert; intros [= ?]; lia|rewrite lookup_insert_ne by done; apply C2].
Qed.

(** What registration does. *)
Lemma register_spec assign s q r : dj assign s -> d_reqs s !! q = Some r -> q_pc r = QCalled ->
  exists E tbl', dcm_step s (ARegister q) = mkDcm tbl' (d_cells s) (<[q := mkReq (q_id r) (q_cores r) (q_mem r) QWait (q_base r) (length E)
          ((fun j => assign (q_id r + j)) <$> filter (fun j => j < q_cores r) E)
          ((fun j => assign (q_id r + j)) <$> filter (fun j => ~ j < q_cores r) E) E]> (d_reqs s)) (d_noted s) /\
      StronglySorted lt E /\ (forall j, j ∈ E -> j < q_n r /\ q_id r + j ∈ (d_noted s).*1) /\
      (forall κ c, tbl' !! κ = Some c -> d_tbl s !! κ = Some c \/ exists j, j < q_n r /\ κ = q_id r + j /\ c = q_base r + j) /\
      (forall κ, ~ of_req r κ -> (E = [] \/ κ <> q_id r + 1) -> tbl' !! κ = d_tbl s !! κ) /\
      (E = [] -> forall j, j < q_n r -> tbl' !! (q_id r + j) = Some (q_base r + j) /\ d_tbl s !! (q_id r + j) = None).
Proof.
  intros D Hq Hpc. pose proof (j_req _ _ D _ _ Hq) as Q. destruct (dq_called _ _ _ _ Q Hpc) as [QE QR].
  assert (HP : forall j c, 0 <= j < q_n r -> d_tbl s !! (q_id r + j) = Some c -> cell_val (d_cells s) c = assign (q_id r + j) /\ q_id r + j ∈ (d_noted s).*1).
  { intros j c Hj Hc. assert (J : cell_val (d_cells s) c <> 0).
    { apply (j_orph _ _ D _ _ Hc). intros p r' Hp Hpc' Ho. destruct (decide (p = q)) as [->|Hne]; [congruence|].
      eapply (j_disj _ _ D p q r' r); [done|done|done|exact Ho|]. unfold of_req. lia. }
    destruct (j_tbl _ _ D _ _ Hc) as [v Hv]. rewrite (cell_val_some _ _ _ Hv) in *. simpl in *.
    destruct (j_val _ _ D _ _ _ Hv) as [->|[-> ?]]; done. }
  destruct (reg_loop_spec assign (d_cells s) (fun κ => κ ∈ (d_noted s).*1) (q_n r) 0 (d_tbl s) r ltac:(lia) HP) as (E & E1 & E2 & E3 & E4 & E5 & E6).
  exists E, (reg_loop (q_n r) 0 (d_cells s) (d_tbl s) r).1. cbn [dcm_step]. rewrite Hq, Hpc.
  destruct (reg_loop (q_n r) 0 (d_cells s) (d_tbl s) r) as [tbl' r'] eqn:ER. cbn [fst snd] in *. split; [|split_and!; auto].
  - f_equal. f_equal. rewrite E1. unfold set_pc. cbn [q_id q_cores q_mem q_pc q_base q_recv q_oc q_om q_early].
    rewrite QR, QE, (dq_oc _ _ _ _ Q), (dq_om _ _ _ _ Q), QE, QR. done.
  - intros j Hj. apply E3 in Hj as [? ?]. split; [lia|done].
  - intros κ c Hc. apply E4 in Hc as [?|(j & ? & ? & ?)]; [by left|right; exists j; split; [lia|done]].
  - intros κ Hκ. apply E5. unfold of_req in Hκ. lia.
  - intros HE j Hj. apply E6; [done|lia].
Qed.

Lemma dj_register assign s q : dj assign s -> dj assign (dcm_step s (ARegister q)).
Proof.
  intros D. destruct (d_reqs s !! q) as [r|] eqn:Hq; [|by cbn [dcm_step]; rewrite Hq].
  destruct (q_pc r) eqn:Hpc; [|by cbn [dcm_step]; rewrite Hq, Hpc..].
  destruct (register_spec _ _ _ _ D Hq Hpc) as (E & tbl' & -> & ES & EE & ET & _ & _).
  pose proof (j_req _ _ D _ _ Hq) as Q. destruct (dq_called _ _ _ _ Q Hpc) as [QE QR].
  set (r' := mkReq _ _ _ _ _ _ _ _ _). assert (Rn : q_n r' = q_n r) by done.
  split; cbn [d_tbl d_cells d_reqs d_noted].
  - intros κ c Hc. apply ET in Hc as [Hc|(j & Hj & -> & ->)]; [by apply D|]. by apply Q.
  - apply D.
  - apply D.
  - intros κ c Hc HR. apply ET in Hc as [Hc|(j & Hj & -> & ->)].
    + apply (j_orph _ _ D _ _ Hc). intros p r1 Hp Hpc1. apply (HR p); [|done]. rewrite list_lookup_insert_ne; [done|]. congruence.
    + exfalso. eapply (HR q r'); [by rewrite list_lookup_insert by (by eapply lookup_lt_Some)|done|]. unfold of_req. rewrite Rn. simpl. lia.
  - intros p1 p2 r1 r2 i H1 H2 Hne O1 O2. apply list_lookup_insert_Some in H1, H2.
    destruct H1 as [(<- & <- & _)|[N1 H1]], H2 as [(<- & <- & _)|[N2 H2]]; [done| | |by eapply (j_disj _ _ D p1 p2)].
    + eapply (j_disj _ _ D q p2 r r2); [done|done|done|exact O1|done].
    + eapply (j_disj _ _ D p1 q r1 r); [done|done|done|done|exact O2].
  - intros p r1 Hp. apply list_lookup_insert_Some in Hp as [(<- & <- & _)|[_ Hp]]; [|by eapply j_req].
    split; unfold r'; cbn [q_id q_cores q_mem q_pc q_base q_recv q_oc q_om q_early]; try done.
    + apply Q.
    + intros i Hi. apply EE in Hi as [Hi1 Hi2]. split; [done|]. split; [done|]. by apply (j_called _ _ D _ _ _ Hq Hpc).
    + split; [done|]. pose proof (sorted_bound E 0 (q_n r) ES) as B. rewrite Nat.sub_0_r in B. apply B. intros x Hx. apply EE in Hx. lia.
    + intros i Hi. lia.
    + rewrite Nat.sub_diag. simpl. by rewrite app_nil_r.
    + rewrite Nat.sub_diag. simpl. by rewrite app_nil_r.
  - intros p r1 i Hp Hpc1 Hi. apply list_lookup_insert_Some in Hp as [(<- & <- & _)|[Hne Hp]]; [done|].
    destruct (j_called _ _ D _ _ _ Hp Hpc1 Hi) as [C1 C2]. split; [done|]. intros κ Hκ. apply ET in Hκ as [Hκ|(j & Hj & -> & Hc)]; [by apply (C2 κ)|].
    destruct (dq_cells _ _ _ _ Q j Hj) as [v Hv]. destruct (dq_cells _ _ _ _ (j_req _ _ D _ _ Hp) i Hi) as [v1 Hv1].
    rewrite Hc, Hv in Hv1. injection Hv1 as Hk _. eapply (j_disj _ _ D p q r1 r (q_id r + j)); [done|done|done|unfold of_req; lia..].
Qed.

(** ** Polling *)
Definition rq_same (r r' : dreq) : Prop := q_id r' = q_id r /\ q_cores r' = q_cores r /\ q_mem r' = q_mem r /\ q_base r' = q_base r /\ q_early r' = q_early r.
Lemma dj_update assign s q r r' : dj assign s -> d_reqs s !! q = Some r -> q_pc r <> QCalled -> q_pc r' <> QCalled -> rq_same r r' ->
  dq assign (d_cells s) (d_noted s) r' -> dj assign (mkDcm (d_tbl s) (d_cells s) (<[q := r']> (d_reqs s)) (d_noted s)).
Proof.
  intros D Hq Hpc Hpc' (S1 & S2 & S3 & S4 & S5) Q. assert (HO : forall κ, of_req r' κ <-> of_req r κ).
  { intros κ. unfold of_req, q_n. by rewrite S1, S2, S3. }
  split; cbn [d_tbl d_cells d_reqs d_noted].
  - apply D.
  - apply D.
  - apply D.
  - intros κ c Hc HR. apply (j_orph _ _ D _ _ Hc). intros p r1 Hp Hpc1 Ho. destruct (decide (p = q)) as [->|Hne].
    + rewrite Hq in Hp. injection Hp as <-. eapply (HR q r'); [by rewrite list_lookup_insert by (by eapply lookup_lt_Some)|done|by apply HO].
    + eapply (HR p r1); [by rewrite list_lookup_insert_ne|done|done].
  - intros p1 p2 r1 r2 i H1 H2 Hne O1 O2. apply list_lookup_insert_Some in H1, H2.
    destruct H1 as [(<- & <- & _)|[N1 H1]], H2 as [(<- & <- & _)|[N2 H2]]; [done| | |by eapply (j_disj _ _ D p1 p2)].
    + eapply (j_disj _ _ D q p2 r r2); [done|done|done|by apply HO|done].
    + eapply (j_disj _ _ D p1 q r1 r); [done|done|done|done|by apply HO].
  - intros p r1 Hp. apply list_lookup_insert_Some in Hp as [(<- & <- & _)|[_ Hp]]; [done|by eapply j_req].
  - intros p r1 i Hp Hpc1 Hi. apply list_lookup_insert_Some in Hp as [(<- & <- & _)|[Hne Hp]]; [done|by eapply j_called].
Qed.
Lemma dj_shrink assign s tbl : dj assign s -> (forall κ c, tbl !! κ = Some c -> d_tbl s !! κ = Some c) ->
  dj assign (mkDcm tbl (d_cells s) (d_reqs s) (d_noted s)).
Proof.
  intros D H. split; cbn [d_tbl d_cells d_reqs d_noted]; try apply D.
  - intros κ c Hc. apply (j_tbl _ _ D), H, Hc.
  - intros κ c Hc. apply (j_orph _ _ D), H, Hc.
  - intros p r i Hp Hpc Hi. destruct (j_called _ _ D _ _ _ Hp Hpc Hi) as [C1 C2]. split; [done|]. intros κ Hκ. apply (C2 κ), H, Hκ.
Qed.
Lemma got_value assign s q r v : dj assign s -> d_reqs s !! q = Some r -> q_pc r = QGot v -> v = assign (q_id r + q_recv r).
Proof.
  intros D Hq Hpc. pose proof (j_req _ _ D _ _ Hq) as Q. destruct (dq_got _ _ _ _ Q _ Hpc) as (H1 & H2 & H3).
  destruct (dq_cells _ _ _ _ Q _ H1) as [v' Hv']. rewrite (cell_val_some _ _ _ Hv') in H2. simpl in H2. subst v'.
  destruct (j_val _ _ D _ _ _ Hv') as [->|[-> _]]; done.
Qed.
Lemma dj_poll assign s q : dj assign s -> dj assign (dcm_step s (APoll q)).
Proof.
  intros D. cbn [dcm_step]. destruct (d_reqs s !! q) as [r|] eqn:Hq; [|done].
  pose proof (j_req _ _ D _ _ Hq) as Q. destruct (q_pc r) as [| |v] eqn:Hpc; [done| |].
  - destruct (decide (q_recv r < q_n r)) as [Hr|]; [|done]. destruct (cell_val (d_cells s) (q_base r + q_recv r)) as [|v] eqn:Hv; [done|].
    eapply dj_update; [done|done|congruence|done|done|].
    split; cbn [q_id q_cores q_mem q_pc q_base q_recv q_oc q_om q_early set_pc]; try apply Q; [done|].
    intros v' [= <-]. split; [done|]. split; [done|lia].
  - pose proof (got_value _ _ _ _ _ D Hq Hpc) as Hv. destruct (dq_got _ _ _ _ Q _ Hpc) as (H1 & H2 & H3). pose proof (dq_recv _ _ _ _ Q) as HR.
    refine (dj_shrink assign (mkDcm (d_tbl s) _ _ _) _ _ _); [|intros κ c Hc; by apply lookup_delete_Some in Hc as [_ ?]]. cbn [d_tbl d_cells d_reqs d_noted].
    set (r' := set_pc _ _). assert (R : rq_same r r' /\ q_pc r' = QWait /\ q_recv r' = S (q_recv r) /\
       q_oc r' = q_oc r ++ ((fun j => assign (q_id r + j)) <$> filter (fun j => j < q_cores r) [q_recv r]) /\
       q_om r' = q_om r ++ ((fun j => assign (q_id r + j)) <$> filter (fun j => ~ j < q_cores r) [q_recv r])).
    { unfold r', push_out. destruct (decide (q_recv r < q_cores r)) as [Hc|Hc]; simpl.
      - rewrite filter_cons_True, filter_cons_False by (simpl; auto). simpl. rewrite app_nil_r, <- Hv. done.
      - rewrite filter_cons_False, filter_cons_True by (simpl; auto). simpl. rewrite app_nil_r, <- Hv. done. }
    clearbody r'. destruct R as ((S1 & S2 & S3 & S4 & S5) & R1 & R2 & R3 & R4). assert (Rn : q_n r' = q_n r) by (unfold q_n; congruence).
    eapply dj_update; [done|done|congruence|congruence|done|].
    assert (HS : seq (length (q_early r)) (S (q_recv r) - length (q_early r)) = seq (length (q_early r)) (q_recv r - length (q_early r)) ++ [q_recv r]).
    { replace (S (q_recv r) - length (q_early r)) with (q_recv r - length (q_early r) + 1) by lia. rewrite seq_app. simpl. do 2 f_equal. lia. }
    split; rewrite ?S1, ?S2, ?S4, ?S5, ?R1, ?R2, ?R3, ?R4, ?Rn; try apply Q; try done.
    + lia.
    + intros i Hi. destruct (decide (i = q_recv r)) as [->|]; [by rewrite H2|]. apply (dq_polled _ _ _ _ Q). lia.
    + rewrite HS, app_assoc, filter_app, fmap_app. f_equal. apply Q.
    + rewrite HS, app_assoc, filter_app, fmap_app. f_equal. apply Q.
Qed.

Lemma dj_step assign s a : dj assign s -> sched_ok assign s a -> dj assign (dcm_step s a).
Proof. destruct a; intros D H; [by apply dj_begin|by apply dj_register|by apply dj_poll|by apply dj_notify]. Qed.
Lemma dj_run assign l : forall s, dj assign s -> sched_ok_run assign s l -> dj assign (dcm_run s l).
Proof. induction l as [|a l IH]; intros s D H; [done|]. destruct H as [H1 H2]. apply IH; [by apply dj_step|done]. Qed.

Lemma list_filter_all (P : nat -> Prop) `{forall x, Decision (P x)} l : Forall P l -> filter P l = l.
Proof. induction 1 as [|x l Hx _ IH]; [done|]. rewrite filter_cons_True by done. by rewrite IH. Qed.
Lemma list_filter_none (P : nat -> Prop) `{forall x, Decision (P x)} l : Forall (fun x => ~ P x) l -> filter P l = [].
Proof. induction 1 as [|x l Hx _ IH]; [done|]. by rewrite filter_cons_False by done. Qed.
Lemma filter_seq_lt c n : filter (fun j => j < c) (seq 0 (c + n)) = seq 0 c.
Proof.
  rewrite seq_app, filter_app. rewrite (list_filter_all _ (seq 0 c)); [|apply Forall_forall; intros x Hx%elem_of_seq; lia].
  rewrite (list_filter_none _ (seq (0 + c) n)); [by rewrite app_nil_r|]. apply Forall_forall. intros x Hx%elem_of_seq. lia.
Qed.
Lemma returned_seq assign s q r : dj assign s -> d_reqs s !! q = Some r -> returned r ->
  q_early r = seq 0 (length (q_early r)) /\ q_early r ++ seq (length (q_early r)) (q_recv r - length (q_early r)) = seq 0 (q_n r).
Proof.
  intros D Hq [Hpc Hr]. pose proof (j_req _ _ D _ _ Hq) as Q. pose proof (dq_recv _ _ _ _ Q).
  assert (HE : q_early r = seq 0 (length (q_early r))).
  { apply sorted_seq; [apply Q|]. intros x Hx. destruct (dq_early _ _ _ _ Q x Hx) as (H1 & _ & H2). split; [lia|]. simpl.
    destruct (decide (x < length (q_early r))); [done|]. exfalso. apply (dq_polled _ _ _ _ Q x); [lia|done]. }
  split; [done|]. rewrite HE at 1. replace (q_n r) with (length (q_early r) + (q_recv r - length (q_early r))) by lia. by rewrite seq_app.
Qed.
Lemma seq_fmap_shift (f : nat -> nat) a b n : (fun j => f (a + j)) <$> seq b n = f <$> seq (a + b) n.
Proof.
  revert b. induction n as [|n IH]; intros b; [done|]. cbn [seq]. rewrite !fmap_cons. f_equal. rewrite IH. do 2 f_equal. lia.
Qed.
Lemma returned_assigned assign s q r : dj assign s -> d_reqs s !! q = Some r -> returned r ->
  q_oc r = assign <$> seq (q_id r) (q_cores r) /\ q_om r = assign <$> seq (q_id r + q_cores r) (q_mem r).
Proof.
  intros D Hq HR. pose proof (j_req _ _ D _ _ Hq) as Q. destruct (returned_seq _ _ _ _ D Hq HR) as [_ HS].
  rewrite (dq_oc _ _ _ _ Q), (dq_om _ _ _ _ Q), HS. unfold q_n. split.
  - rewrite filter_seq_lt, seq_fmap_shift. by rewrite Nat.add_0_r.
  - rewrite seq_app, filter_app. rewrite list_filter_none, list_filter_all.
    + simpl. by rewrite seq_fmap_shift.
    + apply Forall_forall. intros x Hx%elem_of_seq. lia.
    + apply Forall_forall. intros x Hx%elem_of_seq. lia.
Qed.

(** ** What a step keeps *)
Definition kept (s s' : dcm) : Prop :=
  cells_ext (d_cells s) (d_cells s') (d_noted s) /\ (forall κ, κ ∈ (d_noted s).*1 -> κ ∈ (d_noted s').*1) /\
  (forall q r, d_reqs s !! q = Some r -> registered r -> exists r', d_reqs s' !! q = Some r' /\ registered r' /\ rq_same r r').
Lemma cells_ext_refl cs N : cells_ext cs cs N.
Proof. intros c x Hx. exists (c_val x). split; [by destruct x|by left]. Qed.
Lemma cells_ext_app cs cs' N : cells_ext cs (cs ++ cs') N.
Proof. intros c x Hx. exists (c_val x). split; [rewrite (lookup_app_l_Some _ _ _ _ Hx); by destruct x|by left]. Qed.
Lemma kept_refl s : kept s s.
Proof. split; [apply cells_ext_refl|]. split; [done|]. intros q r Hq Hr. by exists r. Qed.
Lemma kept_trans s1 s2 s3 : kept s1 s2 -> kept s2 s3 -> kept s1 s3.
Proof.
  intros (A1 & A2 & A3) (B1 & B2 & B3). split; [|split].
  - intros c x Hx. destruct (A1 c x Hx) as (v & Hv & C). destruct (B1 c _ Hv) as (v' & Hv' & C'). simpl in *. exists v'. split; [done|].
    destruct C' as [->|(C1 & C2 & C3)]; [done|]. destruct C as [<-|(C4 & C5 & C6)]; [|done].
    right. split; [done|]. split; [done|]. intros HN. apply C3. auto.
  - auto.
  - intros q r Hq Hr. destruct (A3 q r Hq Hr) as (r1 & H1 & H2 & H3). destruct (B3 q r1 H1 H2) as (r2 & H4 & H5 & H6). exists r2. split; [done|]. split; [done|].
    unfold rq_same in *. naive_solver congruence.
Qed.
Lemma kept_step assign s a : dj assign s -> sched_ok assign s a -> kept s (dcm_step s a).
Proof.
  intros D HS. destruct a as [id cores mem|q|q|id mid].
  - split; [apply cells_ext_app|]. split; [done|]. intros p r Hp Hr. exists r. cbn [dcm_step d_reqs]. by rewrite (lookup_app_l_Some _ _ _ _ Hp).
  - destruct (d_reqs s !! q) as [r|] eqn:Hq; [|cbn [dcm_step]; rewrite Hq; apply kept_refl].
    destruct (q_pc r) eqn:Hpc; [|cbn [dcm_step]; rewrite Hq, Hpc; apply kept_refl..].
    destruct (register_spec _ _ _ _ D Hq Hpc) as (E & tbl' & -> & _). split; [apply cells_ext_refl|]. split; [done|].
    intros p r' Hp Hr. cbn [d_reqs]. rewrite list_lookup_insert_ne by (intros ->; rewrite Hq in Hp; by injection Hp as <-). by exists r'.
  - cbn [dcm_step]. destruct (d_reqs s !! q) as [r|] eqn:Hq; [|apply kept_refl].
    destruct (q_pc r) as [| |v] eqn:Hpc; [apply kept_refl| |].
    + destruct (decide (q_recv r < q_n r)); [|apply kept_refl]. destruct (cell_val (d_cells s) (q_base r + q_recv r)) as [|v] eqn:Hv; [apply kept_refl|].
      split; [apply cells_ext_refl|]. split; [done|]. intros p r' Hp Hr. cbn [d_reqs]. destruct (decide (p = q)) as [->|].
      * rewrite Hq in Hp. injection Hp as <-. eexists. split; [by rewrite list_lookup_insert by (by eapply lookup_lt_Some)|]. done.
      * rewrite list_lookup_insert_ne by done. by exists r'.
    + split; [apply cells_ext_refl|]. split; [done|]. intros p r' Hp Hr. cbn [d_reqs]. destruct (decide (p = q)) as [->|].
      * rewrite Hq in Hp. injection Hp as <-. eexists. split; [by rewrite list_lookup_insert by (by eapply lookup_lt_Some)|]. split; [done|].
        unfold push_out. by destruct (decide (q_recv r < q_cores r)).
      * rewrite list_lookup_insert_ne by done. by exists r'.
  - destruct HS as (-> & Hnz & Hn). cbn [dcm_step]. unfold dcm_notify. destruct (d_tbl s !! id) as [c|] eqn:Ec.
    + destruct (j_tbl _ _ D _ _ Ec) as [v Hv]. assert (v = 0) as ->. { destruct (j_val _ _ D _ _ _ Hv) as [->|[_ ?]]; done. }
      split; [|split; [|intros p r Hp Hr; by exists r]]; cbn [d_cells d_noted].
      * intros c' x Hx. destruct (decide (c' = c)) as [->|Hne].
        -- rewrite Hx in Hv. injection Hv as ->. exists (assign id). rewrite list_lookup_alter, Hx. split; [done|]. right. done.
        -- exists (c_val x). rewrite list_lookup_alter_ne by done. rewrite Hx. split; [by destruct x|by left].
      * intros κ H. rewrite fmap_app. set_solver.
    + split; [apply cells_ext_app|]. split; [|intros p r Hp Hr; by exists r]. cbn [d_noted]. intros κ H. rewrite fmap_app. set_solver.
Qed.
Lemma kept_run assign l : forall s, dj assign s -> sched_ok_run assign s l -> kept s (dcm_run s l).
Proof.
  induction l as [|a l IH]; intros s D H; [apply kept_refl|]. destruct H as [H1 H2].
  eapply kept_trans; [by eapply kept_step|]. apply IH; [by apply dj_step|done].
Qed.
(** A notification that was lost stays lost. *)
Lemma lost_hangs assign s q r i l : dj assign s -> d_reqs s !! q = Some r -> registered r ->
  q_recv r <= i < q_n r -> cell_val (d_cells s) (q_base r + i) = 0 -> q_id r + i ∈ (d_noted s).*1 ->
  sched_ok_run assign s l -> forall r', d_reqs (dcm_run s l) !! q = Some r' -> ~ returned r'.
Proof.
  intros D Hq Hr Hi Hc HN HS r' Hr' [HP HR]. destruct (kept_run assign l s D HS) as (K1 & K2 & K3).
  destruct (K3 q r Hq Hr) as (r2 & E2 & _ & (S1 & S2 & S3 & S4 & S5)). rewrite Hr' in E2. injection E2 as <-.
  pose proof (dj_run assign l s D HS) as D'. pose proof (j_req _ _ D' _ _ Hr') as Q'. pose proof (dq_recv _ _ _ _ (j_req _ _ D _ _ Hq)).
  destruct (dq_cells _ _ _ _ (j_req _ _ D _ _ Hq) i ltac:(lia)) as [v Hv]. rewrite (cell_val_some _ _ _ Hv) in Hc. simpl in Hc. subst v.
  destruct (K1 _ _ Hv) as (v' & Hv' & C). simpl in *. destruct C as [->|(_ & _ & C)]; [|done].
  apply (dq_polled _ _ _ _ Q' i); [rewrite S5, HR; unfold q_n in *; lia|]. rewrite S4. by rewrite (cell_val_some _ _ _ Hv').
Qed.

(** ** Completion *)
Lemma polls_complete m : forall s q r, d_reqs s !! q = Some r -> registered r -> q_recv r <= q_n r ->
  (forall v, q_pc r = QGot v -> q_recv r < q_n r) ->
  (forall i, q_recv r <= i < q_n r -> cell_val (d_cells s) (q_base r + i) <> 0) ->
  2 * (q_n r - q_recv r) <= m + (match q_pc r with QGot _ => 1 | _ => 0 end) ->
  exists r', d_reqs (dcm_run s (replicate m (APoll q))) !! q = Some r' /\ returned r'.
Proof.
  induction m as [|m IH]; intros s q r Hq Hr Hle Hg Hc Hm.
  - exists r. split; [done|]. unfold registered in Hr. destruct (q_pc r) as [| |v] eqn:Hpc; [done| |].
    + split; [done|lia].
    + specialize (Hg v eq_refl). lia.
  - cbn [replicate dcm_run dcm_step]. rewrite Hq. unfold registered in Hr. destruct (q_pc r) as [| |v] eqn:Hpc; [done| |].
    + destruct (decide (q_recv r < q_n r)) as [Hlt|Hge].
      * pose proof (Hc (q_recv r) ltac:(lia)) as Hv. destruct (cell_val (d_cells s) (q_base r + q_recv r)) as [|v]; [done|].
        eapply (IH _ _ (set_pc r (QGot (S v)))); [cbn [d_reqs]; by rewrite list_lookup_insert by (by eapply lookup_lt_Some)|done|done|done|done|].
        change (q_recv (set_pc r (QGot (S v)))) with (q_recv r). change (q_n (set_pc r (QGot (S v)))) with (q_n r). cbn [q_pc set_pc]. lia.
      * eapply (IH s q r); rewrite ?Hpc; [done|by unfold registered; rewrite Hpc|done|by intros v|done|lia].
    + specialize (Hg v eq_refl). set (r' := set_pc _ _).
      assert (R : q_pc r' = QWait /\ q_recv r' = S (q_recv r) /\ q_n r' = q_n r /\ q_base r' = q_base r).
      { unfold r', push_out. by destruct (decide (q_recv r < q_cores r)). }
      clearbody r'. destruct R as (R1 & R2 & R3 & R4).
      eapply (IH _ _ r'); rewrite ?R1, ?R2, ?R3, ?R4; [cbn [d_reqs]; by rewrite list_lookup_insert by (by eapply lookup_lt_Some)|by unfold registered; rewrite R1|lia|done| |lia].
      cbn [d_cells]. intros i Hi. apply Hc. lia.
Qed.

Record dk (s : dcm) : Prop := {
  k_early : forall p r, d_reqs s !! p = Some r -> registered r -> q_early r = [];
  k_tbl : forall p r i, d_reqs s !! p = Some r -> registered r -> q_recv r <= i < q_n r -> d_tbl s !! (q_id r + i) = Some (q_base r + i);
  k_cell : forall p r i, d_reqs s !! p = Some r -> registered r -> i < q_n r -> q_id r + i ∈ (d_noted s).*1 -> cell_val (d_cells s) (q_base r + i) <> 0;
  k_noted : forall κ, κ ∈ (d_noted s).*1 -> exists p r, d_reqs s !! p = Some r /\ registered r /\ of_req r κ
}.
Lemma dk_init : dk dcm_init.
Proof. split; simpl; try done. intros κ H. by apply elem_of_nil in H. Qed.
Lemma dk_step assign s a : dj assign s -> dk s -> sched_ok assign s a -> timely s a -> dk (dcm_step s a).
Proof.
  intros D K HS HT. destruct a as [id cores mem|q|q|id mid].
  - cbn [dcm_step]. split; cbn [d_tbl d_cells d_reqs d_noted].
    + intros p r Hp Hr. apply lookup_app_Some in Hp as [Hp|[_ Hp]]; [by eapply k_early|]. by apply list_lookup_singleton_Some in Hp as [_ <-].
    + intros p r i Hp Hr. apply lookup_app_Some in Hp as [Hp|[_ Hp]]; [by eapply k_tbl|]. by apply list_lookup_singleton_Some in Hp as [_ <-].
    + intros p r i Hp Hr Hi HN. apply lookup_app_Some in Hp as [Hp|[_ Hp]].
      * destruct (dq_cells _ _ _ _ (j_req _ _ D _ _ Hp) i Hi) as [v Hv]. rewrite (cell_val_app _ _ _ _ Hv). by eapply k_cell.
      * by apply list_lookup_singleton_Some in Hp as [_ <-].
    + intros κ Hκ. destruct (k_noted _ K κ Hκ) as (p & r & Hp & Hr). exists p, r. split; [by apply lookup_app_l_Some|done].
  - destruct (d_reqs s !! q) as [r|] eqn:Hq; [|by cbn [dcm_step]; rewrite Hq].
    destruct (q_pc r) eqn:Hpc; [|by cbn [dcm_step]; rewrite Hq, Hpc..].
    assert (HNN : forall j, j < q_n r -> q_id r + j ∉ (d_noted s).*1).
    { intros j Hj HN. destruct (k_noted _ K _ HN) as (p & r1 & Hp & Hr1 & Ho). destruct (decide (p = q)) as [->|Hne].
      - rewrite Hq in Hp. injection Hp as <-. done.
      - eapply (j_disj _ _ D p q r1 r); [done|done|done|exact Ho|]. unfold of_req. lia. }
    destruct (register_spec _ _ _ _ D Hq Hpc) as (E & tbl' & -> & ES & EE & ET & EU & EN).
    assert (E = []) as ->. { destruct E as [|j E]; [done|]. destruct (EE j ltac:(left)) as [E1 E2]. by apply HNN in E2. }
    split; cbn [d_tbl d_cells d_reqs d_noted].
    + intros p r1 Hp Hr1. apply list_lookup_insert_Some in Hp as [(<- & <- & _)|[_ Hp]]; [done|by eapply k_early].
    + intros p r1 i Hp Hr1 Hi. apply list_lookup_insert_Some in Hp as [(<- & <- & _)|[Hne Hp]].
      * destruct (EN eq_refl i) as [X _]; [|done]. apply Hi.
      * rewrite EU; [by eapply k_tbl| |by left]. intros Ho. eapply (j_disj _ _ D p q r1 r); [done|done|done| |exact Ho]. unfold of_req. lia.
    + intros p r1 i Hp Hr1 Hi HN. apply list_lookup_insert_Some in Hp as [(<- & <- & _)|[Hne Hp]]; [|by eapply k_cell].
      by apply HNN in HN.
    + intros κ Hκ. destruct (k_noted _ K κ Hκ) as (p & r1 & Hp & Hr1 & Ho). exists p, r1. split; [|done].
      rewrite list_lookup_insert_ne; [done|]. intros ->. rewrite Hq in Hp. by injection Hp as <-.
  - assert (U : forall r r', d_reqs s !! q = Some r -> rq_same r r' -> registered r -> registered r' -> q_recv r <= q_recv r' -> forall tbl,
        (forall κ, tbl !! κ = d_tbl s !! κ \/ (κ = q_id r + q_recv r /\ q_recv r < q_recv r' <= q_n r)) ->
        dk (mkDcm tbl (d_cells s) (<[q := r']> (d_reqs s)) (d_noted s))).
    { intros r r' Hq (S1 & S2 & S3 & S4 & S5) Hr Hr' Hle tbl HTB. assert (Rn : q_n r' = q_n r) by (unfold q_n; congruence).
      split; cbn [d_tbl d_cells d_reqs d_noted].
      - intros p r1 Hp Hr1. apply list_lookup_insert_Some in Hp as [(<- & <- & _)|[_ Hp]]; [rewrite S5|]; by eapply k_early.
      - intros p r1 i Hp Hr1 Hi. apply list_lookup_insert_Some in Hp as [(<- & <- & _)|[Hne Hp]].
        + rewrite S1, S4. destruct (HTB (q_id r + i)) as [->|[? ?]]; [|lia]. eapply k_tbl; [done|done|done|lia].
        + destruct (HTB (q_id r1 + i)) as [->|[HE ?]]; [by eapply k_tbl|]. exfalso.
          eapply (j_disj _ _ D p q r1 r (q_id r1 + i)); [done|done|done|unfold of_req; lia..].
      - intros p r1 i Hp Hr1 Hi HN. apply list_lookup_insert_Some in Hp as [(<- & <- & _)|[Hne Hp]]; [|by eapply k_cell].
        rewrite S4. eapply k_cell; [done|done|done|lia|by rewrite <- S1].
      - intros κ Hκ. destruct (k_noted _ K κ Hκ) as (p & r1 & Hp & Hr1 & Ho). destruct (decide (p = q)) as [->|Hne].
        + rewrite Hq in Hp. injection Hp as <-. exists q, r'. split; [by rewrite list_lookup_insert by (by eapply lookup_lt_Some)|]. split; [done|].
          unfold of_req. by rewrite Rn, S1.
        + exists p, r1. by rewrite list_lookup_insert_ne. }
    cbn [dcm_step]. destruct (d_reqs s !! q) as [r|] eqn:Hq; [|done].
    destruct (q_pc r) as [| |v] eqn:Hpc; [done| |].
    + destruct (decide (q_recv r < q_n r)); [|done]. destruct (cell_val (d_cells s) (q_base r + q_recv r)) as [|v] eqn:Hv; [done|].
      eapply U; [done|done|by unfold registered; rewrite Hpc|done|done|]. intros κ. by left.
    + pose proof (dq_got _ _ _ _ (j_req _ _ D _ _ Hq) _ Hpc) as (H1 & _). set (r' := set_pc _ _).
      assert (R : rq_same r r' /\ q_pc r' = QWait /\ q_recv r' = S (q_recv r)). { unfold r', push_out. by destruct (decide (q_recv r < q_cores r)). }
      clearbody r'. destruct R as (R1 & R2 & R3).
      eapply (U r); [done|done|by unfold registered; rewrite Hpc|by unfold registered; rewrite R2|lia|].
      intros κ. destruct (decide (κ = q_recv r + q_id r)) as [->|Hne]; [right; lia|left; by rewrite lookup_delete_ne].
  - destruct HS as (-> & Hnz & Hn). destruct HT as (r & Hin & Hr & Ho). apply elem_of_list_lookup in Hin as [q Hq].
    set (i := id - q_id r). assert (Hi : i < q_n r) by (unfold of_req in Ho; lia). assert (Hid : id = q_id r + i) by (unfold of_req in Ho; lia). clearbody i.
    pose proof (j_req _ _ D _ _ Hq) as Q. assert (Hge : q_recv r <= i).
    { destruct (decide (q_recv r <= i)); [done|]. exfalso. pose proof (k_early _ K _ _ Hq Hr) as HE.
      pose proof (dq_polled _ _ _ _ Q i) as HP. rewrite HE in HP. specialize (HP ltac:(simpl; lia)). destruct (dq_cells _ _ _ _ Q i Hi) as [v Hv].
      rewrite (cell_val_some _ _ _ Hv) in HP. simpl in HP. destruct (j_val _ _ D _ _ _ Hv) as [->|[_ HN]]; [done|]. by rewrite <- Hid in HN. }
    pose proof (k_tbl _ K _ _ i Hq Hr ltac:(lia)) as Ht. cbn [dcm_step]. unfold dcm_notify. rewrite Hid, Ht. rewrite <- Hid.
    destruct (dq_cells _ _ _ _ Q i Hi) as [v Hv].
    split; cbn [d_tbl d_cells d_reqs d_noted]; try apply K.
    + intros p r1 j Hp Hr1 Hj HN. unfold cell_val. destruct (decide (q_base r1 + j = q_base r + i)) as [He|He].
      * rewrite He, list_lookup_alter, Hv. done.
      * rewrite list_lookup_alter_ne by done. fold (cell_val (d_cells s) (q_base r1 + j)). eapply k_cell; [done|done|done|done|].
        rewrite fmap_app, elem_of_app in HN. destruct HN as [HN|HN]; [done|]. exfalso. simpl in HN. apply elem_of_list_singleton in HN.
        destruct (decide (p = q)) as [->|Hne].
        -- rewrite Hq in Hp. injection Hp as <-. apply He. lia.
        -- eapply (j_disj _ _ D p q r1 r id); [done|done|done|unfold of_req; lia..].
    + intros κ. rewrite fmap_app, elem_of_app. intros [Hκ|Hκ]; [by apply K|]. simpl in Hκ. apply elem_of_list_singleton in Hκ as ->. by exists q, r.
Qed.
Lemma dk_run assign l : forall s, dj assign s -> dk s -> sched_ok_run assign s l -> timely_run s l -> dk (dcm_run s l).
Proof.
  induction l as [|a l IH]; intros s D K H T; [done|]. destruct H as [H1 H2], T as [T1 T2]. apply IH; [by apply dj_step|by eapply dk_step|done..].
Qed.
