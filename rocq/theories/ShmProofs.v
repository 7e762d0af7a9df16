From Verif Require Import Base QueueModel ShmModel ShmSpec.
From Coq Require Import Sorting.Sorted Sorting.Permutation.

(** ** Numbering *)
Lemma insert_perm d l : Permutation (s_insert d l) (d :: l).
Proof.
  induction l as [|e l IH]; simpl; [done|]. destruct (sd_dev d <=? sd_dev e)%N; [done|].
  rewrite IH. apply perm_swap.
Qed.
Lemma sort_perm l : Permutation (foldr s_insert [] l) l.
Proof. induction l as [|d l IH]; simpl; [done|]. rewrite insert_perm. by apply perm_skip. Qed.
Definition dle (d e : sdev) : Prop := (sd_dev d <= sd_dev e)%N.
Lemma insert_sorted d l : StronglySorted dle l -> StronglySorted dle (s_insert d l).
Proof.
  induction 1 as [|e l H IH F]; simpl; [repeat constructor|].
  destruct (N.leb_spec (sd_dev d) (sd_dev e)) as [L|L].
  - constructor; [by constructor|]. constructor; [done|].
    eapply List.Forall_impl; [|exact F]. intros x Hx. unfold dle in *. lia.
  - constructor; [done|]. rewrite insert_perm. constructor; [unfold dle; lia|done].
Qed.
Lemma sort_sorted l : StronglySorted dle (foldr s_insert [] l).
Proof. induction l as [|d l IH]; simpl; [constructor|]. by apply insert_sorted. Qed.
Lemma sorted_unique l l' : StronglySorted dle l -> StronglySorted dle l' -> Permutation l l' ->
  NoDup (map sd_dev l) -> l = l'.
Proof.
  intros H. revert l'. induction H as [|d l H IH F]; intros l' H' P ND.
  - by apply Permutation_nil in P.
  - destruct H' as [|d' l' H' F']; [by apply Permutation_sym, Permutation_nil in P|].
    assert (E : d = d').
    { pose proof (Permutation_in d' (Permutation_sym P) (or_introl eq_refl)) as [E|I]; [done|].
      pose proof (Permutation_in d P (or_introl eq_refl)) as [E|I']; [done|].
      exfalso. pose proof (proj1 (List.Forall_forall _ _) F _ I) as A.
      pose proof (proj1 (List.Forall_forall _ _) F' _ I') as B. unfold dle in A, B.
      simpl in ND. inversion ND as [|a b C D]; subst. apply C. apply elem_of_list_In.
      replace (sd_dev d) with (sd_dev d') by lia. by apply in_map. }
    subst d'. f_equal. apply IH; [done| |].
    + by apply Permutation_cons_inv in P.
    + simpl in ND. by inversion ND.
Qed.

(** ** Which machine an address belongs to *)
Lemma frame_some s mid : shm_ok s -> machine s mid -> exists d f, sh_devs s !! mid = Some d /\
  s_frame s mid = Some f /\ (sf_base f + sf_size f = sd_base d + sd_size d)%N /\ sf_aff f = MAXN + mid /\
  (forall x, mem_of s mid x <-> (sf_base f <= x < sf_base f + sf_size f)%N).
Proof.
  intros OK M. destruct (lookup_lt_is_Some_2 (sh_devs s) mid) as [d D].
  { pose proof (so_num s OK). unfold machine in M. lia. }
  pose proof (proj1 (stdpp.list.Forall_lookup _ _) (so_low s OK) _ _ D) as [L1 L2]. exists d.
  unfold s_frame. rewrite D. unfold TSIZE, mid_to_shmem_affinity, mem_of, in_dev.
  destruct (sh_shmem s) eqn:Sh; cbn [andb].
  - destruct (Nat.eqb_spec mid 0) as [Z|Z]; cbn [negb].
    + eexists. split; [done|]. split; [done|]. cbn [sf_base sf_size sf_aff]. split; [done|]. split; [done|].
      intros x. split.
      * intros (d' & D' & I & _). rewrite D in D'. injection D' as <-. lia.
      * intros I. exists d. split; [done|]. split; [lia|]. by intros.
    + destruct (N.ltb_spec (sd_size d) 2097152) as [C|C]; [lia|].
      eexists. split; [done|]. split; [done|]. cbn [sf_base sf_size sf_aff]. split; [lia|]. split; [done|].
      intros x. split.
      * intros (d' & D' & I & G). rewrite D in D'. injection D' as <-. specialize (G eq_refl Z). lia.
      * intros I. exists d. split; [done|]. split; [lia|]. intros _ _. lia.
  - eexists. split; [done|]. split; [done|]. cbn [sf_base sf_size sf_aff]. split; [done|]. split; [done|].
    intros x. split.
    + intros (d' & D' & I & _). rewrite D in D'. injection D' as <-. lia.
    + intros I. exists d. split; [done|]. split; [lia|]. by intros.
Qed.
Lemma find_spec s k x : shm_ok s -> forall mids, Forall (machine s) mids -> StronglySorted lt mids ->
  match s_find s (x + s_off k) k mids with
  | None => False
  | Some None => Forall (fun m => ~ mem_of s m x /\ ~ ends_at s m x) mids
  | Some (Some mid) => mid ∈ mids /\ (mem_of s mid x \/ ends_at s mid x) /\
      Forall (fun m => m < mid -> ~ mem_of s m x /\ ~ ends_at s m x) mids
  end.
Proof.
  intros OK. induction mids as [|m mids IH]; intros M Srt; cbn [s_find]; [by constructor|].
  inversion M as [|? ? M1 M2]; subst. inversion Srt as [|? ? S1 S2]; subst.
  destruct (frame_some s m OK M1) as (d & f & D & F & E & _ & W). rewrite F.
  destruct (N.leb_spec (sf_base f + s_off k) (x + s_off k)) as [A|A]; cbn [andb].
  - destruct (N.leb_spec (x + s_off k) (sf_base f + s_off k + sf_size f)) as [B|B].
    + split; [by left|]. split.
      * destruct (decide (x = sd_base d + sd_size d)%N) as [Q|Q]; [right; exists d; done|left; apply W; lia].
      * constructor; [lia|]. eapply List.Forall_impl; [|exact S2]. simpl. intros z Hz. lia.
    + assert (NN : ~ mem_of s m x /\ ~ ends_at s m x).
      { split; [intros I; apply W in I; lia|]. intros (d' & D' & Q). rewrite D in D'. injection D' as <-. lia. }
      specialize (IH M2 S1). destruct (s_find s (x + s_off k) k mids) as [[mid|]|]; [|by constructor|done].
      destruct IH as (I1 & I2 & I3). split; [by right|]. split; [done|]. by constructor.
  - assert (NN : ~ mem_of s m x /\ ~ ends_at s m x).
    { split; [intros I; apply W in I; lia|]. intros (d' & D' & Q). rewrite D in D'. injection D' as <-. lia. }
    specialize (IH M2 S1). destruct (s_find s (x + s_off k) k mids) as [[mid|]|]; [|by constructor|done].
    destruct IH as (I1 & I2 & I3). split; [by right|]. split; [done|]. by constructor.
Qed.
Lemma seq_sorted n : forall a, StronglySorted lt (seq a n).
Proof.
  induction n as [|n IH]; intros a; simpl; constructor; [apply IH|].
  apply stdpp.list.Forall_forall. intros x Hx. apply elem_of_seq in Hx. lia.
Qed.
Lemma index_spec s k x : shm_ok s ->
  match s_index s (x + s_off k) k with
  | None => False
  | Some None => forall m, machine s m -> ~ mem_of s m x /\ ~ ends_at s m x
  | Some (Some mid) => machine s mid /\ (mem_of s mid x \/ ends_at s mid x) /\
      (forall m, m < mid -> ~ mem_of s m x /\ ~ ends_at s m x)
  end.
Proof.
  intros OK. unfold s_index.
  pose proof (find_spec s k x OK (seq 0 (sh_machines s))) as H.
  assert (FM : Forall (machine s) (seq 0 (sh_machines s))).
  { apply stdpp.list.Forall_forall. intros m Hm. apply elem_of_seq in Hm. unfold machine. lia. }
  specialize (H FM (seq_sorted _ _)). destruct (s_find _ _ _ _) as [[mid|]|]; [|  |done].
  - destruct H as (I & J & K). apply elem_of_seq in I. split; [unfold machine; lia|]. split; [done|].
    intros m Hm. refine (proj1 (stdpp.list.Forall_forall _ _) K m _ Hm). apply elem_of_seq. lia.
  - intros m Hm. refine (proj1 (stdpp.list.Forall_forall _ _) H m _). apply elem_of_seq. unfold machine in Hm. lia.
Qed.
Lemma mem_dev s m x : mem_of s m x -> exists d, sh_devs s !! m = Some d /\ in_dev d x.
Proof. intros (d & D & I & _). by exists d. Qed.
Lemma mem_apart s m m' x : shm_ok s -> mem_of s m x -> mem_of s m' x -> m = m'.
Proof.
  intros OK A B. destruct (mem_dev _ _ _ A) as (d & D & I). destruct (mem_dev _ _ _ B) as (d' & D' & I').
  by eapply (so_apart s OK).
Qed.
Lemma aff_spec s k mid x : shm_ok s -> machine s mid ->
  exists b, s_is_addr_aff s (x + s_off k) (MAXN + mid) k = Some b /\ (b = true <-> mem_of s mid x).
Proof.
  intros OK M. unfold s_is_addr_aff, shmem_affinity_to_mid.
  destruct (Nat.leb_spec MAXN (MAXN + mid)) as [C|C]; [|lia]. replace (MAXN + mid - MAXN) with mid by lia.
  destruct (frame_some s mid OK M) as (d & f & D & F & E & _ & W). rewrite F. eexists. split; [done|].
  rewrite W, andb_true_iff, N.leb_le, N.ltb_lt. lia.
Qed.

(** ** The allocator *)
Definition al_inv (s : alst) (bs : list (N * N)) : Prop :=
  (al_base s <= al_next s <= al_base s + al_size s)%N /\
  Forall (fun b => (al_base s <= fst b)%N /\ (fst b + snd b <= al_next s)%N) bs /\
  (forall i j b b', bs !! i = Some b -> bs !! j = Some b' -> i < j -> (fst b + snd b <= fst b')%N) /\
  Forall (fun p => match p with LWait cur _ => (al_base s <= cur)%N | _ => True end) (al_th s).
Lemma al_step_inv s i a s' e bs : al_step s i a = Some (s', e) -> al_inv s bs ->
  al_inv s' (bs ++ e) /\ al_base s' = al_base s /\ al_size s' = al_size s.
Proof.
  intros E (I1 & I2 & I3 & I4). unfold al_step in E.
  destruct (al_th s !! i) as [[|cur size|]|] eqn:T; try discriminate; destruct a as [size' al|weak]; try discriminate.
  - injection E as <- <-. rewrite app_nil_r. split; [|done].
    split; [done|]. split; [done|]. split; [done|]. cbn [al_th al_base]. apply Forall_insert; [done|lia].
  - destruct (N.ltb_spec (al_base s + al_size s) (cur + size)) as [C|C].
    + injection E as <- <-. rewrite app_nil_r. split; [|done].
      split; [done|]. split; [done|]. split; [done|]. cbn [al_th al_base]. by apply Forall_insert.
    + destruct (N.eqb_spec (al_next s) cur) as [Q|Q]; cbn [andb] in E.
      * destruct weak; cbn [negb] in E.
        { injection E as <- <-. rewrite app_nil_r. split; [|done].
          split; [done|]. split; [done|]. split; [done|]. cbn [al_th al_base]. by apply Forall_insert. }
        injection E as <- <-. split; [|done]. unfold al_inv. cbn [al_base al_size al_next al_th].
        pose proof (proj1 (stdpp.list.Forall_lookup _ _) I4 _ _ T) as L. simpl in L.
        split; [lia|]. split; [|split].
        -- apply stdpp.list.Forall_app. split; [eapply List.Forall_impl; [|exact I2]; simpl; intros b Hb; lia|].
           apply stdpp.list.Forall_singleton. simpl. lia.
        -- intros p q b b' Hp Hq Lt. apply lookup_app_Some in Hq as [Hq|[Hq1 Hq2]].
           { apply lookup_lt_Some in Hq as Hl. rewrite lookup_app_l in Hp by lia. eauto. }
           apply list_lookup_singleton_Some in Hq2 as [Hz <-]. rewrite lookup_app_l in Hp by lia.
           pose proof (proj1 (stdpp.list.Forall_lookup _ _) I2 _ _ Hp) as [_ L']. cbn [fst]. lia.
        -- by apply Forall_insert.
      * injection E as <- <-. rewrite app_nil_r. split; [|done].
        split; [done|]. split; [done|]. split; [done|]. cbn [al_th al_base]. by apply Forall_insert.
Qed.
Lemma al_run_inv l : forall s s' e bs, al_run s l = Some (s', e) -> al_inv s bs ->
  al_inv s' (bs ++ e) /\ al_base s' = al_base s /\ al_size s' = al_size s.
Proof.
  induction l as [|[i a] l IH]; intros s s' e bs R I; cbn [al_run] in R.
  - injection R as <- <-. by rewrite app_nil_r.
  - destruct (al_step s i a) as [[s1 e1]|] eqn:E; [|discriminate].
    destruct (al_run s1 l) as [[s2 e2]|] eqn:E2; [|discriminate]. injection R as <- <-.
    destruct (al_step_inv _ _ _ _ _ _ E I) as (I' & B1 & B2). destruct (IH _ _ _ _ E2 I') as (I'' & B3 & B4).
    rewrite <- app_assoc in I''. split; [done|]. by rewrite B3, B4.
Qed.
Lemma al_new_inv base size n : al_inv (al_new base size n) [].
Proof.
  unfold al_inv, al_new. cbn. split; [lia|]. split; [constructor|]. split; [intros i j b b' H; by rewrite lookup_nil in H|].
  apply Forall_replicate. done.
Qed.

(** ** The queues *)
Lemma parts_in c mem b : b ∈ q_parts c mem -> (mem <= fst b)%N /\ (fst b + snd b <= mem + q_bytes c)%N.
Proof.
  unfold q_parts, q_bytes, NODE. set (n := round_capacity c). intros H.
  apply elem_of_app in H as [H|H].
  - repeat (apply elem_of_cons in H as [->|H]; [cbn [fst snd]; lia|]). by apply elem_of_nil in H.
  - apply elem_of_list_In, in_flat_map in H as (i & Hi & H). apply in_seq in Hi.
    assert (L : (N.of_nat i * 8208 + 8208 <= N.of_nat n * 8208)%N) by nia. apply elem_of_list_In in H.
    repeat (apply elem_of_cons in H as [->|H]; [cbn [fst snd]; lia|]). by apply elem_of_nil in H.
Qed.
Definition before (b b' : N * N) : Prop := (fst b + snd b <= fst b')%N.
Lemma nodes_sorted mem n : forall k, StronglySorted before (flat_map (fun i =>
    let a := (mem + 16 + N.of_nat i * NODE)%N in [(a, 8%N); ((a + 8)%N, 2%N); ((a + 10)%N, 8192%N)]) (seq k n)) /\
  Forall (fun b => (mem + 16 + N.of_nat k * NODE <= fst b)%N) (flat_map (fun i =>
    let a := (mem + 16 + N.of_nat i * NODE)%N in [(a, 8%N); ((a + 8)%N, 2%N); ((a + 10)%N, 8192%N)]) (seq k n)).
Proof.
  induction n as [|n IH]; intros k; [split; constructor|].
  cbn [seq flat_map]. specialize (IH (S k)). destruct IH as [H1 H2].
  set (a := (mem + 16 + N.of_nat k * NODE)%N) in *.
  assert (A : (a + NODE <= mem + 16 + N.of_nat (S k) * NODE)%N) by (unfold a, NODE; nia). unfold NODE in A at 1.
  cbn [app]. split.
  - repeat (constructor; [|repeat (constructor; [unfold before; cbn [fst snd]; lia|]);
      eapply List.Forall_impl; [|exact H2]; unfold before; cbn [fst snd]; intros b Hb; lia]). done.
  - repeat (constructor; [cbn [fst snd]; lia|]). eapply List.Forall_impl; [|exact H2]. cbn [fst snd]. intros b Hb. lia.
Qed.
Lemma parts_sorted c mem : StronglySorted before (q_parts c mem).
Proof.
  unfold q_parts. destruct (nodes_sorted mem (round_capacity c) 0) as [H1 H2].
  cbn [app]. set (l := flat_map _ _) in *. clearbody l. unfold NODE in H2.
  repeat (constructor; [|repeat (constructor; [unfold before; cbn [fst snd]; lia|]);
      eapply List.Forall_impl; [|exact H2]; unfold before; cbn [fst snd]; intros b Hb; lia]). done.
Qed.
Lemma sorted_lookup {A} (R : A -> A -> Prop) l : StronglySorted R l -> forall i j a b,
  l !! i = Some a -> l !! j = Some b -> i < j -> R a b.
Proof.
  induction 1 as [|x l H IH F]; intros i j a b Hi Hj L; [by rewrite lookup_nil in Hi|].
  destruct j as [|j]; [lia|]. cbn in Hj. destruct i as [|i]; cbn in Hi.
  - injection Hi as <-. exact (proj1 (stdpp.list.Forall_lookup _ _) F _ _ Hj).
  - eapply IH; eauto. lia.
Qed.
Lemma qcap_bytes : q_bytes QCAP = 262672%N.
Proof. vm_compute. reflexivity. Qed.
Lemma q_new_ok al c : al_th al !! 0 = Some LIdle -> (al_next al + q_bytes c <= al_base al + al_size al)%N ->
  exists th, q_new al c = Some (Al (al_base al) (al_size al) (al_next al + q_bytes c) th, al_next al) /\ th !! 0 = Some LIdle.
Proof.
  intros T L. unfold q_new. cbn [al_run]. unfold al_step at 1. rewrite T. cbn [al_step al_th al_base al_size al_next].
  assert (LT : 0 < length (al_th al)) by (by apply lookup_lt_Some in T).
  unfold al_step. cbn [al_th al_base al_size al_next]. rewrite list_lookup_insert by done.
  destruct (N.ltb_spec (al_base al + al_size al) (al_next al + q_bytes c)) as [C|C]; [lia|].
  rewrite N.eqb_refl. cbn [andb negb app]. eexists. split; [done|].
  apply list_lookup_insert. rewrite insert_length. done.
Qed.
Lemma transport_ok s mid : shm_ok s -> machine s mid -> exists d, sh_devs s !! mid = Some d /\
  let q := (sd_base d + SKB)%N in
  s_transport s mid MController = Ok (q, (q + q_bytes QCAP)%N) /\
  s_transport s mid MClient = Ok ((q + q_bytes QCAP)%N, q) /\
  s_transport s mid MNative = Err NotSupported.
Proof.
  intros OK M. destruct (lookup_lt_is_Some_2 (sh_devs s) mid) as [d D].
  { pose proof (so_num s OK). unfold machine in M. lia. }
  pose proof (proj1 (stdpp.list.Forall_lookup _ _) (so_low s OK) _ _ D) as [L1 L2]. exists d. split; [done|].
  cbn zeta. unfold s_transport. rewrite D. unfold TSIZE at 1 3 5.
  destruct (N.ltb_spec (sd_size d) 2097152) as [C|C]; [lia|].
  set (al := al_new (sd_base d + SKB) TSIZE 1).
  assert (QB := qcap_bytes).
  destruct (q_new_ok al QCAP) as (th & Q1 & T1).
  { done. } { rewrite QB. unfold al, al_new, TSIZE. cbn. lia. }
  rewrite Q1. destruct (q_new_ok (Al (al_base al) (al_size al) (al_next al + q_bytes QCAP) th) QCAP) as (th2 & Q2 & T2).
  { done. } { rewrite QB. unfold al, al_new, TSIZE. cbn. lia. }
  rewrite Q2. split; [done|]. split; done.
Qed.
