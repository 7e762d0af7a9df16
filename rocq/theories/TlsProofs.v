(** Proofs for thread-local storage (C68). *)
From Verif Require Import Base InfModel InfProofs TlsModel TlsSpec.
Local Open Scope N_scope.

Lemma round_up_id n a : 0 < a -> n mod a = 0 -> round_up n a = n.
Proof.
  intros Ha H. unfold round_up. pose proof (N.div_mod n a ltac:(lia)) as E. rewrite H, N.add_0_r in E.
  rewrite E at 1. rewrite (N.mul_comm a), N.div_add_l by lia. rewrite (N.div_small (a - 1) a) by lia. lia.
Qed.
Lemma tzero_out m a n x : ~ (a <= x < a + n) -> tzero m a n x = m x.
Proof.
  intros H. unfold tzero. destruct (a <=? x) eqn:E1, (x <? a + n) eqn:E2; try done.
  apply N.leb_le in E1. apply N.ltb_lt in E2. lia.
Qed.
Lemma tzero_in m a n x : a <= x < a + n -> tzero m a n x = 0.
Proof. intros [H1 H2]. unfold tzero. by rewrite (proj2 (N.leb_le _ _) H1), (proj2 (N.ltb_lt _ _) H2). Qed.
Lemma tpoke_out m a l x : ~ (a <= x < a + N.of_nat (length l)) -> tpoke m a l x = m x.
Proof.
  intros H. unfold tpoke. destruct (a <=? x) eqn:E1, (x <? a + N.of_nat (length l)) eqn:E2; try done.
  apply N.leb_le in E1. apply N.ltb_lt in E2. lia.
Qed.
Lemma tpoke_in m a l x : a <= x < a + N.of_nat (length l) -> tpoke m a l x = nth (N.to_nat (x - a)) l 0.
Proof. intros [H1 H2]. unfold tpoke. by rewrite (proj2 (N.leb_le _ _) H1), (proj2 (N.ltb_lt _ _) H2). Qed.

Section run.
  Context (tcbsz total align lalign : N) (data : list N).
  Context (Ha : 0 < align) (Hd : N.of_nat (length data) <= total) (Hz : total mod align = 0) (H8 : 8 <= tcbsz).
  Notation size := (total + tcbsz).
  Notation step := (t_step size tcbsz total align data).
  Notation run := (t_run size tcbsz total align data).

  Lemma addr_eq fs v : total <= fs -> tv_addr total align fs v = match v with VVar o => fs - total + o | VField k => fs + k end.
  Proof. intros H. destruct v; [|done]. cbn. rewrite round_up_id by done. lia. Qed.

  Definition area (m : N -> N) (t : N) (val : tvar -> N) : Prop :=
    total < t /\ t + tcbsz <= 2 ^ 64 /\
    (forall v, in_range tcbsz total v -> m (tv_addr total align t v) = val v) /\
    (forall j, (j < 8)%nat -> m (t + N.of_nat j) = nth j (le 8 t) 0).
  Definition apart (t u : N) : Prop := t + tcbsz <= u - total \/ u + tcbsz <= t - total.
  Definition tinv (s : tstate) (sp : tspec) : Prop :=
    length (ts_tcb s) = sp_n sp /\
    (forall i t, ts_tcb s !! i = Some t -> area (ts_mem s) t (sp_val sp i)) /\
    (forall i j t u, ts_tcb s !! i = Some t -> ts_tcb s !! j = Some u -> i <> j -> apart t u) /\
    (forall c i, sp_cur sp c = Some i -> exists t, ts_tcb s !! i = Some t /\ ts_fs s c = t).

  (** An address of the block of [t]. *)
  Definition inside (t a : N) : Prop := t - total <= a < t + tcbsz.
  Lemma addr_inside t v : total < t -> in_range tcbsz total v -> inside t (tv_addr total align t v).
  Proof. intros Ht Hv. rewrite addr_eq by lia. unfold inside. destruct v; cbn in Hv; lia. Qed.
  Lemma area_eq m m' t val : area m t val -> (forall a, inside t a -> m' a = m a) -> area m' t val.
  Proof.
    intros (A1 & A2 & A3 & A4) H. split; [done|]. split; [done|]. split.
    - intros v Hv. rewrite H; [by apply A3|by apply addr_inside].
    - intros j Hj. rewrite H; [by apply A4|unfold inside; lia].
  Qed.
  Lemma addr_inj t v w : total < t -> in_range tcbsz total v -> in_range tcbsz total w ->
    tv_addr total align t v = tv_addr total align t w -> v = w.
  Proof.
    intros Ht Hv Hw. rewrite !addr_eq by lia. destruct v, w; cbn in Hv, Hw; intros E; try lia; f_equal; lia.
  Qed.
  Lemma new_area m base : 0 < base -> base + size <= 2 ^ 64 ->
    (tls_new size tcbsz data m base).2 = base + total /\
    area (tls_new size tcbsz data m base).1 (base + total) (first_val data) /\
    forall a, ~ inside (base + total) a -> (tls_new size tcbsz data m base).1 a = m a.
  Proof.
    intros Hb Hs. unfold tls_new. replace (size - tcbsz) with total by lia. cbn [fst snd]. split; [done|].
    assert (Hl : length (le 8 (base + total)) = 8%nat) by apply le_length.
    split; [|intros a Hn; unfold inside in Hn].
    - split; [lia|]. split; [lia|]. split.
      + intros v Hv. rewrite addr_eq by lia. destruct v as [o|k]; cbn in Hv; cbn [first_val].
        * replace (base + total - total + o) with (base + o) by lia.
          destruct (decide (o < N.of_nat (length data))) as [Ho|Ho].
          -- rewrite tpoke_in by lia. f_equal. lia.
          -- rewrite tpoke_out by lia. rewrite tpoke_out by lia. rewrite tzero_in by lia.
             rewrite nth_overflow by lia. done.
        * rewrite tpoke_out by lia. rewrite tpoke_out by lia. by rewrite tzero_in by lia.
      + intros j Hj. rewrite tpoke_out by lia. rewrite tpoke_in by lia. f_equal. lia.
    - rewrite tpoke_out by lia. rewrite tpoke_out by lia. by rewrite tzero_out by lia.
  Qed.

  Lemma step_inv s sp o : tinv s sp -> t_legal size tcbsz total lalign s sp o ->
    tinv (step s o).1 (sp_step data sp o).1 /\
    (ts_tcb s `prefix_of` ts_tcb (step s o).1) /\
    (step s o).2 = shown (ts_tcb s) (sp_step data sp o).2.
  Proof.
    intros (I1 & I2 & I3 & I4) HL. destruct o as [base|c t|c|c v b|c v|c|a b]; cbn [t_legal] in HL.
    - destruct HL as (_ & Hb & Hs & Hap). destruct (new_area (ts_mem s) base Hb Hs) as (N1 & N2 & N3).
      cbn [t_step sp_step]. destruct (tls_new size tcbsz data (ts_mem s) base) as [m tcb]. cbn [fst snd] in *. subst tcb.
      split; [|split; [by eexists|done]].
      assert (Hout : forall i t, ts_tcb s !! i = Some t -> total < t /\ apart t (base + total)).
      { intros i t Ht. split; [by apply (I2 i t Ht)|]. destruct (Hap t ltac:(by eapply elem_of_list_lookup_2)) as [H|H]; unfold apart; lia. }
      split; [cbn; rewrite app_length; cbn; lia|]. cbn [ts_tcb ts_mem sp_val sp_n sp_cur ts_fs]. split; [|split].
      + intros i t Ht. apply lookup_app_Some in Ht as [Ht|[Hge Ht]].
        * destruct (decide (i = sp_n sp)) as [->|Hne]; [apply lookup_lt_Some in Ht; lia|].
          eapply area_eq; [by apply I2|]. intros a Hin. apply N3. destruct (Hout i t Ht) as [? Hq].
          unfold inside, apart in *. lia.
        * apply list_lookup_singleton_Some in Ht as [Hi <-]. rewrite decide_True by lia. done.
      + intros i j t u Ht Hu Hne. apply lookup_app_Some in Ht as [Ht|[Hge Ht]]; apply lookup_app_Some in Hu as [Hu|[Hge' Hu]].
        * by eapply I3.
        * apply list_lookup_singleton_Some in Hu as [Hi <-]. by eapply Hout.
        * apply list_lookup_singleton_Some in Ht as [Hi <-]. destruct (Hout j u Hu) as [? [H|H]]; [by right|by left].
        * apply list_lookup_singleton_Some in Hu as [Hi <-]. apply list_lookup_singleton_Some in Ht as [Hj <-]. lia.
      + intros c i Hc. destruct (I4 c i Hc) as (t & Ht & Hf). exists t. split; [by apply lookup_app_l_Some|done].
    - cbn. split; [|split; [reflexivity|done]]. split; [done|]. split; [done|]. split; [done|]. cbn. intros d i. 
      destruct (decide (d = c)) as [->|Hd'].
      + rewrite Nat.eqb_refl. intros [= <-]. destruct (lookup_lt_is_Some_2 (ts_tcb s) t ltac:(lia)) as [x Hx].
        exists x. split; [done|]. by apply nth_lookup_Some.
      + rewrite (proj2 (Nat.eqb_neq _ _)) by done. apply I4.
    - cbn. split; [|split; [reflexivity|done]]. split; [done|]. split; [done|]. split; [done|]. cbn. intros d i.
      destruct (decide (d = c)) as [->|Hd']; [done|]. rewrite (proj2 (Nat.eqb_neq _ _)) by done. apply I4.
    - destruct HL as [Hcur Hv]. destruct (sp_cur sp c) as [i|] eqn:Ec; [|done]. destruct (I4 c i Ec) as (t & Ht & Hf).
      cbn [t_step sp_step fst snd]. split; [|split; [reflexivity|done]]. rewrite Hf. destruct (I2 i t Ht) as (A1 & A2 & A3 & A4).
      assert (Hin := addr_inside t v A1 Hv).
      split; [done|]. cbn [ts_tcb ts_mem sp_val sp_n sp_cur ts_fs]. split; [|split; [done|]].
      + intros j u Hu. destruct (decide (i = j)) as [<-|Hne].
        * rewrite Ht in Hu. injection Hu as <-. split; [done|]. split; [done|]. split.
          -- intros w Hw. unfold tmset. destruct (decide (sp_cur sp c = Some i /\ w = v)) as [[_ ->]|Hn].
             ++ by rewrite N.eqb_refl.
             ++ destruct (tv_addr total align t w =? tv_addr total align t v) eqn:E; [|by apply A3].
                apply N.eqb_eq in E. exfalso. apply Hn. split; [done|]. by eapply addr_inj.
          -- intros k Hk. unfold tmset. rewrite addr_eq by lia.
             destruct (_ =? _) eqn:E; [|by apply A4]. apply N.eqb_eq in E. destruct v; cbn in Hv; lia.
        * assert (Hap := I3 i j t u Ht Hu Hne). destruct (I2 j u Hu) as (B1 & B2 & B3 & B4).
          assert (Harea : area (tmset (ts_mem s) (tv_addr total align t v) b) u (sp_val sp j)).
          { eapply area_eq; [by apply I2|]. intros a Ha'. unfold tmset. destruct (a =? _) eqn:E; [|done].
            apply N.eqb_eq in E. unfold inside, apart in *. lia. }
          destruct Harea as (C1 & C2 & C3 & C4). split; [done|]. split; [done|]. split; [|done].
          intros w Hw. rewrite decide_False; [by apply C3|]. intros [Hq _]. congruence.
      + exact I4.
    - destruct HL as [Hcur Hv]. destruct (sp_cur sp c) as [i|] eqn:Ec; [|done]. destruct (I4 c i Ec) as (t & Ht & Hf).
      cbn [t_step sp_step fst snd]. split; [done|]. split; [reflexivity|]. rewrite Hf, Ec. cbn. f_equal. by apply (I2 i t Ht).
    - destruct (sp_cur sp c) as [i|] eqn:Ec; [|done]. destruct (I4 c i Ec) as (t & Ht & Hf).
      cbn [t_step sp_step fst snd]. split; [done|]. split; [reflexivity|]. rewrite Hf, Ec. cbn [shown]. rewrite Ht. f_equal.
      destruct (I2 i t Ht) as (A1 & A2 & A3 & A4). unfold trd.
      replace (map (fun i0 : nat => ts_mem s (t + N.of_nat i0)) (seq 0 8)) with (le 8 t).
      + apply of_le_le. change (256 ^ N.of_nat 8) with (2 ^ 64). lia.
      + change (seq 0 8) with [0; 1; 2; 3; 4; 5; 6; 7]%nat. cbn [map]. rewrite !A4 by lia.
        assert (Hl := le_length 8 t). destruct (le 8 t) as [|x0 [|x1 [|x2 [|x3 [|x4 [|x5 [|x6 [|x7 [|? ?]]]]]]]]]; try discriminate Hl. done.
    - cbn [t_step sp_step fst snd]. split; [|split; [reflexivity|done]]. split; [done|]. cbn [ts_tcb ts_mem sp_val sp_n sp_cur ts_fs]. split; [|done].
      intros i t Ht. eapply area_eq; [by apply I2|]. intros x Hx. unfold tmset. destruct (x =? a) eqn:E; [|done].
      apply N.eqb_eq in E as ->. destruct (HL t ltac:(by eapply elem_of_list_lookup_2)) as [H|H]; unfold inside in Hx; lia.
  Qed.
  Lemma shown_prefix l l' sp o (s : tstate) : tinv s sp -> ts_tcb s = l -> l `prefix_of` l' ->
    shown l' (sp_step data sp o).2 = shown l (sp_step data sp o).2.
  Proof.
    intros (I1 & I2 & I3 & I4) <- [k ->]. destruct o; try done; cbn.
    - by destruct (sp_cur sp c).
    - destruct (sp_cur sp c) as [i|] eqn:E; [|done]. cbn. destruct (I4 c i E) as (t & Ht & _). rewrite Ht.
      by apply lookup_app_l_Some.
  Qed.
  Lemma run_inv l : forall s sp, tinv s sp -> t_legals size tcbsz total align lalign data s sp l ->
    tinv (run s l).1 (sp_run data sp l).1 /\
    (ts_tcb s `prefix_of` ts_tcb (run s l).1) /\
    (run s l).2 = map (shown (ts_tcb (run s l).1)) (sp_run data sp l).2.
  Proof.
    induction l as [|o l IH]; intros s sp I H; [done|]. destruct H as [H1 H2].
    destruct (step_inv s sp o I H1) as (I' & P & E). cbn [t_run sp_run].
    pose proof (fun l' => shown_prefix (ts_tcb s) l' sp o s I eq_refl) as Hsh.
    destruct (step s o) as [s1 x], (sp_step data sp o) as [sp1 y]. cbn [fst snd] in *.
    destruct (IH s1 sp1 I' H2) as (I2 & P2 & E2). destruct (run s1 l) as [s2 xs], (sp_run data sp1 l) as [sp2 ys].
    cbn [fst snd] in *. split; [done|]. split; [by etrans|]. cbn [map]. rewrite <- E2. f_equal. rewrite E. symmetry. apply Hsh. by etrans.
  Qed.
  Lemma aligned_areas l : forall s sp, t_legals size tcbsz total align lalign data s sp l ->
    (forall t, t ∈ ts_tcb s -> exists b, t = b + total /\ b mod lalign = 0) ->
    forall t, t ∈ ts_tcb (run s l).1 -> exists b, t = b + total /\ b mod lalign = 0.
  Proof.
    induction l as [|o l IH]; intros s sp H Hs t Ht; [by apply Hs|]. destruct H as [H1 H2]. cbn [t_run] in Ht.
    specialize (IH (step s o).1 (sp_step data sp o).1 H2). destruct (step s o) as [s1 x] eqn:E. cbn [fst] in *.
    destruct (run s1 l) as [s2 xs] eqn:E2. cbn [fst] in *. apply IH; [|done]. clear IH Ht E2 H2. intros u Hu.
    destruct o; cbn [t_step] in E; try (injection E as <- _; by apply Hs).
    destruct (tls_new size tcbsz data (ts_mem s) base) as [m tcb] eqn:E3. injection E as <- _. cbn [ts_tcb] in Hu.
    apply elem_of_app in Hu as [Hu|Hu]; [by apply Hs|]. apply elem_of_list_singleton in Hu as ->.
    unfold tls_new in E3. injection E3 as _ <-. exists base. split; [lia|]. apply H1.
  Qed.
  Lemma init_tinv m : tinv (ts_init m) sp_init.
  Proof. split; [done|]. split; [intros i t H; done|]. split; [intros i j t u H; done|]. done. Qed.
End run.
