(** The page tables answer as the reference address space. *)
From Verif Require Import Base VsModel VsSpec VsProofs VsProps MasModel MasSpec.

Section sim.
Context (lg dbg : bool).

Record sim (l : mas) (s : vspace) : Prop := {
  sm_reach : reach lg dbg s;
  sm_perm : l ≡ₚ map_to_list (vs_map s);
  sm_plain : forall k mi, (k, mi) ∈ l -> granted (mi_rights mi) = mi_rights mi }.

Lemma sim_elem l s k mi : sim l s -> (k, mi) ∈ l <-> vs_map s !! k = Some mi.
Proof using Type. intros S. rewrite (sm_perm _ _ S). apply elem_of_map_to_list. Qed.
Lemma sim_apart l s k k' mi mi' x : sim l s -> (k, mi) ∈ l -> (k', mi') ∈ l -> within k (mi_size mi) x -> within k' (mi_size mi') x -> k = k' /\ mi = mi'.
Proof using Type.
  intros S H1 H2 X1 X2. apply (sim_elem _ _ _ _ S) in H1, H2. destruct (C21_bookkeeping lg dbg s (sm_reach _ _ S)) as (_ & _ & H).
  assert (k = k') as -> by eauto. split; congruence.
Qed.
Lemma sim_nodup l s : sim l s -> NoDup l.
Proof using Type. intros S. rewrite (sm_perm _ _ S). apply NoDup_map_to_list. Qed.
Lemma sim_pos l s k mi : sim l s -> (k, mi) ∈ l -> (0 < mi_size mi)%N.
Proof using Type.
  intros S H. apply (sim_elem _ _ _ _ S) in H. destruct (vi_rec _ _ (reach_inv _ _ _ (sm_reach _ _ S)) _ _ H) as (P & _).
  by eapply page_frame_pos.
Qed.

Lemma hit_true va e : mas_hit va e = true <-> within e.1 (mi_size e.2) va.
Proof using Type. unfold mas_hit, within. rewrite andb_true_iff, N.leb_le, N.ltb_lt. done. Qed.
Lemma hit_false va e : mas_hit va e = false <-> ~ within e.1 (mi_size e.2) va.
Proof using Type. rewrite <- hit_true. destruct (mas_hit va e); split; congruence. Qed.

(** At most one entry covers an address. *)
Lemma sim_hit l s va : sim l s -> (va < 2 ^ 48)%N ->
  (vs_resolve s va = Err NotMapped /\ Forall (fun e => mas_hit va e = false) l) \/
  (exists l1 k mi l2, l = l1 ++ (k, mi) :: l2 /\ within k (mi_size mi) va /\ vs_map s !! k = Some mi /\
     vs_resolve s va = Ok ((mi_pa mi + (va - k))%N, mi_rights mi) /\
     Forall (fun e => mas_hit va e = false) l1 /\ Forall (fun e => mas_hit va e = false) l2).
Proof using Type.
  intros S Hva. destruct (C21_bookkeeping lg dbg s (sm_reach _ _ S)) as (B1 & B2 & B3).
  destruct (vs_resolve s va) as [[p r]|e|] eqn:E.
  - right. destruct (B2 _ _ _ Hva E) as (k & mi & Hk & Hw & -> & ->). pose proof Hk as Hl. apply (sim_elem _ _ _ _ S) in Hl.
    rewrite (sm_plain _ _ S _ _ Hl) in *. apply elem_of_list_split in Hl as (l1 & l2 & El). exists l1, k, mi, l2.
    split; [done|]. split; [done|]. split; [done|]. split; [done|].
    pose proof (sim_nodup _ _ S) as Hn. rewrite El in Hn. apply NoDup_app in Hn as (_ & Hn1 & Hn2). apply NoDup_cons in Hn2 as [Hn2 _].
    split; apply Forall_forall; intros [k' mi'] He; apply hit_false; intros Hw'; cbn [fst snd] in Hw'.
    + destruct (sim_apart l s k k' mi mi' va S) as [<- <-]; try done; try (rewrite El; set_solver). eapply Hn1; [exact He|by left].
    + destruct (sim_apart l s k k' mi mi' va S) as [<- <-]; try done; try (rewrite El; set_solver).
  - left. assert (e = NotMapped) as ->. { unfold vs_resolve, pt_resolve in E. destruct (walk _ _) as [[]|]; congruence. }
    split; [done|]. apply Forall_forall. intros [k mi] He. apply hit_false. intros Hw. apply (sim_elem _ _ _ _ S) in He.
    destruct (B1 _ _ _ He Hw) as [_ H]. congruence.
  - unfold vs_resolve, pt_resolve in E. destruct (walk _ _) as [[]|]; congruence.
Qed.

Lemma find_hit va l1 e l2 : mas_hit va e = true -> Forall (fun e => mas_hit va e = false) l1 -> List.find (mas_hit va) (l1 ++ e :: l2) = Some e.
Proof using Type. intros He. induction 1 as [|x l1 Hx _ IH]; cbn [app List.find]; [by rewrite He|by rewrite Hx]. Qed.
Lemma find_miss va l : Forall (fun e => mas_hit va e = false) l -> List.find (mas_hit va) l = None.
Proof using Type. induction 1 as [|x l1 Hx _ IH]; cbn [List.find]; [done|by rewrite Hx]. Qed.
Lemma filter_miss va l : Forall (fun e => mas_hit va e = false) l -> List.filter (mas_hit va) l = [] /\ List.filter (fun e => negb (mas_hit va e)) l = l.
Proof using Type. induction 1 as [|x l1 Hx _ [IH1 IH2]]; cbn [List.filter]; [done|]. rewrite Hx. cbn [negb]. by rewrite IH1, IH2. Qed.
Lemma set_hit va a l1 e l2 : mas_hit va e = true -> Forall (fun e => mas_hit va e = false) l1 ->
  mas_set_first va a (l1 ++ e :: l2) = Some (e.1, mi_size e.2, l1 ++ (e.1, mkMI (mi_pa e.2) (mi_size e.2) a) :: l2).
Proof using Type. intros He. induction 1 as [|x l1 Hx _ IH]; cbn [app mas_set_first]; [by rewrite He|by rewrite Hx, IH]. Qed.
Lemma set_miss va a l : Forall (fun e => mas_hit va e = false) l -> mas_set_first va a l = None.
Proof using Type. induction 1 as [|x l1 Hx _ IH]; cbn [mas_set_first]; [done|by rewrite Hx, IH]. Qed.
Lemma Forall_rev' (P : N * minfo -> Prop) l : Forall P l -> Forall P (reverse l).
Proof using Type. intros H. by rewrite reverse_Permutation. Qed.

Lemma resolve_sim l s va : sim l s -> (va < 2 ^ 48)%N -> mas_resolve l va = vs_resolve s va.
Proof using Type.
  intros S Hva. unfold mas_resolve. destruct (sim_hit _ _ _ S Hva) as [[-> Hm]|(l1 & k & mi & l2 & -> & Hw & _ & -> & H1 & H2)].
  - by rewrite find_miss by (by apply Forall_rev').
  - rewrite reverse_app, reverse_cons, <- app_assoc. cbn [app]. rewrite (find_hit _ _ (k, mi)); [done|by apply hit_true|by apply Forall_rev'].
Qed.

Lemma map_split l1 k mi l2 (m : gmap N minfo) : l1 ++ (k, mi) :: l2 ≡ₚ map_to_list m -> NoDup (l1 ++ (k, mi) :: l2) ->
  l1 ++ l2 ≡ₚ map_to_list (delete k m) /\ forall mi', l1 ++ (k, mi') :: l2 ≡ₚ map_to_list (<[k := mi']> m).
Proof using Type.
  intros Hp Hn. assert (m !! k = Some mi) as Hk. { apply elem_of_map_to_list. rewrite <- Hp. set_solver. }
  assert (l1 ++ l2 ≡ₚ map_to_list (delete k m)) as Hd.
  { apply (Permutation.Permutation_cons_inv (a := (k, mi))). rewrite Permutation_middle, Hp. symmetry. by apply map_to_list_delete. }
  split; [done|]. intros mi'. rewrite <- Permutation_middle, Hd. rewrite <- insert_delete_insert. symmetry. apply map_to_list_insert. apply lookup_delete.
Qed.

Lemma adjust_sim l s va a : sim l s -> (va < 2 ^ 48)%N -> granted a = a ->
  (mas_adjust l va a).2 = (vs_adjust s va a).2 /\ sim (mas_adjust l va a).1 (vs_adjust s va a).1.
Proof using Type.
  intros S Hva Ha. pose proof (reach_adjust lg dbg s va a (sm_reach _ _ S) Hva) as R'. unfold mas_adjust.
  destruct (C20_adjust lg dbg s va a (sm_reach _ _ S) Hva) as [[Hal E]|[(Hal & Hr & E)|(Hal & s' & vb & p & sz & a0 & E & Hsz & Hw & Hm & Hm' & _)]];
    rewrite E in *; cbn [fst snd] in *.
  - change BASE with 4096%N. apply N.eqb_neq in Hal. rewrite Hal. done.
  - change BASE with 4096%N. rewrite Hal, N.eqb_refl. cbn [negb].
    destruct (sim_hit _ _ _ S Hva) as [[_ Hn]|(l1 & k & mi & l2 & _ & _ & _ & E' & _)]; [|congruence].
    by rewrite set_miss by (by apply Forall_rev').
  - change BASE with 4096%N. rewrite Hal, N.eqb_refl. cbn [negb].
    destruct (sim_hit _ _ _ S Hva) as [[Hr _]|(l1 & k & mi & l2 & El & Hwk & Hk & _ & H1 & H2)].
    { destruct (C21_bookkeeping lg dbg s (sm_reach _ _ S)) as (B1 & _). destruct (B1 _ _ _ Hm Hw) as [_ H]. congruence. }
    destruct (C21_bookkeeping lg dbg s (sm_reach _ _ S)) as (_ & _ & B3). assert (vb = k) as -> by eauto.
    rewrite Hk in Hm. injection Hm as ->. cbn [mi_size] in *.
    rewrite El, reverse_app, reverse_cons, <- app_assoc. cbn [app].
    rewrite (set_hit _ _ _ (k, mkMI p sz a0)); [|by apply hit_true|by apply Forall_rev']. cbn [fst snd mi_pa mi_size]. split; [done|].
    rewrite reverse_app, reverse_cons, !reverse_involutive, <- app_assoc. cbn [app].
    split; [done| |].
    + rewrite Hm'. pose proof (sm_perm _ _ S) as Hp. pose proof (sim_nodup _ _ S) as Hn. rewrite El in Hp, Hn. by apply (map_split _ _ _ _ _ Hp Hn).
    + intros k' mi' He. apply elem_of_app in He as [He|He]; [|apply elem_of_cons in He as [[= -> ->]|He]].
      * apply (sm_plain _ _ S k'). rewrite El. set_solver.
      * done.
      * apply (sm_plain _ _ S k'). rewrite El. set_solver.
Qed.

Lemma unmap_sim l s va : sim l s -> (va < 2 ^ 48)%N -> (va mod 4096 = 0)%N ->
  (mas_unmap l va).2 = (vs_unmap dbg s va).2 /\ sim (mas_unmap l va).1 (vs_unmap dbg s va).1.
Proof using Type.
  intros S Hva Hal. pose proof (reach_unmap lg dbg s va (sm_reach _ _ S) Hva) as R'. unfold mas_unmap. change BASE with 4096%N. rewrite Hal, N.eqb_refl. cbn [negb].
  pose proof (C19_unmap lg dbg s va (sm_reach _ _ S) Hva) as H.
  destruct (sim_hit _ _ _ S Hva) as [[Hr Hm]|(l1 & k & mi & l2 & El & Hwk & Hk & Hr & H1 & H2)]; rewrite Hr in H.
  - destruct H as (e & E & He). rewrite E in *. cbn [fst snd] in *. destruct (filter_miss _ _ Hm) as [-> _]. cbn [fst snd].
    destruct He as [-> | [_ ?]]; done.
  - destruct H as [[? _]|(_ & s' & vb & p & sz & a & E & Hsz & Hw & Hm & Hm' & _)]; [done|]. rewrite E in *. cbn [fst snd] in *.
    destruct (C21_bookkeeping lg dbg s (sm_reach _ _ S)) as (_ & _ & B3). assert (vb = k) as -> by eauto.
    rewrite Hk in Hm. injection Hm as ->. cbn [mi_size mi_pa mi_rights] in *.
    destruct (filter_miss _ _ H1) as [F1 G1]. destruct (filter_miss _ _ H2) as [F2 G2].
    assert (mas_hit va (k, mkMI p sz a) = true) as Hh by (by apply hit_true).
    rewrite El, !List.filter_app. cbn [List.filter]. rewrite Hh. cbn [negb]. rewrite F1, F2, G1, G2. cbn [app fst snd mi_pa mi_size mi_rights].
    split. { assert (granted a = a) as ->; [|done]. apply (sm_plain _ _ S k (mkMI p sz a)). rewrite El. set_solver. }
    split; [done| |].
    + rewrite Hm'. pose proof (sm_perm _ _ S) as Hp. pose proof (sim_nodup _ _ S) as Hn. rewrite El in Hp, Hn. by apply (map_split _ _ _ _ _ Hp Hn).
    + intros k' mi' He. apply (sm_plain _ _ S k'). rewrite El. set_solver.
Qed.

Lemma overlaps_true b sz e : mas_overlaps b sz e = true <-> (e.1 < b + sz)%N /\ (b < e.1 + mi_size e.2)%N.
Proof using Type. unfold mas_overlaps. by rewrite andb_true_iff, !N.ltb_lt. Qed.
Lemma overlaps_common b sz e : (0 < sz)%N -> (0 < mi_size e.2)%N -> mas_overlaps b sz e = true <-> exists y, within e.1 (mi_size e.2) y /\ within b sz y.
Proof using Type.
  intros P1 P2. rewrite overlaps_true. split; [|intros (y & [] & []); lia]. intros [H1 H2]. exists (N.max e.1 b). unfold within. lia.
Qed.
Lemma same_true b p sz a e : mas_same b p sz a e = true <-> e.1 = b /\ mi_pa e.2 = p /\ (mi_size e.2 <= sz)%N /\ mi_rights e.2 = a.
Proof using Type.
  unfold mas_same. rewrite !andb_true_iff, !N.eqb_eq, N.leb_le, bool_decide_eq_true. split; [intros (((<- & ?) & <-) & <-); split_and!; try done; lia|].
  intros (<- & <- & ? & <-). split_and!; try done; lia.
Qed.
Lemma conflict_way l b p sz a e x : e ∈ l -> (0 < sz)%N -> (0 < mi_size e.2)%N -> mas_conflict b p sz a e = true -> within e.1 (mi_size e.2) x -> in_the_way l b p sz a x.
Proof using Type.
  intros He P1 P2 Hc Hx. unfold mas_conflict in Hc. apply andb_true_iff in Hc as [Ho Hs]. apply negb_true_iff in Hs.
  exists e.1, e.2. split; [by destruct e|]. split; [done|]. split; [by apply overlaps_common|]. intros Hq. apply same_true in Hq. congruence.
Qed.
Lemma foldr_min_in x xs : foldr N.min x xs ∈ x :: xs.
Proof using Type.
  induction xs as [|y xs IH]; cbn [foldr]; [by left|]. destruct (N.min_spec y (foldr N.min x xs)) as [[_ ->]|[_ ->]]; set_solver.
Qed.
Lemma extend_none b p sz a l : Forall (fun e => mas_overlaps b sz e = false) l -> mas_extend b p sz a l = None.
Proof using Type. induction 1 as [|e l He _ IH]; cbn [mas_extend]; [done|]. by rewrite He, IH. Qed.
Lemma extend_id b p sz a l : (forall e, e ∈ l -> mas_overlaps b sz e = true -> mas_same b p sz a e = true -> mi_size e.2 = sz) ->
  (exists e, e ∈ l /\ mas_overlaps b sz e = true /\ mas_same b p sz a e = true) -> mas_extend b p sz a l = Some l.
Proof using Type.
  induction l as [|e l IH]; intros Hz (e' & He & Ho & Hs); [by apply elem_of_nil in He|]. cbn [mas_extend].
  destruct (mas_overlaps b sz e && mas_same b p sz a e) eqn:E.
  - apply andb_true_iff in E as [E1 E2]. f_equal. f_equal. rewrite <- (Hz e) by (done || by left). by destruct e as [k []].
  - rewrite IH; [done| |].
    + intros e1 H1. apply Hz. by right.
    + exists e'. split; [|done]. apply elem_of_cons in He as [->|He]; [|done]. by rewrite Ho, Hs in E.
Qed.

Lemma map_sim l s b p sz a : sim l s -> page_sized lg sz -> (b + sz <= 2 ^ 48)%N -> granted a = a -> ~ extends l b p sz a ->
  ((mas_map l b p sz a).2 = (vs_map_frame lg s b p sz a).2 \/
   exists x y, (mas_map l b p sz a).2 = Err (AlreadyMapped x) /\ (vs_map_frame lg s b p sz a).2 = Err (AlreadyMapped y) /\
     in_the_way l b p sz a x /\ in_the_way l b p sz a y) /\
  sim (mas_map l b p sz a).1 (vs_map_frame lg s b p sz a).1.
Proof using Type.
  intros S Hsz Hb Ha Hne. pose proof (reach_map lg dbg s b p sz a (sm_reach _ _ S) Hsz Hb) as R'. pose proof (page_frame_pos _ _ Hsz) as Hpos.
  pose proof (map_frame_cases lg s b p sz a (reach_inv _ _ _ (sm_reach _ _ S)) Hsz Hb) as Hcs.
  unfold mas_map. assert ((sz =? 0)%N = false) as -> by (apply N.eqb_neq; lia).
  destruct (N.eqb_spec (p mod sz) 0) as [Hp|Hp]; cbn [negb].
  2:{ destruct Hcs as [[_ ->]|[(? & _)|(? & _)]]; [|done|done]. cbn [fst snd]. auto. }
  destruct (N.eqb_spec (b mod sz) 0) as [Hv|Hv]; cbn [negb].
  2:{ destruct Hcs as [[? _]|[(_ & _ & ->)|(_ & ? & _)]]; [done| |done]. cbn [fst snd]. auto. }
  destruct Hcs as [[? _]|[(_ & ? & _)|(_ & _ & Hcs)]]; [done|done|].
  destruct Hcs as [(Hu & Hno & t & E & _)|Hcs].
  - assert (Forall (fun e => mas_overlaps b sz e = false) l) as Hov.
    { apply Forall_forall. intros [k mi] He. apply not_true_iff_false. rewrite overlaps_true. cbn [fst snd]. intros [O1 O2].
      apply (sim_elem _ _ _ _ S) in He. pose proof (Hno _ _ He O1). lia. }
    assert (List.filter (mas_conflict b p sz a) l = []) as ->.
    { clear -Hov. induction Hov as [|e l He _ IH]; [done|]. cbn [List.filter]. unfold mas_conflict at 1. by rewrite He. }
    cbn [map]. rewrite extend_none by done. rewrite E in *. cbn [fst snd] in *. split; [by left|]. split; [done| |].
    + cbn [vs_map]. rewrite map_to_list_insert.
      * rewrite <- (sm_perm _ _ S). symmetry. apply Permutation_cons_append.
      * destruct (vs_map s !! b) as [mi|] eqn:Eb; [|done]. pose proof (Hno _ _ Eb ltac:(lia)).
        apply (sim_elem _ _ _ _ S) in Eb. pose proof (sim_pos _ _ _ _ S Eb). lia.
    + intros k mi He. apply elem_of_app in He as [He|He]; [by eapply (sm_plain _ _ S)|]. apply elem_of_list_singleton in He as [= -> ->]. done.
  - clear Hu || idtac. revert R'. unfold vs_map_frame. assert ((sz =? 0)%N = false) as -> by (apply N.eqb_neq; lia). rewrite Hp, Hv, N.eqb_refl. cbn [negb].
    pose proof (last_below_spec (vs_map s) (b + sz)) as HL. destruct (last_below (vs_map s) (b + sz)) as [[eb mi]|].
    2:{ exfalso. destruct Hcs as (k & mi & Hk & L1 & _). pose proof (HL _ _ Hk). lia. }
    destruct HL as (Hk & Hlt & Hmax). pose proof Hk as He. apply (sim_elem _ _ _ _ S) in He. pose proof (sim_pos _ _ _ _ S He) as Hp0.
    destruct (N.leb_spec (eb + mi_size mi) b) as [Hle|Hgt].
    { exfalso. destruct Hcs as (k & mi' & Hk' & L1 & L2 & _). pose proof (Hmax _ _ Hk' L1) as Hkk.
      apply (sim_elem _ _ _ _ S) in Hk' as He'. pose proof (sim_pos _ _ _ _ S He').
      destruct (N.eq_dec k eb) as [->|Hn]; [rewrite Hk in Hk'; injection Hk' as <-; lia|].
      destruct (sim_apart l s k eb mi' mi eb S He' He); unfold within; lia. }
    assert (mas_overlaps b sz (eb, mi) = true) as Ho by (apply overlaps_true; cbn [fst snd]; lia).
    destruct ((eb =? b)%N && (mi_pa mi =? p)%N && (mi_size mi <=? sz)%N && bool_decide (mi_rights mi = a)) eqn:Es; cbn [fst snd]; intros R'.
    + rewrite !andb_true_iff, !N.eqb_eq, N.leb_le, bool_decide_eq_true in Es. destruct Es as (((-> & Ep) & Esz) & Ea).
      assert (forall e, e ∈ l -> mas_overlaps b sz e = true -> e = (b, mi)) as Honly.
      { intros [k' mi'] He' Ho'. apply overlaps_true in Ho' as [O1 O2]. cbn [fst snd] in *. pose proof He' as Hk'. apply (sim_elem _ _ _ _ S) in Hk'.
        pose proof (Hmax _ _ Hk' O1) as Hkk. destruct (sim_apart l s k' b mi' mi b S He' He) as [-> ->]; [unfold within; lia|unfold within; lia|done]. }
      assert (mas_same b p sz a (b, mi) = true) as Hsm by (by apply same_true).
      assert (List.filter (mas_conflict b p sz a) l = []) as ->.
      { assert (Forall (fun e => mas_conflict b p sz a e = false) l) as Hf.
        { apply Forall_forall. intros e Hel. unfold mas_conflict. destruct (mas_overlaps b sz e) eqn:Oe; [|done]. rewrite (Honly _ Hel Oe), Hsm. done. }
        clear -Hf. induction Hf as [|e l He _ IH]; [done|]. cbn [List.filter]. by rewrite He. }
      cbn [map]. rewrite extend_id.
      * cbn [fst snd]. split; [by left|done].
      * intros e Hel Oe _. rewrite (Honly _ Hel Oe). cbn [snd]. destruct (N.lt_eq_cases (mi_size mi) sz) as [Hlq _].
        destruct (Hlq Esz) as [Hl|]; [|done]. exfalso. apply Hne. exists (mi_size mi). split; [rewrite <- Ep, <- Ea; by destruct mi|]. split; [done|].
        intros k' mi' He' Hy. assert ((k', mi') = (b, mi)) as [= -> ->]; [|done]. apply Honly; [done|].
        apply overlaps_common; [done|by eapply sim_pos|done].
      * by exists (b, mi).
    + assert (mas_conflict b p sz a (eb, mi) = true) as Hc.
      { unfold mas_conflict. rewrite Ho. apply negb_true_iff, not_true_iff_false. rewrite same_true. cbn [fst snd]. intros (-> & <- & Hle & <-).
        rewrite !N.eqb_refl, bool_decide_eq_true_2 in Es by done. apply N.leb_le in Hle. by rewrite Hle in Es. }
      destruct (List.filter (mas_conflict b p sz a) l) as [|e es] eqn:Ef.
      { exfalso. assert (In (eb, mi) (List.filter (mas_conflict b p sz a) l)) as Hin by (apply filter_In; split; [by apply elem_of_list_In|done]).
        by rewrite Ef in Hin. }
      cbn [map fst snd]. split; [|done]. right. eexists _, eb. split; [reflexivity|]. split; [reflexivity|]. split.
      * pose proof (foldr_min_in (N.max e.1 b) (map (fun e => N.max e.1 b) es)) as Hm.
        change (N.max e.1 b :: map (fun e => N.max e.1 b) es) with (map (fun e => N.max e.1 b) (e :: es)) in Hm. rewrite <- Ef in Hm.
        apply elem_of_list_In, in_map_iff in Hm as (e1 & <- & Hin). apply filter_In in Hin as [Hin Hc1]. apply elem_of_list_In in Hin.
        destruct e1 as [k1 mi1]. pose proof (sim_pos _ _ _ _ S Hin) as Hp1. eapply conflict_way; [exact Hin|done|done|done|].
        unfold mas_conflict in Hc1. apply andb_true_iff in Hc1 as [Ho1 _]. apply overlaps_true in Ho1. cbn [fst snd] in *. unfold within. lia.
      * eapply conflict_way; [exact He|done|done|done|]. cbn [fst snd]. unfold within. lia.
Qed.

Lemma step_sim l s o : sim l s -> as_ok lg l o ->
  same_answer l o (mas_step l o).2 (vs_step lg dbg s o).2 /\ sim (mas_step l o).1 (vs_step lg dbg s o).1 /\
  (vs_step lg dbg s o).2 <> Panic.
Proof using Type.
  intros S Ho. destruct (C21_no_panic lg dbg s (sm_reach _ _ S)) as (NP1 & NP2 & NP3).
  destruct o as [b p sz a|va a|va|va]; cbn [as_ok mas_step vs_step] in *.
  - destruct Ho as (H1 & H2 & H3 & H4). destruct (map_sim l s b p sz a S H1 H2 H3 H4) as [Hr Hs]. specialize (NP1 b p sz a H1 H2).
    destruct (mas_map l b p sz a) as [l' r], (vs_map_frame lg s b p sz a) as [s' r']. cbn [fst snd] in *. split; [|split; [done|by destruct r']].
    destruct Hr as [->|(x & y & -> & -> & Hx & Hy)]; [by left|]. right. by exists b, p, sz, a, x, y.
  - destruct Ho as (H1 & H2). destruct (adjust_sim l s va a S H1 H2) as [Hr Hs]. specialize (NP3 va a H1).
    destruct (mas_adjust l va a) as [l' r], (vs_adjust s va a) as [s' r']. cbn [fst snd] in *. subst r'. split; [by left|split; [done|by destruct r]].
  - cbn [fst snd]. rewrite (resolve_sim l s va S Ho). split; [by left|]. split; [done|]. unfold vs_resolve, pt_resolve. by destruct (walk _ _) as [[]|].
  - destruct Ho as (H1 & H2). destruct (unmap_sim l s va S H1 H2) as [Hr Hs]. specialize (NP2 va H1).
    destruct (mas_unmap l va) as [l' r], (vs_unmap dbg s va) as [s' r']. cbn [fst snd] in *. subst r'. split; [by left|split; [done|]].
    by destruct r as [[[[? ?] ?] ?]| |].
Qed.

Lemma answers_sim os : forall l s, sim l s -> as_all_ok lg l os -> same_answers l os (mas_answers l os) (vs_answers lg dbg s os).
Proof using Type.
  induction os as [|o os IH]; intros l s S Ho; cbn [as_all_ok mas_answers vs_answers same_answers] in *; [done|].
  destruct Ho as [Ho Hos]. destruct (step_sim l s o S Ho) as (Hr & S' & Hnp).
  destruct (mas_step l o) as [l' r] eqn:El, (vs_step lg dbg s o) as [s' r'] eqn:Es. cbn [fst snd] in *.
  assert (r <> Panic) as Hnp'. { destruct Hr as [->|(? & ? & ? & ? & ? & ? & _ & -> & _)]; done. }
  assert (mas_answers l (o :: os) = r :: mas_answers l' os) as E1 by (cbn [mas_answers]; rewrite El; by destruct r).
  assert (vs_answers lg dbg s (o :: os) = r' :: vs_answers lg dbg s' os) as E2 by (cbn [vs_answers]; rewrite Es; by destruct r').
  cbn [mas_answers] in E1. rewrite El in E1. cbn [vs_answers] in E2. rewrite Es in E2. rewrite E1, E2. cbn [same_answers]. split; [done|]. by apply IH.
Qed.
Lemma sim_init : sim [] vs_init.
Proof using Type. split; [apply reach_init|cbn [vs_init vs_map]; by rewrite map_to_list_empty|]. intros k mi H. by apply elem_of_nil in H. Qed.
End sim.
