(** Proofs about the kernel heap. *)
From Verif Require Import Base MemModel MemSpec MemProofs BootModel BootSpec BootProofs HeapModel HeapSpec.
Open Scope N_scope.

(** ** Coverage of the local state *)
Definition zframe (mb : N) (p : zpage) : frame := mkFrame (zp_base p) (zpsize mb (zp_class p)) (zp_aff p).
Definition lall (mb : N) (s : ls) : list frame :=
  frames (l_pm s) ++ frames (l_nc s) ++ map (zframe mb) (l_zone s) ++ map snd (l_big s).
(** The coverage counted: all of it ([Num = false]), or per label. *)
Definition lab (num : bool) (P : N -> bool) : Prop := num = true \/ forall n, P n = true.

Lemma covP_perm P l1 l2 a : l1 ≡ₚ l2 -> covP P l1 a = covP P l2 a.
Proof. intros H. unfold covP, fl. apply cov_perm. by rewrite H. Qed.

Lemma alloc_base_perm c f c' : mc_alloc_base c = (Ok f, c') -> frames c ≡ₚ f :: frames c' /\ f_aff f = mc_node c.
Proof.
  unfold mc_alloc_base. destruct (mc_base c) as [|pa l] eqn:E; [done|].
  unfold frame_new. case_decide; [|done]. intros [= <- <-]. unfold frames. rewrite E. done.
Qed.
Lemma alloc_large_perm c f c' : mc_alloc_large c = (Ok f, c') -> frames c ≡ₚ f :: frames c' /\ f_aff f = mc_node c.
Proof.
  unfold mc_alloc_large. destruct (mc_large c) as [|pa l] eqn:E; [done|].
  unfold frame_new. case_decide; [|done]. intros [= <- <-]. unfold frames. rewrite E. cbn [map mc_base mc_large mc_node f_aff].
  split; [|done]. symmetry. apply Permutation_middle.
Qed.
Lemma release_base_perm BP c f c' : mc_release_base BP c f = (Ok tt, c') -> frames c' ≡ₚ f :: frames c.
Proof.
  unfold mc_release_base. case_decide as Hd; [|done]. unfold try_push. case_decide; [|done].
  intros [= <-]. unfold frames. cbn [map mc_base mc_large mc_node app].
  destruct Hd as (H1 & _ & H2). destruct f; cbn in *; subst. done.
Qed.
Lemma release_large_perm LP c f c' : mc_release_large LP c f = (Ok tt, c') -> frames c' ≡ₚ f :: frames c.
Proof.
  unfold mc_release_large. case_decide as Hd; [|done]. unfold try_push. case_decide; [|done].
  intros [= <-]. unfold frames. cbn [map mc_base mc_large mc_node app].
  destruct Hd as (H1 & _ & H2). destruct f; cbn in *; subst. symmetry. apply Permutation_middle.
Qed.

(** ** Refilling the core's cache *)
Definition pairok (pm nc : mcache) : Prop :=
  mc_ok pm /\ fits SBP SLP pm /\ mc_ok nc /\ mc_node pm = mc_node nc.
Lemma fits_self c : fits (length (mc_base c)) (length (mc_large c)) c.
Proof. split; lia. Qed.

Lemma refill_base_spec n : forall nc pm, pairok pm nc -> (length (mc_base pm) + n <= SBP)%nat ->
  match refill_base n nc pm with
  | (r, nc', pm') => r <> Panic /\ pairok pm' nc' /\ mc_node pm' = mc_node pm /\
      frames pm' ++ frames nc' ≡ₚ frames pm ++ frames nc /\ mc_large pm' = mc_large pm /\ mc_large nc' = mc_large nc /\
      (r = Ok tt -> length (mc_base pm') = (length (mc_base pm) + n)%nat /\ length (mc_base nc) = (length (mc_base nc') + n)%nat) /\
      (forall e, r = Err e -> (length (mc_base nc) < n)%nat) /\ (length (mc_base pm) <= length (mc_base pm'))%nat
  end.
Proof.
  induction n as [|n IH]; intros nc pm Hp Hn; cbn [refill_base].
  { split; [done|]. split; [done|]. split; [done|]. split; [done|]. split; [done|]. split; [done|]. split; [intros; lia|]. split; [done|lia]. }
  destruct Hp as (H1 & H2 & H3 & H4).
  pose proof (alloc_base_spec _ _ nc H3 (fits_self nc)) as Ha.
  destruct (mc_alloc_base nc) as [[f|e|] nc'] eqn:Ea; [| |done].
  - destruct Ha as (A1 & A2 & A3 & A4 & A5 & _ & A7).
    destruct (alloc_base_perm _ _ _ Ea) as [Hperm Haff].
    assert (mc_large nc' = mc_large nc) as Hlnc.
    { clear -Ea. unfold mc_alloc_base in Ea. destruct (mc_base nc); [done|]. unfold frame_new in Ea. case_decide; [|done]. by injection Ea as _ <-. }
    cbn [mc_grow_base].
    assert (Hr : mc_release_base SBP pm f = (Ok tt, mkMc (mc_node pm) (f_base f :: mc_base pm) (mc_large pm))).
    { unfold mc_release_base. rewrite decide_True.
      - unfold try_push. rewrite decide_True by lia. done.
      - split_and!; [by rewrite A4|done|congruence]. }
    rewrite Hr. pose proof (release_base_perm _ _ _ _ Hr) as Hperm2.
    pose proof (release_base_spec SBP SLP pm f H1 H2) as Hs. rewrite Hr in Hs. destruct Hs as (R1 & R2 & R3 & _).
    specialize (IH nc' _ ltac:(split_and!; [exact R1|exact R2|exact A1|cbn; congruence])).
    cbn [mc_base length] in IH. specialize (IH ltac:(lia)).
    destruct (refill_base n nc' _) as [[r nc2] pm2]. destruct IH as (I1 & I2 & I3 & I4 & I5 & I6 & I7 & I8 & I9).
    split; [done|]. split; [done|]. split; [done|]. split.
    { rewrite I4, Hperm2, Hperm. cbn [app]. rewrite (Permutation_middle (frames pm)). done. }
    split; [done|]. split; [congruence|]. split; [intros E; specialize (I7 E); lia|].
    split; [intros e E; specialize (I8 e E); lia|lia].
  - destruct Ha as (_ & -> & Hz).
    split; [done|]. split; [done|]. split; [done|]. split; [done|]. split; [done|]. split; [done|].
    split; [done|]. split; [intros; rewrite Hz; cbn; lia|lia].
Qed.
Lemma refill_large_spec n : forall nc pm, pairok pm nc -> (length (mc_large pm) + n <= SLP)%nat ->
  match refill_large n nc pm with
  | (r, nc', pm') => r <> Panic /\ pairok pm' nc' /\ mc_node pm' = mc_node pm /\
      frames pm' ++ frames nc' ≡ₚ frames pm ++ frames nc /\ mc_base pm' = mc_base pm /\ mc_base nc' = mc_base nc /\
      (r = Ok tt -> length (mc_large pm') = (length (mc_large pm) + n)%nat /\ length (mc_large nc) = (length (mc_large nc') + n)%nat) /\
      (forall e, r = Err e -> (length (mc_large nc) < n)%nat) /\ (length (mc_large pm) <= length (mc_large pm'))%nat
  end.
Proof.
  induction n as [|n IH]; intros nc pm Hp Hn; cbn [refill_large].
  { split; [done|]. split; [done|]. split; [done|]. split; [done|]. split; [done|]. split; [done|]. split; [intros; lia|]. split; [done|lia]. }
  destruct Hp as (H1 & H2 & H3 & H4).
  pose proof (alloc_large_spec _ _ nc H3 (fits_self nc)) as Ha.
  destruct (mc_alloc_large nc) as [[f|e|] nc'] eqn:Ea; [| |done].
  - destruct Ha as (A1 & A2 & A3 & A4 & A5 & _ & A7).
    destruct (alloc_large_perm _ _ _ Ea) as [Hperm Haff].
    assert (mc_base nc' = mc_base nc) as Hlnc.
    { clear -Ea. unfold mc_alloc_large in Ea. destruct (mc_large nc); [done|]. unfold frame_new in Ea. case_decide; [|done]. by injection Ea as _ <-. }
    cbn [mc_grow_large].
    assert (Hr : mc_release_large SLP pm f = (Ok tt, mkMc (mc_node pm) (mc_base pm) (f_base f :: mc_large pm))).
    { unfold mc_release_large. rewrite decide_True.
      - unfold try_push. rewrite decide_True by lia. done.
      - split_and!; [by rewrite A4|done|congruence]. }
    rewrite Hr. pose proof (release_large_perm _ _ _ _ Hr) as Hperm2.
    pose proof (release_large_spec SBP SLP pm f H1 H2) as Hs. rewrite Hr in Hs. destruct Hs as (R1 & R2 & R3 & _).
    specialize (IH nc' _ ltac:(split_and!; [exact R1|exact R2|exact A1|cbn; congruence])).
    cbn [mc_large length] in IH. specialize (IH ltac:(lia)).
    destruct (refill_large n nc' _) as [[r nc2] pm2]. destruct IH as (I1 & I2 & I3 & I4 & I5 & I6 & I7 & I8 & I9).
    split; [done|]. split; [done|]. split; [done|]. split.
    { rewrite I4, Hperm2, Hperm. cbn [app]. rewrite (Permutation_middle (frames pm)). done. }
    split; [done|]. split; [congruence|]. split; [intros E; specialize (I7 E); lia|].
    split; [intros e E; specialize (I8 e E); lia|lia].
  - destruct Ha as (_ & -> & Hz).
    split; [done|]. split; [done|]. split; [done|]. split; [done|]. split; [done|]. split; [done|].
    split; [done|]. split; [intros; rewrite Hz; cbn; lia|lia].
Qed.

Definition freeb (s : ls) : N := N.of_nat (length (mc_base (l_pm s))).
Definition freel (s : ls) : N := N.of_nat (length (mc_large (l_pm s))).
Definition same_rest (s s' : ls) : Prop :=
  l_zone s' = l_zone s /\ l_sbrk s' = l_sbrk s /\ l_big s' = l_big s /\ mc_node (l_pm s') = mc_node (l_pm s).

Lemma refill_tcache_spec nb nl s : pairok (l_pm s) (l_nc s) ->
  match refill_tcache nb nl s with
  | (r, s') => r <> Panic /\ pairok (l_pm s') (l_nc s') /\ same_rest s s' /\
      frames (l_pm s') ++ frames (l_nc s') ≡ₚ frames (l_pm s) ++ frames (l_nc s) /\
      freeb s <= freeb s' /\ freel s <= freel s' /\
      (r = Ok tt -> N.min 381 (freeb s + nb) <= freeb s' /\ N.min 128 (freel s + nl) <= freel s') /\
      (forall e, r = Err e -> N.of_nat (length (mc_base (l_nc s))) < nb \/ N.of_nat (length (mc_large (l_nc s))) < nl)
  end.
Proof.
  intros Hp. unfold refill_tcache. unfold freeb, freel.
  assert (Hf : fits SBP SLP (l_pm s)) by apply Hp. destruct Hf as [Fb Fl].
  set (nb' := N.min (N.of_nat SBP - N.of_nat (length (mc_base (l_pm s)))) nb).
  set (nl' := N.min (N.of_nat SLP - N.of_nat (length (mc_large (l_pm s)))) nl).
  pose proof (refill_base_spec (N.to_nat nb') (l_nc s) (l_pm s) Hp ltac:(lia)) as Hb.
  destruct (refill_base (N.to_nat nb') (l_nc s) (l_pm s)) as [[r nc] pm].
  destruct Hb as (B1 & B2 & B3 & B4 & B5 & B6 & B7 & B8 & B9).
  unfold SBP, SLP in *.
  destruct r as [[]|e|]; [| |done].
  - pose proof (refill_large_spec (N.to_nat nl') nc pm B2) as Hl. rewrite B5 in Hl. specialize (Hl ltac:(unfold SLP; lia)).
    destruct (refill_large (N.to_nat nl') nc pm) as [[r nc2] pm2].
    destruct Hl as (L1 & L2 & L3 & L4 & L5 & L6 & L7 & L8 & L9). cbn [l_pm l_nc l_zone l_sbrk l_big].
    specialize (B7 eq_refl).
    split; [done|]. split; [done|]. split; [split_and!; cbn; congruence|]. split; [by rewrite L4|].
    rewrite L5. split; [lia|]. split; [lia|].
    split; [intros E; specialize (L7 E); lia|]. intros e E. specialize (L8 e E). rewrite B6 in L8. right. lia.
  - cbn [l_pm l_nc l_zone l_sbrk l_big]. specialize (B8 e eq_refl).
    split; [done|]. split; [done|]. split; [split_and!; cbn; congruence|]. split; [done|].
    rewrite B5. split; [lia|]. split; [lia|]. split; [done|]. intros _ _. left. lia.
Qed.
Lemma maybe_refill_spec nb nl s : pairok (l_pm s) (l_nc s) ->
  match maybe_refill nb nl s with
  | (r, s') => r <> Panic /\ pairok (l_pm s') (l_nc s') /\ same_rest s s' /\
      frames (l_pm s') ++ frames (l_nc s') ≡ₚ frames (l_pm s) ++ frames (l_nc s) /\
      freeb s <= freeb s' /\ freel s <= freel s' /\
      (r = Ok tt -> N.min 381 nb <= freeb s' /\ N.min 128 nl <= freel s') /\
      (forall e, r = Err e -> N.of_nat (length (mc_base (l_nc s))) < nb \/ N.of_nat (length (mc_large (l_nc s))) < nl)
  end.
Proof.
  intros Hp. unfold maybe_refill. case_decide as Hd.
  - pose proof (refill_tcache_spec nb nl s Hp) as H. destruct (refill_tcache nb nl s) as [r s'].
    destruct H as (H1 & H2 & H3 & H4 & H5 & H6 & H7 & H8). split_and!; try done; intros E; specialize (H7 E); lia.
  - fold (freeb s) (freel s) in Hd. split; [done|]. split; [done|]. split; [split_and!; done|]. split; [done|]. split; [lia|]. split; [lia|].
    split; [intros _; lia|done].
Qed.

(** ** The slab pages *)
Global Instance zpage_eq_dec : EqDecision zpage.
Proof. solve_decision. Defined.
Lemma class_pos size : 8 <= class_of size.
Proof.
  unfold class_of. change 8 with (2 ^ 3) at 1. apply N.pow_le_mono_r; [done|].
  change 3 with (N.log2_up 8). apply N.log2_up_le_mono. lia.
Qed.
Lemma class_ge size : size <= class_of size.
Proof.
  unfold class_of. destruct (N.log2_up_spec (N.max 8 size)) as [_ H]; [lia|]. lia.
Qed.
Definition zp_ok (mb : N) (p : zpage) : Prop :=
  zp_base p mod zpsize mb (zp_class p) = 0 /\ 8 <= zp_class p /\ forall x, x ∈ zp_used p -> x ∈ zp_slots mb p.
Lemma zpsize_cases mb c : zpsize mb c = 4096 \/ zpsize mb c = 2097152.
Proof. unfold zpsize. case_decide; auto. Qed.
Lemma slot_spec mb p x : 8 <= zp_class p -> x ∈ zp_slots mb p ->
  exists i, x = zp_base p + i * zp_class p /\ x + zp_class p <= zp_base p + zpsize mb (zp_class p).
Proof.
  intros Hc Hx. unfold zp_slots in Hx. apply elem_of_list_fmap in Hx as (i & -> & Hi).
  apply elem_of_seq in Hi as [_ Hi]. exists (N.of_nat i). split; [done|].
  assert (Hd : N.of_nat i < (zpsize mb (zp_class p) - 80) / zp_class p) by lia.
  pose proof (N.mul_div_le (zpsize mb (zp_class p) - 80) (zp_class p) ltac:(lia)) as H.
  remember ((zpsize mb (zp_class p) - 80) / zp_class p) as q eqn:Eq. clear Eq Hi.
  assert (zp_class p * (N.of_nat i + 1) <= zp_class p * q) by (apply N.mul_le_mono_l; lia). lia.
Qed.
Lemma slot_covers mb p x off : zp_ok mb p -> x ∈ zp_used p -> off < zp_class p -> covers (zframe mb p) (x + off).
Proof.
  intros (H1 & H2 & H3) Hx Ho. destruct (slot_spec mb p x H2 (H3 x Hx)) as (i & E & Hle).
  unfold covers, zframe. cbn [f_base f_size]. lia.
Qed.
Lemma slot_covers' mb p x : 8 <= zp_class p -> x ∈ zp_slots mb p -> covers (zframe mb p) x.
Proof.
  intros H2 Hx. destruct (slot_spec mb p x H2 Hx) as (i & E & Hle).
  unfold covers, zframe. cbn [f_base f_size]. lia.
Qed.

(** Big objects: mapped pages lie below the break and do not overlap. *)
Definition vframe (e : N * frame) : frame := mkFrame e.1 (f_size e.2) 0.
Definition big_ok (s : ls) : Prop :=
  (forall e, e ∈ l_big s -> BIGBASE <= e.1 /\ e.1 + f_size e.2 <= l_sbrk s /\ 0 < f_size e.2) /\
  (forall a, (cov (map vframe (l_big s)) a <= 1)%nat) /\ BIGBASE <= l_sbrk s /\ l_sbrk s mod 2097152 = 0.

(** The invariant of the local state; [K] is the memory it owns. *)
Record sinv (num : bool) (mb : N) (K : (N -> bool) -> N -> nat) (s : ls) : Prop := {
  si_pair : pairok (l_pm s) (l_nc s);
  si_zone : Forall (zp_ok mb) (l_zone s);
  si_cov : forall P a, lab num P -> covP P (lall mb s) a = K P a;
  si_big : big_ok s }.
(** What calls preserve. *)
Record grows (s s' : ls) : Prop := {
  gr_used : forall p x, p ∈ l_zone s -> x ∈ zp_used p ->
    exists p', p' ∈ l_zone s' /\ zp_base p' = zp_base p /\ zp_class p' = zp_class p /\ zp_aff p' = zp_aff p /\ x ∈ zp_used p';
  gr_big : forall e, e ∈ l_big s -> e ∈ l_big s';
  gr_sbrk : l_sbrk s <= l_sbrk s';
  gr_node : mc_node (l_pm s') = mc_node (l_pm s) }.
Lemma grows_refl s : grows s s.
Proof. constructor; [|done|lia|done]. intros p x Hp Hx. eauto 10. Qed.
Lemma grows_trans s1 s2 s3 : grows s1 s2 -> grows s2 s3 -> grows s1 s3.
Proof.
  intros [A1 A2 A3 A4] [B1 B2 B3 B4]. constructor; [|auto|lia|congruence].
  intros p x Hp Hx. destruct (A1 p x Hp Hx) as (p' & H1 & H2 & H3 & H4 & H5).
  destruct (B1 p' x H1 H5) as (p'' & G1 & G2 & G3 & G4 & G5). exists p''. split_and!; try done; congruence.
Qed.
(** All memory counted once. *)
Definition once (num : bool) (K : (N -> bool) -> N -> nat) : Prop := forall a, (K (fun _ => true) a <= 1)%nat.

Lemma lab_all num : lab num (fun _ => true).
Proof. by right. Qed.

Lemma sinv_pair num mb K s pm nc : sinv num mb K s -> pairok pm nc ->
  frames pm ++ frames nc ≡ₚ frames (l_pm s) ++ frames (l_nc s) ->
  sinv num mb K (mkLs pm nc (l_zone s) (l_sbrk s) (l_big s)).
Proof.
  intros [H1 H2 H3 H4] Hp Hf. constructor; [done|done| |done].
  intros P a HP. rewrite <- (H3 P a HP). unfold lall. cbn [l_pm l_nc l_zone l_big].
  apply covP_perm. rewrite !app_assoc. by rewrite Hf.
Qed.
Lemma sinv_refill num mb K s s' : sinv num mb K s -> pairok (l_pm s') (l_nc s') -> same_rest s s' ->
  frames (l_pm s') ++ frames (l_nc s') ≡ₚ frames (l_pm s) ++ frames (l_nc s) -> sinv num mb K s' /\ grows s s'.
Proof.
  intros Hi Hp (E1 & E2 & E3 & E4) Hf. split.
  - pose proof (sinv_pair num mb K s (l_pm s') (l_nc s') Hi Hp Hf) as H. destruct s'; cbn in *. by subst.
  - constructor; [|by rewrite E3|lia|done]. rewrite E1. intros p x Hp' Hx. eauto 10.
Qed.

(** Pages that share an address are the same page. *)
Lemma zone_unique num mb K s p q a : sinv num mb K s -> once num K -> p ∈ l_zone s -> q ∈ l_zone s ->
  covers (zframe mb p) a -> covers (zframe mb q) a -> p = q.
Proof.
  intros Hi Ho Hp Hq Ha Hb. destruct (decide (p = q)) as [|Hne]; [done|exfalso].
  assert (Hc : (cov (map (zframe mb) (l_zone s)) a <= 1)%nat).
  { specialize (Ho a). rewrite <- (si_cov _ _ _ _ Hi _ a (lab_all num)) in Ho. rewrite covP_all in Ho.
    unfold lall in Ho. rewrite !cov_app in Ho. lia. }
  apply elem_of_list_lookup in Hp as [i Hi1]. apply elem_of_list_lookup in Hq as [j Hj1].
  assert (i <> j) as Hij by congruence.
  assert (Hg : forall l : list frame, (cov l a <= 1)%nat -> forall i j f g, i <> j -> l !! i = Some f -> l !! j = Some g ->
    covers f a -> covers g a -> False).
  { clear. intros l Hl i j f g Hij Hi Hj Hf Hg. pose proof (cov_lookup l i f a Hi Hf) as E.
    assert (cov (delete i l) a = 0%nat) as Hz by lia.
    assert (g ∈ delete i l) as Hin.
    { apply elem_of_list_lookup. destruct (decide (j < i)%nat).
      - exists j. by rewrite lookup_delete_lt.
      - exists (j - 1)%nat. rewrite lookup_delete_ge by lia. by replace (S (j - 1)) with j by lia. }
    by apply (proj1 (cov_zero_elem _ _) Hz g Hin). }
  eapply (Hg (map (zframe mb) (l_zone s)) Hc i j (zframe mb p) (zframe mb q) Hij).
  - change (map ?f ?l) with (f <$> l). by rewrite list_lookup_fmap, Hi1.
  - change (map ?f ?l) with (f <$> l). by rewrite list_lookup_fmap, Hj1.
  - done. - done.
Qed.

Lemma map_zframe_insert mb zs i p u : zs !! i = Some p ->
  map (zframe mb) (<[i := mkZp (zp_core p) (zp_aff p) (zp_class p) (zp_base p) u]> zs) = map (zframe mb) zs.
Proof.
  intros H. change (map ?f ?l) with (f <$> l). rewrite list_fmap_insert.
  apply list_insert_id. rewrite list_lookup_fmap, H. done.
Qed.

(** Taking a slot. *)
Lemma zone_alloc_spec num mb K core aff size align ch s : sinv num mb K s -> once num K ->
  match zone_alloc mb core aff size align ch s with
  | (Ok x, _, s') => sinv num mb K s' /\ grows s s' /\ l_pm s' = l_pm s /\ l_nc s' = l_nc s /\
      (x + KBASE) mod align = 0 /\ (forall p, p ∈ l_zone s -> x ∉ zp_used p) /\
      exists p, p ∈ l_zone s' /\ zp_class p = class_of size /\ zp_aff p = aff /\ x ∈ zp_used p
  | (Err e, _, s') => s' = s
  | (Panic, _, _) => False
  end.
Proof.
  intros Hi Ho. unfold zone_alloc. destruct (next_choice ch) as [[i x]|]; [|done].
  unfold use_slot. destruct (l_zone s !! i) as [p|] eqn:Hp; [|done].
  destruct (slot_ok mb core aff size align p x) eqn:Hs; [|done].
  unfold slot_ok in Hs. apply bool_decide_eq_true in Hs as (S1 & S2 & S3 & S4 & S5 & S6).
  set (p' := mkZp (zp_core p) (zp_aff p) (zp_class p) (zp_base p) (x :: zp_used p)).
  pose proof (elem_of_list_lookup_2 _ _ _ Hp) as Hin.
  assert (Hpok : zp_ok mb p) by (by apply (proj1 (stdpp.list.Forall_forall _ _) (si_zone _ _ _ _ Hi))).
  assert (Hlt : (i < length (l_zone s))%nat) by (by eapply lookup_lt_Some).
  split.
  { destruct Hi as [H1 H2 H3 H4]. constructor; [done| | |done].
    - cbn [l_zone]. apply Forall_insert; [done|]. destruct Hpok as (Q1 & Q2 & Q3). split; [done|]. split; [done|].
      intros y Hy. cbn [zp_used p'] in Hy. apply elem_of_cons in Hy as [->|Hy]; [exact S4|]. by apply Q3.
    - intros P a HP. rewrite <- (H3 P a HP). unfold lall. cbn [l_pm l_nc l_zone l_big]. unfold p'. by rewrite map_zframe_insert. }
  split.
  { constructor; [|done|cbn; lia|done]. cbn [l_zone]. intros q y Hq Hy.
    apply elem_of_list_lookup in Hq as [j Hj]. destruct (decide (j = i)) as [->|Hji].
    - rewrite Hp in Hj. injection Hj as <-. exists p'. split; [apply elem_of_list_lookup; exists i; by apply list_lookup_insert|].
      split_and!; try done. by right.
    - exists q. split; [apply elem_of_list_lookup; exists j; by rewrite list_lookup_insert_ne|]. done. }
  split; [done|]. split; [done|]. split; [done|]. split.
  { intros q Hq Hx. assert (q = p) as ->; [|done].
    assert (Hqok : zp_ok mb q) by (by apply (proj1 (stdpp.list.Forall_forall _ _) (si_zone _ _ _ _ Hi))).
    eapply (zone_unique num mb K s q p x Hi Ho Hq Hin).
    - replace x with (x + 0) by lia. apply slot_covers; [done|done|]. destruct Hqok as (_ & ? & _). lia.
    - apply slot_covers'; [apply Hpok|done]. }
  exists p'. split; [apply elem_of_list_lookup; exists i; by apply list_lookup_insert|].
  split; [done|]. split; [done|]. by left.
Qed.

(** slabmalloc's limit for base pages is a size class. *)
Definition mb_ok (mb : N) : Prop := class_of mb = mb.
Lemma class_mono x y : x <= y -> class_of x <= class_of y.
Proof. intros H. unfold class_of. apply N.pow_le_mono_r; [done|]. apply N.log2_up_le_mono. lia. Qed.
Lemma class_mb mb size : mb_ok mb -> zpsize mb (class_of size) = if decide (size <= mb) then BASE_PAGE else LARGE_PAGE.
Proof.
  intros H. unfold zpsize. pose proof (class_ge size) as Hg.
  destruct (decide (size <= mb)) as [Hs|Hs].
  - rewrite decide_True; [done|]. apply class_mono in Hs. unfold mb_ok in H. lia.
  - rewrite decide_False; [done|lia].
Qed.

Lemma refill_zone_spec num mb K core aff size s : mb_ok mb -> sinv num mb K s -> once num K -> aff = mc_node (l_pm s) ->
  match refill_zone mb core aff size s with
  | (Ok _, s') => sinv num mb K s' /\ grows s s' /\ l_nc s' = l_nc s /\
      (if decide (size <= mb) then freeb s = freeb s' + 1 /\ freel s' = freel s else freel s = freel s' + 1 /\ freeb s' = freeb s) /\
      exists b, l_zone s' = mkZp core aff (class_of size) b [] :: l_zone s
  | (Err _, s') => s' = s /\ (if decide (size <= mb) then freeb s = 0 else freel s = 0)
  | (Panic, _) => False
  end.
Proof.
  intros Hmb [H1 H2 H3 H4] Ho ->. unfold refill_zone.
  assert (Hok : mc_ok (l_pm s)) by apply H1. assert (Hfit : fits SBP SLP (l_pm s)) by apply H1.
  assert (Hgr : forall b pm, mc_node pm = mc_node (l_pm s) ->
    grows s (mkLs pm (l_nc s) (mkZp core (mc_node (l_pm s)) (class_of size) b [] :: l_zone s) (l_sbrk s) (l_big s))).
  { intros b pm Hn. constructor; [|done|cbn; lia|done]. intros p x Hp Hx. exists p. split; [by right|]. done. }
  pose proof (class_mb mb size Hmb) as Hz. pose proof (class_pos size) as Hc8.
  case_decide as Hd.
  - pose proof (alloc_base_spec _ _ _ Hok Hfit) as Ha. destruct (mc_alloc_base (l_pm s)) as [[f|e|] pm] eqn:Ea; [| |done].
    + destruct Ha as (A1 & A2 & A3 & A4 & A5 & _ & A7). destruct (alloc_base_perm _ _ _ Ea) as [Hperm Haff].
      assert (mc_large pm = mc_large (l_pm s)) as Hl.
      { clear -Ea. unfold mc_alloc_base in Ea. destruct (mc_base (l_pm s)); [done|]. unfold frame_new in Ea. case_decide; [|done]. by injection Ea as _ <-. }
      split.
      { constructor; [| | |done].
        - split; [done|]. split; [done|]. destruct H1 as (_ & _ & ? & ?). split; [done|]. cbn [l_pm l_nc]. congruence.
        - cbn [l_zone]. constructor; [|done]. split; [cbn [zp_base zp_class]; by rewrite Hz|]. split; [done|]. intros x Hx. by apply elem_of_nil in Hx.
        - intros P a HP. rewrite <- (H3 P a HP). unfold lall. cbn [l_pm l_nc l_zone l_big map].
          assert (zframe mb (mkZp core (mc_node (l_pm s)) (class_of size) (f_base f) []) = f) as ->.
          { unfold zframe. cbn. rewrite Hz, A4. done. }
          apply covP_perm. rewrite Hperm. cbn [app]. rewrite !(app_assoc (frames pm)). symmetry. apply Permutation_middle. }
      split; [by apply Hgr|]. split; [done|]. split; [|eauto]. unfold freeb, freel. cbn [l_pm]. rewrite Hl. split; [lia|done].
    + destruct Ha as (_ & -> & Hz0). split; [by destruct s|]. unfold freeb. by rewrite Hz0.
  - pose proof (alloc_large_spec _ _ _ Hok Hfit) as Ha. destruct (mc_alloc_large (l_pm s)) as [[f|e|] pm] eqn:Ea; [| |done].
    + destruct Ha as (A1 & A2 & A3 & A4 & A5 & _ & A7). destruct (alloc_large_perm _ _ _ Ea) as [Hperm Haff].
      assert (mc_base pm = mc_base (l_pm s)) as Hl.
      { clear -Ea. unfold mc_alloc_large in Ea. destruct (mc_large (l_pm s)); [done|]. unfold frame_new in Ea. case_decide; [|done]. by injection Ea as _ <-. }
      split.
      { constructor; [| | |done].
        - split; [done|]. split; [done|]. destruct H1 as (_ & _ & ? & ?). split; [done|]. cbn [l_pm l_nc]. congruence.
        - cbn [l_zone]. constructor; [|done]. split; [cbn [zp_base zp_class]; by rewrite Hz|]. split; [done|]. intros x Hx. by apply elem_of_nil in Hx.
        - intros P a HP. rewrite <- (H3 P a HP). unfold lall. cbn [l_pm l_nc l_zone l_big map].
          assert (zframe mb (mkZp core (mc_node (l_pm s)) (class_of size) (f_base f) []) = f) as ->.
          { unfold zframe. cbn. rewrite Hz, A4. done. }
          apply covP_perm. rewrite Hperm. cbn [app]. rewrite !(app_assoc (frames pm)). symmetry. apply Permutation_middle. }
      split; [by apply Hgr|]. split; [done|]. split; [|eauto]. unfold freeb, freel. cbn [l_pm]. rewrite Hl. split; [lia|done].
    + destruct Ha as (_ & -> & Hz0). split; [by destruct s|]. unfold freel. by rewrite Hz0.
Qed.

(** Allocation from the slab allocator. *)
Lemma alloc_zone_spec num mb K core aff size align t : forall ch s, mb_ok mb -> sinv num mb K s -> once num K -> aff = mc_node (l_pm s) ->
  match alloc_zone t mb core aff size align ch s with
  | (r, _, s') => sinv num mb K s' /\ grows s s' /\
    match r with
    | Ok (Some ptr) => ptr mod align = 0 /\ exists x p, ptr = x + KBASE /\ (forall q, q ∈ l_zone s -> x ∉ zp_used q) /\
        p ∈ l_zone s' /\ zp_class p = class_of size /\ zp_aff p = aff /\ x ∈ zp_used p
    | Ok None => True
    | _ => False
    end
  end.
Proof.
  induction t as [|t IH]; intros ch s Hmb Hi Ho Haff; cbn [alloc_zone].
  { split; [done|]. split; [apply grows_refl|done]. }
  pose proof (zone_alloc_spec num mb K core aff size align ch s Hi Ho) as Hz.
  destruct (zone_alloc mb core aff size align ch s) as [[[x|e|] ch'] s1]; [| |done].
  { destruct Hz as (Z1 & Z2 & Z3 & Z3' & Z4 & Z5 & p & Z6 & Z7 & Z8 & Z9). split; [done|]. split; [done|]. split; [done|].
    exists x, p. done. }
  subst s1.
  assert (Hr : exists r s2, (if decide (size <= mb) then maybe_refill 1 0 s else maybe_refill 0 1 s) = (r, s2) /\
     r <> Panic /\ sinv num mb K s2 /\ grows s s2 /\ l_zone s2 = l_zone s).
  { assert (forall nb nl, exists r s2, maybe_refill nb nl s = (r, s2) /\ r <> Panic /\ sinv num mb K s2 /\ grows s s2 /\ l_zone s2 = l_zone s) as H.
    { intros nb nl. pose proof (maybe_refill_spec nb nl s (si_pair _ _ _ _ Hi)) as H.
      destruct (maybe_refill nb nl s) as [r s2]. destruct H as (M1 & M2 & M3 & M4 & _).
      destruct (sinv_refill num mb K s s2 Hi M2 M3 M4) as [Q1 Q2]. exists r, s2. split_and!; try done. apply M3. }
    case_decide; apply H. }
  destruct Hr as (r & s2 & -> & Hnp & Hi2 & Hg2 & Hz2).
  destruct r as [[]|e2|]; [| |done]; [|by split].
  pose proof (refill_zone_spec num mb K core aff size s2 Hmb Hi2 Ho ltac:(rewrite (gr_node _ _ Hg2); done)) as Hf.
  destruct (refill_zone mb core aff size s2) as [[[]|e3|] s3]; [| |done].
  - destruct Hf as (F1 & F2 & F3 & _ & b & F4).
    specialize (IH ch' s3 Hmb F1 Ho ltac:(rewrite (gr_node _ _ F2), (gr_node _ _ Hg2); done)).
    destruct (alloc_zone t mb core aff size align ch' s3) as [[r3 ch3] s4]. destruct IH as (I1 & I2 & I3).
    split; [done|]. split; [eapply grows_trans; [exact Hg2|]; eapply grows_trans; [exact F2|done]|].
    destruct r3 as [[ptr|]|e3|]; try done. destruct I3 as (I3 & x & p & I4 & I5 & I6). split; [done|].
    exists x, p. split; [done|]. split; [|done]. intros q Hq. apply I5. rewrite F4, Hz2. by right.
  - destruct Hf as [-> _]. done.
Qed.

Lemma refill_tcache_big nb nl s r s' : refill_tcache nb nl s = (r, s') -> l_big s' = l_big s /\ l_sbrk s' = l_sbrk s.
Proof.
  unfold refill_tcache. destruct (refill_base _ _ _) as [[[] nc] pm].
  - destruct (refill_large _ _ _) as [[r2 nc2] pm2]. by intros [= <- <-].
  - by intros [= <- <-]. - by intros [= <- <-].
Qed.
Lemma maybe_refill_big nb nl s r s' : maybe_refill nb nl s = (r, s') -> l_big s' = l_big s /\ l_sbrk s' = l_sbrk s.
Proof. unfold maybe_refill. case_decide; [apply refill_tcache_big|by intros [= <- <-]]. Qed.
Lemma refill_zone_big mb core aff size s r s' : refill_zone mb core aff size s = (r, s') -> l_big s' = l_big s /\ l_sbrk s' = l_sbrk s.
Proof.
  unfold refill_zone. case_decide.
  - destruct (mc_alloc_base _) as [[] ?]; by intros [= <- <-].
  - destruct (mc_alloc_large _) as [[] ?]; by intros [= <- <-].
Qed.
Lemma alloc_zone_big t mb core aff size align : forall ch s r ch' s', alloc_zone t mb core aff size align ch s = (r, ch', s') ->
  l_big s' = l_big s /\ l_sbrk s' = l_sbrk s.
Proof.
  induction t as [|t IH]; intros ch s r ch' s' E; cbn [alloc_zone] in E; [by simplify_eq|].
  destruct (zone_alloc mb core aff size align ch s) as [[rz chz] sz] eqn:Ez.
  assert (Hz : l_big sz = l_big s /\ l_sbrk sz = l_sbrk s).
  { unfold zone_alloc in Ez. destruct (next_choice ch) as [[i x]|]; [|by simplify_eq].
    destruct (use_slot _ _ _ _ _ _ _ _); by simplify_eq. }
  destruct rz as [x|e|]; [by simplify_eq| |by simplify_eq].
  destruct (if decide (size <= mb) then maybe_refill 1 0 sz else maybe_refill 0 1 sz) as [rm sm] eqn:Em.
  assert (Hm : l_big sm = l_big sz /\ l_sbrk sm = l_sbrk sz) by (case_decide; by apply maybe_refill_big in Em).
  destruct Hz as [Hz1 Hz2], Hm as [Hm1 Hm2].
  destruct rm as [[]|e2|]; [|simplify_eq; split; congruence|simplify_eq; split; congruence].
  destruct (refill_zone mb core aff size sm) as [rf sf] eqn:Ef. apply refill_zone_big in Ef as [Hf1 Hf2].
  destruct rf as [[]|e3|]; [|simplify_eq; split; congruence|simplify_eq; split; congruence].
  apply IH in E as [E1 E2]. split; congruence.
Qed.

(** Allocation of a large page. *)
Lemma take_large num mb K s f pm : sinv num mb K s -> mc_alloc_large (l_pm s) = (Ok f, pm) ->
  sinv num mb (fun P a => K P a - covP P [f] a)%nat (set_pm s pm) /\ grows s (set_pm s pm) /\
  f = lframe (mc_node (l_pm s)) (f_base f) /\ f_base f mod 2097152 = 0 /\
  (forall P a, lab num P -> (covP P [f] a <= K P a)%nat) /\ freel s = freel (set_pm s pm) + 1 /\ freeb (set_pm s pm) = freeb s.
Proof.
  intros [H1 H2 H3 H4] Ea.
  assert (Hok : mc_ok (l_pm s)) by apply H1. assert (Hfit : fits SBP SLP (l_pm s)) by apply H1.
  pose proof (alloc_large_spec _ _ _ Hok Hfit) as Ha. rewrite Ea in Ha. destruct Ha as (A1 & A2 & A3 & A4 & A5 & _ & A7).
  destruct (alloc_large_perm _ _ _ Ea) as [Hperm Haff].
  assert (Hcov : forall P a, covP P (lall mb s) a = (covP P [f] a + covP P (lall mb (set_pm s pm)) a)%nat).
  { intros P a. rewrite <- covP_app. apply covP_perm. unfold lall. cbn [l_pm l_nc l_zone l_big set_pm]. by rewrite Hperm. }
  assert (mc_base pm = mc_base (l_pm s)) as Hl.
  { clear -Ea. unfold mc_alloc_large in Ea. destruct (mc_large (l_pm s)); [done|]. unfold frame_new in Ea. case_decide; [|done]. by injection Ea as _ <-. }
  split.
  { constructor; [|done| |done].
    - split; [done|]. split; [done|]. destruct H1 as (_ & _ & ? & ?). split; [done|]. cbn [l_pm l_nc set_pm]. congruence.
    - intros P a HP. rewrite <- (H3 P a HP), Hcov. lia. }
  split. { constructor; [|done|cbn; lia|done]. intros p x Hp Hx. eauto 10. }
  split; [done|]. split; [done|]. split; [intros P a HP; rewrite <- (H3 P a HP), Hcov; lia|].
  unfold freel, freeb. cbn [l_pm set_pm]. rewrite Hl. split; [lia|done].
Qed.
Lemma take_base num mb K s f pm : sinv num mb K s -> mc_alloc_base (l_pm s) = (Ok f, pm) ->
  sinv num mb (fun P a => K P a - covP P [f] a)%nat (set_pm s pm) /\ grows s (set_pm s pm) /\
  f = bframe (mc_node (l_pm s)) (f_base f) /\ f_base f mod 4096 = 0 /\
  (forall P a, lab num P -> (covP P [f] a <= K P a)%nat) /\ freeb s = freeb (set_pm s pm) + 1 /\ freel (set_pm s pm) = freel s.
Proof.
  intros [H1 H2 H3 H4] Ea.
  assert (Hok : mc_ok (l_pm s)) by apply H1. assert (Hfit : fits SBP SLP (l_pm s)) by apply H1.
  pose proof (alloc_base_spec _ _ _ Hok Hfit) as Ha. rewrite Ea in Ha. destruct Ha as (A1 & A2 & A3 & A4 & A5 & _ & A7).
  destruct (alloc_base_perm _ _ _ Ea) as [Hperm Haff].
  assert (Hcov : forall P a, covP P (lall mb s) a = (covP P [f] a + covP P (lall mb (set_pm s pm)) a)%nat).
  { intros P a. rewrite <- covP_app. apply covP_perm. unfold lall. cbn [l_pm l_nc l_zone l_big set_pm]. by rewrite Hperm. }
  assert (mc_large pm = mc_large (l_pm s)) as Hl.
  { clear -Ea. unfold mc_alloc_base in Ea. destruct (mc_base (l_pm s)); [done|]. unfold frame_new in Ea. case_decide; [|done]. by injection Ea as _ <-. }
  split.
  { constructor; [|done| |done].
    - split; [done|]. split; [done|]. destruct H1 as (_ & _ & ? & ?). split; [done|]. cbn [l_pm l_nc set_pm]. congruence.
    - intros P a HP. rewrite <- (H3 P a HP), Hcov. lia. }
  split. { constructor; [|done|cbn; lia|done]. intros p x Hp Hx. eauto 10. }
  split; [done|]. split; [done|]. split; [intros P a HP; rewrite <- (H3 P a HP), Hcov; lia|].
  unfold freel, freeb. cbn [l_pm set_pm]. rewrite Hl. split; [lia|done].
Qed.

Lemma alloc_large_block num mb K t : forall s, sinv num mb K s ->
  match alloc_large t s with
  | (r, s') => grows s s' /\
    match r with
    | Ok (Some ptr) => exists f, ptr = f_base f + KBASE /\ f = lframe (mc_node (l_pm s)) (f_base f) /\ f_base f mod 2097152 = 0 /\
        sinv num mb (fun P a => K P a - covP P [f] a)%nat s' /\ (forall P a, lab num P -> (covP P [f] a <= K P a)%nat)
    | Ok None => sinv num mb K s'
    | _ => False
    end
  end.
Proof.
  induction t as [|t IH]; intros s Hi; cbn [alloc_large].
  { split; [apply grows_refl|done]. }
  assert (Hok : mc_ok (l_pm s)) by apply (si_pair _ _ _ _ Hi). assert (Hfit : fits SBP SLP (l_pm s)) by apply (si_pair _ _ _ _ Hi).
  pose proof (alloc_large_spec _ _ _ Hok Hfit) as Ha.
  destruct (mc_alloc_large (l_pm s)) as [[f|e|] pm] eqn:Ea; [| |done].
  { destruct (take_large num mb K s f pm Hi Ea) as (T1 & T2 & T3 & T4 & T5 & _). split; [done|]. exists f. done. }
  destruct Ha as (_ & -> & _). assert (set_pm s (l_pm s) = s) as -> by (by destruct s).
  pose proof (refill_tcache_spec 0 1 s (si_pair _ _ _ _ Hi)) as Hr. destruct (refill_tcache 0 1 s) as [r s2].
  destruct Hr as (R1 & R2 & R3 & R4 & _). destruct (sinv_refill num mb K s s2 Hi R2 R3 R4) as [Hi2 Hg2].
  destruct r as [[]|e2|]; [| |done]; [|by split].
  specialize (IH s2 Hi2). destruct (alloc_large t s2) as [r s3]. destruct IH as [I1 I2].
  split; [by eapply grows_trans|]. destruct r as [[ptr|]|e3|]; try done. by rewrite <- (gr_node _ _ Hg2).
Qed.

(** Page tables. *)
Lemma alloc_tables_spec num mb K core aff n : forall ch s, mb_ok mb -> sinv num mb K s -> once num K -> aff = mc_node (l_pm s) ->
  match alloc_tables n mb core aff ch s with
  | (Ok _, _, s') => sinv num mb K s' /\ grows s s' /\ l_big s' = l_big s /\ l_sbrk s' = l_sbrk s
  | _ => True
  end.
Proof.
  induction n as [|n IH]; intros ch s Hmb Hi Ho Ha; cbn [alloc_tables].
  { split; [done|]. split; [apply grows_refl|done]. }
  pose proof (alloc_zone_spec num mb K core aff BASE_PAGE BASE_PAGE 3 ch s Hmb Hi Ho Ha) as Hz.
  destruct (alloc_zone 3 mb core aff BASE_PAGE BASE_PAGE ch s) as [[r ch1] s1] eqn:Ez.
  apply alloc_zone_big in Ez as [Eb Es]. destruct Hz as (Z1 & Z2 & Z3).
  destruct r as [[ptr|]|e|]; try done.
  specialize (IH ch1 s1 Hmb Z1 Ho ltac:(rewrite (gr_node _ _ Z2); done)).
  destruct (alloc_tables n mb core aff ch1 s1) as [[[[]|e|] ch2] s2]; try done.
  destruct IH as (I1 & I2 & I3 & I4). split; [done|]. split; [by eapply grows_trans|]. split; congruence.
Qed.

(** Allocation of tables never adds to the large pages of the core. *)
Lemma alloc_zone_S t mb core aff size align ch s : alloc_zone (S t) mb core aff size align ch s =
    match zone_alloc mb core aff size align ch s with
    | (Ok x, ch', s') => (Ok (Some (x + KBASE)), ch', s')
    | (Err _, ch', s1) =>
      match (if decide (size <= mb) then maybe_refill 1 0 s1 else maybe_refill 0 1 s1) with
      | (Ok _, s2) =>
        match refill_zone mb core aff size s2 with
        | (Ok _, s3) => alloc_zone t mb core aff size align ch' s3
        | (Err _, s3) => (Ok None, ch', s3)
        | (Panic, s3) => (Panic, ch', s3)
        end
      | (Err _, s2) => (Ok None, ch', s2)
      | (Panic, s2) => (Panic, ch', s2)
      end
    | (Panic, ch', s') => (Panic, ch', s')
    end.
Proof. done. Qed.
Lemma refill_tcache_freel nb s r s' : pairok (l_pm s) (l_nc s) -> refill_tcache nb 0 s = (r, s') -> freel s' = freel s.
Proof.
  intros Hp E. unfold refill_tcache in E. rewrite N.min_0_r in E. cbn [N.to_nat] in E.
  pose proof (refill_base_spec (N.to_nat (N.min (N.of_nat SBP - N.of_nat (length (mc_base (l_pm s)))) nb)) (l_nc s) (l_pm s) Hp) as Hb.
  assert (Hf : fits SBP SLP (l_pm s)) by apply Hp. destruct Hf as [Fb Fl]. specialize (Hb ltac:(lia)).
  destruct (refill_base _ _ _) as [[[[]|e|] nc] pm]; destruct Hb as (_ & _ & _ & _ & B5 & _).
  - cbn in E. injection E as <- <-. unfold freel. cbn [l_pm]. by rewrite B5.
  - injection E as <- <-. unfold freel. cbn [l_pm]. by rewrite B5.
  - injection E as <- <-. unfold freel. cbn [l_pm]. by rewrite B5.
Qed.
Lemma alloc_zone_freel num mb K core aff size align t : forall ch s, mb_ok mb -> sinv num mb K s -> once num K -> aff = mc_node (l_pm s) ->
  match alloc_zone t mb core aff size align ch s with
  | (Ok (Some _), _, s') => freel s' <= freel s
  | _ => True
  end.
Proof.
  induction t as [|t IH]; intros ch s Hmb Hi Ho Haff; [done|]. rewrite alloc_zone_S.
  pose proof (zone_alloc_spec num mb K core aff size align ch s Hi Ho) as Hz.
  destruct (zone_alloc mb core aff size align ch s) as [[[x|e|] ch'] s1]; [| |done].
  { destruct Hz as (_ & _ & Z3 & _). unfold freel. rewrite Z3. lia. }
  subst s1.
  assert (Hr : exists r s2, (if decide (size <= mb) then maybe_refill 1 0 s else maybe_refill 0 1 s) = (r, s2) /\
     sinv num mb K s2 /\ grows s s2 /\ (if decide (size <= mb) then freel s2 = freel s else (r = Ok tt -> freel s2 <= N.max 1 (freel s)))).
  { assert (forall nb nl, exists r s2, maybe_refill nb nl s = (r, s2) /\ sinv num mb K s2 /\ grows s s2) as H.
    { intros nb nl. pose proof (maybe_refill_spec nb nl s (si_pair _ _ _ _ Hi)) as H.
      destruct (maybe_refill nb nl s) as [r s2]. destruct H as (M1 & M2 & M3 & M4 & _).
      destruct (sinv_refill num mb K s s2 Hi M2 M3 M4) as [Q1 Q2]. exists r, s2. done. }
    case_decide.
    - destruct (H 1 0) as (r & s2 & E & H1 & H2). exists r, s2. split; [done|]. split; [done|]. split; [done|].
      unfold maybe_refill in E. case_decide; [|by injection E as _ <-]. by eapply refill_tcache_freel; [apply (si_pair _ _ _ _ Hi)|exact E].
    - destruct (H 0 1) as (r & s2 & E & H1 & H2). exists r, s2. split; [done|]. split; [done|]. split; [done|]. intros ->.
      unfold maybe_refill in E. case_decide as Hd; [|injection E as <-; lia].
      assert (Hz : freel s = 0) by (unfold freel; lia).
      unfold refill_tcache in E. rewrite N.min_0_r in E. cbn [N.to_nat refill_base] in E.
      set (n := N.to_nat (N.min (N.of_nat SLP - N.of_nat (length (mc_large (l_pm s)))) 1)) in *.
      pose proof (refill_large_spec n (l_nc s) (l_pm s) (si_pair _ _ _ _ Hi)) as Hl.
      assert (Hn : (n <= 1)%nat) by (unfold n; lia). unfold freel in Hz.
      specialize (Hl ltac:(unfold SLP; lia)).
      destruct (refill_large n (l_nc s) (l_pm s)) as [[r nc] pm]. injection E as -> <-.
      destruct Hl as (_ & _ & _ & _ & _ & _ & L7 & _). destruct (L7 eq_refl) as [L7' _]. unfold freel. cbn [l_pm]. lia. }
  destruct Hr as (r & s2 & -> & Hi2 & Hg2 & Hfl).
  destruct r as [[]|e2|]; [|done|done].
  pose proof (refill_zone_spec num mb K core aff size s2 Hmb Hi2 Ho ltac:(rewrite (gr_node _ _ Hg2); done)) as Hf.
  destruct (refill_zone mb core aff size s2) as [[[]|e3|] s3]; [|done|done].
  destruct Hf as (F1 & F2 & F3 & Ff & b & F4).
  specialize (IH ch' s3 Hmb F1 Ho ltac:(rewrite (gr_node _ _ F2), (gr_node _ _ Hg2); done)).
  destruct (alloc_zone t mb core aff size align ch' s3) as [[[[p|]|e3|] ch3] s4]; try done.
  destruct (decide (size <= mb)); [lia|]. specialize (Hfl eq_refl). lia.
Qed.
Lemma alloc_tables_freel num mb K core aff n : forall ch s, mb_ok mb -> sinv num mb K s -> once num K -> aff = mc_node (l_pm s) ->
  match alloc_tables n mb core aff ch s with
  | (Ok _, _, s') => freel s' <= freel s
  | _ => True
  end.
Proof.
  induction n as [|n IH]; intros ch s Hmb Hi Ho Ha; cbn [alloc_tables]; [lia|].
  pose proof (alloc_zone_spec num mb K core aff BASE_PAGE BASE_PAGE 3 ch s Hmb Hi Ho Ha) as Hz.
  pose proof (alloc_zone_freel num mb K core aff BASE_PAGE BASE_PAGE 3 ch s Hmb Hi Ho Ha) as Hfz.
  destruct (alloc_zone 3 mb core aff BASE_PAGE BASE_PAGE ch s) as [[r ch1] s1]. destruct Hz as (Z1 & Z2 & Z3).
  destruct r as [[ptr|]|e|]; try done.
  specialize (IH ch1 s1 Hmb Z1 Ho ltac:(rewrite (gr_node _ _ Z2); done)).
  destruct (alloc_tables n mb core aff ch1 s1) as [[[[]|e|] ch2] s2]; try done. lia.
Qed.

Lemma big_add s va f : big_ok s -> (forall e : N * frame, e ∈ l_big s -> e.1 + f_size e.2 <= va) -> BIGBASE <= va ->
  0 < f_size f -> va + f_size f <= l_sbrk s ->
  big_ok (mkLs (l_pm s) (l_nc s) (l_zone s) (l_sbrk s) ((va, f) :: l_big s)).
Proof.
  intros (B1 & B2 & B3 & B4) Hf Hva Hs Hle. split; [|split; [|done]].
  - cbn [l_big l_sbrk]. intros e He. apply elem_of_cons in He as [->|He]; [done|]. by apply B1.
  - cbn [l_big map]. intros a. cbn [cov]. case_decide as Hc; [|apply B2].
    assert (cov (map vframe (l_big s)) a = 0%nat) as ->; [|lia].
    apply cov_zero_elem. intros g Hg Hga. apply elem_of_list_fmap in Hg as (e & -> & He).
    unfold vframe, covers in *. cbn [f_base f_size fst snd] in *. specialize (Hf e He). lia.
Qed.

Lemma map_pages_spec num mb K core aff (lg : bool) n : forall va nt ch s, mb_ok mb -> sinv num mb K s -> once num K -> aff = mc_node (l_pm s) ->
  let sz := if lg then LARGE_PAGE else BASE_PAGE in
  (forall e : N * frame, e ∈ l_big s -> e.1 + f_size e.2 <= va) -> BIGBASE <= va -> va + N.of_nat n * sz <= l_sbrk s ->
  match map_pages lg n va nt mb core aff ch s with
  | (Ok va', _, _, s') => va' = va + N.of_nat n * sz /\ sinv num mb K s' /\ grows s s' /\ l_sbrk s' = l_sbrk s /\
      (forall b, va <= b < va' -> exists e : N * frame, e ∈ l_big s' /\ e.1 <= b < e.1 + f_size e.2 /\ va <= e.1) /\
      (forall e : N * frame, e ∈ l_big s' -> e.1 + f_size e.2 <= va') /\
      (forall e : N * frame, e ∈ l_big s' -> e ∈ l_big s \/ f_aff e.2 = aff) /\
      (lg = true -> N.of_nat n <= freel s)
  | _ => True
  end.
Proof.
  induction n as [|n IH]; intros va nt ch s Hmb Hi Ho Ha sz Hfr Hva Hle; cbn [map_pages].
  { split; [lia|]. split; [done|]. split; [apply grows_refl|]. split; [done|]. split; [intros; lia|]. split; [done|]. split; [by left|lia]. }
  assert (Ht : forall f pm, (if lg then mc_alloc_large (l_pm s) else mc_alloc_base (l_pm s)) = (Ok f, pm) ->
    sinv num mb (fun P a => K P a - covP P [f] a)%nat (set_pm s pm) /\ grows s (set_pm s pm) /\
    f_size f = sz /\ f_aff f = mc_node (l_pm s) /\ (forall P a, lab num P -> (covP P [f] a <= K P a)%nat) /\
    (lg = true -> freel s = freel (set_pm s pm) + 1)).
  { intros f pm E. destruct lg.
    - destruct (take_large num mb K s f pm Hi E) as (T1 & T2 & T3 & T4 & T5 & T6 & _). split_and!; try done; by rewrite T3.
    - destruct (take_base num mb K s f pm Hi E) as (T1 & T2 & T3 & T4 & T5 & T6 & _). split_and!; try done; by rewrite T3. }
  destruct (if lg then mc_alloc_large (l_pm s) else mc_alloc_base (l_pm s)) as [[f|e|] pm]; try done.
  destruct (Ht f pm eq_refl) as (T1 & T2 & T3 & T3' & T4 & T6). clear Ht.
  assert (Hszp : 0 < sz) by (destruct lg; done).
  pose proof (alloc_tables_spec num mb (fun P a => K P a - covP P [f] a)%nat core aff (hd 0%nat nt) ch (set_pm s pm) Hmb T1) as Hat.
  pose proof (alloc_tables_freel num mb (fun P a => K P a - covP P [f] a)%nat core aff (hd 0%nat nt) ch (set_pm s pm) Hmb T1) as Haf.
  specialize (Hat ltac:(intros a; specialize (Ho a); cbn beta; lia) ltac:(rewrite (gr_node _ _ T2); done)).
  specialize (Haf ltac:(intros a; specialize (Ho a); cbn beta; lia) ltac:(rewrite (gr_node _ _ T2); done)).
  destruct (alloc_tables (hd 0%nat nt) mb core aff ch (set_pm s pm)) as [[[[]|e|] ch'] s1]; try done.
  destruct Hat as (A1 & A2 & A3 & A4). cbn [l_big l_sbrk set_pm] in A3, A4.
  set (s2 := mkLs (l_pm s1) (l_nc s1) (l_zone s1) (l_sbrk s1) ((va, f) :: l_big s1)).
  assert (Hi2 : sinv num mb K s2).
  { destruct A1 as [H1 H2 H3 H4]. constructor; [done|done| |].
    - intros P a HP. specialize (H3 P a HP). specialize (T4 P a HP). cbn beta in H3.
      assert (covP P (lall mb s2) a = (covP P [f] a + covP P (lall mb s1) a)%nat) as ->; [|lia].
      rewrite <- covP_app. apply covP_perm. unfold lall, s2. cbn [l_pm l_nc l_zone l_big map snd app].
      rewrite !app_assoc. symmetry. apply Permutation_middle.
    - apply big_add; [done|by rewrite A3|done|lia|rewrite A4; lia]. }
  assert (Hg2 : grows s s2).
  { eapply grows_trans; [exact T2|]. eapply grows_trans; [exact A2|].
    constructor; [|intros e He; by right|cbn; lia|done]. intros p x Hp Hx. exists p. done. }
  rewrite T3.
  specialize (IH (va + sz) (tail nt) ch' s2 Hmb Hi2 Ho ltac:(rewrite (gr_node _ _ Hg2); done)).
  cbn zeta in IH. fold sz in IH.
  specialize (IH ltac:(cbn [s2 l_big]; intros e He; apply elem_of_cons in He as [->|He];
    [cbn [fst snd]; lia|rewrite A3 in He; specialize (Hfr e He); lia]) ltac:(lia) ltac:(cbn [s2 l_sbrk]; rewrite A4; lia)).
  destruct (map_pages lg n (va + sz) (tail nt) mb core aff ch' s2) as [[[[va'|e|] nt2] ch2] s3]; try done.
  destruct IH as (I1 & I2 & I3 & I4 & I5 & I6 & I7 & I8).
  split; [lia|]. split; [done|]. split; [by eapply grows_trans|].
  split; [rewrite I4; cbn [s2 l_sbrk]; done|].
  split.
  { intros b Hb. destruct (decide (b < va + sz)) as [Hlt|Hge].
    - exists (va, f). split; [apply (gr_big _ _ I3); by left|]. cbn [fst snd]. lia.
    - destruct (I5 b ltac:(lia)) as (e & He1 & He2 & He3). exists e. split; [done|]. split; [done|lia]. }
  split; [done|]. split.
  { intros e He. destruct (I7 e He) as [He2|He2]; [|by right].
    cbn [s2 l_big] in He2. apply elem_of_cons in He2 as [->|He2]; [right; cbn [snd]; congruence|left]. by rewrite <- A3. }
  intros Hlg. specialize (I8 Hlg). specialize (T6 Hlg). change (freel s2) with (freel s1) in I8. lia.
Qed.

(** Big objects. *)
Lemma big_pages_spec size base large : big_pages size = (base, large) ->
  size <= large * 2097152 + base * 4096 /\ base <= 254.
Proof.
  unfold big_pages. destruct (size_to_pages size) as [b l] eqn:E.
  assert (H : size <= l * 2097152 + b * 4096 /\ b <= 512).
  { revert E. unfold size_to_pages, BASE_PAGE, LARGE_PAGE. intros E.
    repeat case_decide; injection E as <- <-; lia. }
  case_decide; intros [= <- <-]; lia.
Qed.

Lemma try_big_spec num mb K core aff size nt ch s : mb_ok mb -> sinv num mb K s -> once num K -> aff = mc_node (l_pm s) ->
  match try_big mb core aff size nt ch s with
  | (Ok p, _, s') => p = l_sbrk s /\ sinv num mb K s' /\ grows s s' /\ p + size <= l_sbrk s' /\
      (forall b, p <= b < p + size -> exists e : N * frame, e ∈ l_big s' /\ e.1 <= b < e.1 + f_size e.2 /\ f_aff e.2 = aff) /\
      (big_pages size).2 <= 128
  | (Err _, _, s') => sinv num mb K s' /\ grows s s'
  | (Panic, _, _) => True
  end.
Proof.
  intros Hmb Hi Ho Ha. unfold try_big. destruct (big_pages size) as [base large] eqn:Ep.
  apply big_pages_spec in Ep as [Hsz Hbase].
  pose proof (maybe_refill_spec (base + 20) (large + 1) s (si_pair _ _ _ _ Hi)) as Hr.
  destruct (maybe_refill (base + 20) (large + 1) s) as [r s1]. destruct Hr as (R1 & R2 & R3 & R4 & _).
  destruct (sinv_refill num mb K s s1 Hi R2 R3 R4) as [Hi1 Hg1].
  destruct r as [[]|e|]; [|done|done].
  assert (Es : l_sbrk s1 = l_sbrk s) by apply R3. assert (Ebg : l_big s1 = l_big s) by apply R3.
  set (s2 := mkLs (l_pm s1) (l_nc s1) (l_zone s1) (l_sbrk s1 + (large + 1) * LARGE_PAGE) (l_big s1)).
  assert (HLP : LARGE_PAGE = 2097152) by done. assert (HBP : BASE_PAGE = 4096) by done.
  assert (Hi2 : sinv num mb K s2).
  { destruct Hi1 as [H1 H2 H3 (B1 & B2 & B3 & B4)]. constructor; [done|done|done|].
    split; [|split; [done|split]].
    - intros e He. cbn [s2 l_big l_sbrk] in *. specialize (B1 e He). lia.
    - cbn [s2 l_sbrk]. lia.
    - cbn [s2 l_sbrk]. rewrite HLP. rewrite N.mod_add by lia. done. }
  assert (Hg2 : grows s1 s2).
  { constructor; [|done|cbn [s2 l_sbrk]; lia|done]. intros p x Hp Hx. exists p. done. }
  destruct (si_big _ _ _ _ Hi1) as (B1 & B2 & B3 & B4).
  pose proof (map_pages_spec num mb K core aff true (N.to_nat large) (l_sbrk s1) nt ch s2 Hmb Hi2 Ho) as Hm1.
  specialize (Hm1 ltac:(rewrite (gr_node _ _ Hg2), (gr_node _ _ Hg1); done) ltac:(intros e He; by apply B1) B3
    ltac:(cbn [s2 l_sbrk]; rewrite HLP; lia)).
  destruct (map_pages true (N.to_nat large) (l_sbrk s1) nt mb core aff ch s2) as [[[[va|e|] nt'] ch'] s3]; try done.
  destruct Hm1 as (M1 & M2 & M3 & M4 & M5 & M6 & M7 & M8).
  pose proof (map_pages_spec num mb K core aff false (N.to_nat base) va nt' ch' s3 Hmb M2 Ho) as Hm2.
  specialize (Hm2 ltac:(rewrite (gr_node _ _ M3), (gr_node _ _ Hg2), (gr_node _ _ Hg1); done) M6 ltac:(lia)
    ltac:(rewrite M4; cbn [s2 l_sbrk]; rewrite HLP in *; rewrite HBP; lia)).
  destruct (map_pages false (N.to_nat base) va nt' mb core aff ch' s3) as [[[[va'|e|] nt''] ch''] s4]; try done.
  destruct Hm2 as (Q1 & Q2 & Q3 & Q4 & Q5 & Q6 & Q7 & _).
  split; [done|]. split; [done|].
  split; [eapply grows_trans; [exact Hg1|]; eapply grows_trans; [exact Hg2|]; eapply grows_trans; [exact M3|exact Q3]|].
  split; [rewrite Q4, M4; cbn [s2 l_sbrk]; rewrite HLP; lia|].
  split.
  2:{ cbn [snd]. specialize (M8 eq_refl). change (freel s2) with (freel s1) in M8.
      assert (Hfit : fits SBP SLP (l_pm s1)) by apply R2. destruct Hfit as [_ Hfl]. unfold SLP in Hfl. unfold freel in M8. lia. }
  intros b Hb. rewrite HLP, HBP in *.
  assert (He : exists e : N * frame, e ∈ l_big s4 /\ e.1 <= b < e.1 + f_size e.2).
  { destruct (decide (b < va)) as [Hlt|Hge].
    - destruct (M5 b ltac:(lia)) as (e & E1 & E2 & E3). exists e. split; [by apply (gr_big _ _ Q3)|done].
    - destruct (Q5 b ltac:(lia)) as (e & E1 & E2 & E3). exists e. done. }
  destruct He as (e & E1 & E2). exists e. split; [done|]. split; [done|].
  destruct (Q7 e E1) as [E3|E3]; [|done]. destruct (M7 e E3) as [E4|E4]; [|done].
  cbn [s2 l_big] in E4. specialize (B1 e E4). lia.
Qed.
Lemma alloc_big_spec num mb K core aff size nt t : forall ch s, mb_ok mb -> sinv num mb K s -> once num K -> aff = mc_node (l_pm s) ->
  match alloc_big t mb core aff size nt ch s with
  | (Ok (Some p), s') => l_sbrk s <= p /\ p mod 2097152 = 0 /\ sinv num mb K s' /\ grows s s' /\ p + size <= l_sbrk s' /\
      (forall b, p <= b < p + size -> exists e : N * frame, e ∈ l_big s' /\ e.1 <= b < e.1 + f_size e.2 /\ f_aff e.2 = aff) /\
      (big_pages size).2 <= 128
  | (Ok None, s') => sinv num mb K s' /\ grows s s'
  | (_, _) => True
  end.
Proof.
  induction t as [|t IH]; intros ch s Hmb Hi Ho Ha; cbn [alloc_big]; [split; [done|apply grows_refl]|].
  pose proof (try_big_spec num mb K core aff size nt ch s Hmb Hi Ho Ha) as Ht.
  destruct (try_big mb core aff size nt ch s) as [[[p|e|] ch1] s1]; [| |done].
  { destruct Ht as (-> & T1 & T2 & T3 & T4 & T5). split; [lia|]. split; [apply (si_big _ _ _ _ Hi)|]. done. }
  destruct Ht as [T1 T2].
  pose proof (refill_tcache_spec (size_to_pages size).1 (size_to_pages size).2 s1 (si_pair _ _ _ _ T1)) as Hr.
  destruct (refill_tcache _ _ s1) as [r s2].
  destruct Hr as (R1 & R2 & R3 & R4 & _). destruct (sinv_refill num mb K s1 s2 T1 R2 R3 R4) as [Hi2 Hg2].
  assert (Hg : grows s s2) by (by eapply grows_trans).
  destruct r as [[]|e2|]; [|done|done].
  specialize (IH ch1 s2 Hmb Hi2 Ho ltac:(rewrite (gr_node _ _ Hg); done)).
  destruct (alloc_big t mb core aff size nt ch1 s2) as [[[p|]|e3|] s3]; try done.
  - destruct IH as (I1 & I2 & I3 & I4 & I5 & I6 & I7). pose proof (gr_sbrk _ _ Hg). split; [lia|]. split; [done|]. split; [done|].
    split; [by eapply grows_trans|]. done.
  - destruct IH as [I1 I2]. split; [done|by eapply grows_trans].
Qed.

(** Freeing a slot. *)
Lemma zone_free_spec num mb K s p x : sinv num mb K s -> once num K -> p ∈ l_zone s -> x ∈ zp_used p ->
  exists zs, zone_free mb (zp_class p) x (l_zone s) = Ok zs /\
    sinv num mb K (mkLs (l_pm s) (l_nc s) zs (l_sbrk s) (l_big s)) /\
    (forall q y, q ∈ l_zone s -> y ∈ zp_used q -> y <> x ->
      exists q', q' ∈ zs /\ zp_base q' = zp_base q /\ zp_class q' = zp_class q /\ zp_aff q' = zp_aff q /\ y ∈ zp_used q') /\
    (forall q, q ∈ zs -> x ∉ zp_used q).
Proof.
  intros Hi Ho Hp Hx.
  assert (Hz : forall q, q ∈ l_zone s -> zp_ok mb q) by (apply stdpp.list.Forall_forall, (si_zone _ _ _ _ Hi)).
  destruct (Hz p Hp) as (P1 & P2 & P3). destruct (slot_spec mb p x P2 (P3 x Hx)) as (k & Ek & Hle).
  set (ps := zpsize mb (zp_class p)) in *.
  assert (Hps : 0 < ps) by (destruct (zpsize_cases mb (zp_class p)); unfold ps; lia).
  assert (Hb : x / ps * ps = zp_base p).
  { apply N.mod_divide in P1; [|lia]. destruct P1 as [m P1]. rewrite P1.
    assert (x / ps = m) as ->; [|done]. symmetry. apply (N.div_unique x ps m (x - m * ps)); lia. }
  unfold zone_free. fold ps. rewrite Hb.
  assert (Hcov0 : forall q, q ∈ l_zone s -> covers (zframe mb q) (zp_base q)).
  { intros q Hq. unfold covers, zframe. cbn [f_base f_size]. destruct (zpsize_cases mb (zp_class q)); lia. }
  destruct (list_find (fun q => zp_base q = zp_base p) (l_zone s)) as [[i q]|] eqn:Ef.
  2:{ exfalso. apply list_find_None in Ef. by eapply (proj1 (stdpp.list.Forall_forall _ _) Ef p Hp). }
  apply list_find_Some in Ef as (Hi1 & Hqb & _).
  pose proof (elem_of_list_lookup_2 _ _ _ Hi1) as Hq.
  assert (q = p) as ->.
  { eapply (zone_unique num mb K s q p (zp_base p) Hi Ho Hq Hp); [rewrite <- Hqb; by apply Hcov0|by apply Hcov0]. }
  assert (Hxb : x - zp_base p = k * zp_class p) by lia.
  rewrite Hxb. rewrite decide_True by (split; [done|apply N.mod_mul; lia]).
  rewrite N.div_mul by lia. rewrite <- Ek. rewrite decide_True by done.
  set (p' := mkZp (zp_core p) (zp_aff p) (zp_class p) (zp_base p) (filter (fun y => y <> x) (zp_used p))).
  eexists. split; [reflexivity|].
  assert (Hlt : (i < length (l_zone s))%nat) by (by eapply lookup_lt_Some).
  split.
  { destruct Hi as [H1 H2 H3 H4]. constructor; [done| | |done].
    - cbn [l_zone]. apply Forall_insert; [done|]. split; [done|]. split; [done|].
      intros y Hy. cbn [zp_used p'] in Hy. apply elem_of_list_filter in Hy as [_ Hy]. by apply P3.
    - intros P a HP. rewrite <- (H3 P a HP). unfold lall. cbn [l_pm l_nc l_zone l_big]. unfold p'. by rewrite map_zframe_insert. }
  split.
  { intros q y Hq2 Hy Hne. apply elem_of_list_lookup in Hq2 as [j Hj]. destruct (decide (j = i)) as [->|Hji].
    - rewrite Hi1 in Hj. injection Hj as <-. exists p'. split; [apply elem_of_list_lookup; exists i; by apply list_lookup_insert|].
      split; [done|]. split; [done|]. split; [done|]. cbn [zp_used p']. by apply elem_of_list_filter.
    - exists q. split; [apply elem_of_list_lookup; exists j; by rewrite list_lookup_insert_ne|]. done. }
  intros q Hq2 Hxq. apply elem_of_list_lookup in Hq2 as [j Hj]. destruct (decide (j = i)) as [->|Hji].
  - rewrite list_lookup_insert in Hj by done. injection Hj as <-. cbn [zp_used p'] in Hxq. by apply elem_of_list_filter in Hxq as [? _].
  - rewrite list_lookup_insert_ne in Hj by done.
    (* two pages at different positions both cover x *)
    assert (Hc : (cov (map (zframe mb) (l_zone s)) x <= 1)%nat).
    { specialize (Ho x). rewrite <- (si_cov _ _ _ _ Hi _ x (lab_all num)) in Ho. rewrite covP_all in Ho.
      unfold lall in Ho. rewrite !cov_app in Ho. lia. }
    pose proof (elem_of_list_lookup_2 _ _ _ Hj) as Hqin.
    assert (C1 : covers (zframe mb p) x) by (replace x with (x + 0) by lia; apply slot_covers; [by apply Hz|done|lia]).
    assert (C2 : covers (zframe mb q) x).
    { destruct (Hz q Hqin) as (_ & ? & _). replace x with (x + 0) by lia; apply slot_covers; [by apply Hz|done|lia]. }
    assert (L1 : map (zframe mb) (l_zone s) !! i = Some (zframe mb p)) by (change (map ?f ?l) with (f <$> l); by rewrite list_lookup_fmap, Hi1).
    assert (L2 : map (zframe mb) (l_zone s) !! j = Some (zframe mb q)) by (change (map ?f ?l) with (f <$> l); by rewrite list_lookup_fmap, Hj).
    pose proof (cov_lookup _ i _ x L1 C1) as E.
    assert (cov (delete i (map (zframe mb) (l_zone s))) x = 0%nat) as Hz0 by lia.
    assert (zframe mb q ∈ delete i (map (zframe mb) (l_zone s))) as Hin.
    { apply elem_of_list_lookup. destruct (decide (j < i)%nat).
      - exists j. by rewrite lookup_delete_lt.
      - exists (j - 1)%nat. rewrite lookup_delete_ge by lia. by replace (S (j - 1)) with j by lia. }
    by apply (proj1 (cov_zero_elem _ _) Hz0 _ Hin).
Qed.
