(** Lemmas about loading the kernel image. *)
From Verif Require Import Base VsModel VsProofs ElfModel BlvModel BlvSpec BlvProofs BlvProps BliModel BliSpec.
Local Arguments bl_map : simpl never.
Local Arguments N.pow : simpl never.

Lemma pow2_ok e : is_pow2 (2 ^ e) = true.
Proof.
  unfold is_pow2. rewrite N.log2_pow2 by lia. rewrite N.eqb_refl, andb_true_r. apply N.ltb_lt.
  apply N.neq_0_lt_0. by apply N.pow_nonzero.
Qed.
Lemma align_down x e : N.ldiff x (2 ^ e - 1) = (x / 2 ^ e * 2 ^ e)%N.
Proof.
  assert (2 ^ e - 1 = N.ones e)%N as -> by (rewrite N.ones_equiv, N.pred_sub; done).
  by rewrite N.ldiff_ones_r, N.shiftl_mul_pow2, N.shiftr_div_pow2.
Qed.
Lemma mod_dvd x d : (0 < d)%N -> (x mod d = 0 <-> exists q, x = q * d)%N.
Proof.
  intros D. split.
  - intros E. exists (x / d)%N. pose proof (N.div_mod x d ltac:(lia)). lia.
  - intros [q ->]. apply N.mod_mul. lia.
Qed.
Lemma pow2_page e : (4096 <= 2 ^ e)%N -> exists q, (2 ^ e = q * 4096)%N.
Proof.
  intros H. change 4096%N with (2 ^ 12)%N in H. apply N.pow_le_mono_r_iff in H; [|lia].
  exists (2 ^ (e - 12))%N. change 4096%N with (2 ^ 12)%N. rewrite <- N.pow_add_r. f_equal. lia.
Qed.

Definition inside (b n b' n' : N) : Prop := (b' <= b)%N /\ (b + n <= b' + n')%N.
Lemma alloc_aligned_ok hm e paddr : (4096 <= 2 ^ e)%N -> (paddr mod 4096 = 0)%N ->
  exists ab fr, alloc_aligned hm (2 ^ e) paddr = Ok (Ck ab fr) /\
    (ab mod 2 ^ e = 0)%N /\ (ab mod 4096 = 0)%N /\ (paddr <= ab)%N /\ (ab < paddr + 2 ^ e)%N /\
    (ab + hm * 4096 <= paddr + alloc_pages hm (2 ^ e) * 4096)%N /\
    (forall b n, (b, n) ∈ fr -> (inside b (n * 4096) paddr (ab - paddr) \/
       inside b (n * 4096) (ab + hm * 4096) (paddr + alloc_pages hm (2 ^ e) * 4096 - (ab + hm * 4096)))%N).
Proof.
  intros He Hp. destruct (pow2_page e He) as [q Hq]. apply (proj1 (mod_dvd _ 4096 ltac:(lia))) in Hp as [p Hp].
  set (P := (2 ^ e)%N) in *.
  assert (Pp : (0 < P)%N) by lia.
  assert (Q0 : (0 < q)%N) by lia.
  set (ab := ((paddr + (P - 1)) / P * P)%N).
  pose proof (N.div_mod (paddr + (P - 1)) P ltac:(lia)) as D.
  pose proof (N.mod_lt (paddr + (P - 1)) P ltac:(lia)) as L.
  assert (E : ab = ((paddr + (P - 1)) / P * P)%N) by done. clearbody ab.
  rewrite (N.mul_comm P), <- E in D.
  assert (exists z, ab = z * 4096)%N as [z Hz]. { exists ((paddr + (P - 1)) / P * q)%N. rewrite E. rewrite Hq at 3. lia. }
  assert (Am : (ab mod P = 0)%N) by (apply mod_dvd; [lia|]; eauto).
  assert ((paddr <= ab)%N /\ (ab < paddr + P)%N) as [B1 B2].
  { revert D L. generalize ((paddr + (P - 1)) mod P)%N. clear - Pp. clearbody P. intros. lia. }
  assert (Ep : N.ldiff (paddr + (P - 1)) (P - 1) = ab) by (unfold P at 2; rewrite align_down; by rewrite E).
  assert (PP : is_pow2 P = true) by apply pow2_ok.
  clearbody P. clear D L E.
  assert (An : alloc_pages hm P = (hm + q)%N). { unfold alloc_pages. rewrite Hq at 1. by rewrite N.div_mul. }
  unfold alloc_aligned. rewrite PP. cbn [negb].
  destruct (N.ltb_spec P 4096); [lia|].
  cbv zeta. rewrite Ep, Am, An. cbn [negb N.eqb].
  assert (z <= p + q)%N by lia. assert (p <= z)%N by lia.
  destruct (N.ltb_spec (paddr + (hm + q) * 4096) (ab + hm * 4096)); [lia|].
  assert ((ab - paddr) / 4096 = z - p)%N as ->.
  { replace (ab - paddr)%N with ((z - p) * 4096)%N by lia. by apply N.div_mul. }
  assert ((paddr + (hm + q) * 4096 - (ab + hm * 4096)) / 4096 = p + q - z)%N as ->.
  { replace (paddr + (hm + q) * 4096 - (ab + hm * 4096))%N with ((p + q - z) * 4096)%N by lia. by apply N.div_mul. }
  destruct (N.eqb_spec (z - p + (p + q - z)) (hm + q - hm)); [|lia]. cbn [negb].
  eexists _, _. split; [done|]. split; [done|]. split; [apply mod_dvd; [lia|]; by exists z|].
  split; [done|]. split; [done|]. split; [lia|].
  intros b n. rewrite elem_of_app. unfold inside. intros [I|I].
  - destruct (N.ltb_spec 1 (z - p)); [|by apply elem_of_nil in I]. apply elem_of_list_singleton in I. injection I as -> ->. left. lia.
  - destruct (N.ltb_spec 1 (p + q - z)); [|by apply elem_of_nil in I]. apply elem_of_list_singleton in I. injection I as -> ->. right. lia.
Qed.

(** ** The scan *)
Definition kend (h : bhdr) : N := (k_base h + k_size h)%N.
Lemma scan_gen hs : forall s, let s' := foldl k_scan1 s hs in
  (ks_min s' <= ks_min s)%N /\ (ks_max s <= ks_max s')%N /\ (ks_align s <= ks_align s')%N /\
  (forall h, h ∈ hs -> ks_min s' <= k_base h /\ kend h <= ks_max s' /\ bh_align h <= ks_align s')%N /\
  (ks_min s' = ks_min s \/ exists h, h ∈ hs /\ ks_min s' = k_base h) /\
  (ks_max s' = ks_max s \/ exists h, h ∈ hs /\ ks_max s' = kend h) /\
  (ks_align s' = ks_align s \/ exists h, h ∈ hs /\ ks_align s' = bh_align h).
Proof.
  induction hs as [|h hs IH]; intros s; cbn [foldl].
  { split; [lia|]. split; [lia|]. split; [lia|]. split; [intros h H; by apply elem_of_nil in H|]. split; [by left|]. split; by left. }
  destruct (IH (k_scan1 s h)) as (I1 & I2 & I3 & I4 & I5 & I6 & I7). cbv zeta.
  set (s' := foldl k_scan1 (k_scan1 s h) hs) in *. clearbody s'. fold (kend h) in *.
  assert (J1 : ks_min (k_scan1 s h) = N.min (k_base h) (ks_min s)) by (cbn; destruct (N.ltb_spec (k_base h) (ks_min s)); lia).
  assert (J2 : ks_max (k_scan1 s h) = N.max (kend h) (ks_max s)) by (cbn; fold (kend h); destruct (N.ltb_spec (ks_max s) (kend h)); lia).
  assert (J3 : ks_align (k_scan1 s h) = N.max (bh_align h) (ks_align s)) by (cbn; destruct (N.ltb_spec (ks_align s) (bh_align h)); lia).
  rewrite J1, J2, J3 in *.
  split; [lia|]. split; [lia|]. split; [lia|]. split.
  { intros g G. apply elem_of_cons in G as [->|G]; [|by apply I4]. lia. }
  split; [|split].
  - destruct I5 as [E|(g & G & E)]; [|right; exists g; split; [by right|done]].
    destruct (N.le_gt_cases (ks_min s) (k_base h)); [left; lia|right; exists h; split; [by left|lia]].
  - destruct I6 as [E|(g & G & E)]; [|right; exists g; split; [by right|done]].
    destruct (N.le_gt_cases (kend h) (ks_max s)); [left; lia|right; exists h; split; [by left|lia]].
  - destruct I7 as [E|(g & G & E)]; [|right; exists g; split; [by right|done]].
    destruct (N.le_gt_cases (bh_align h) (ks_align s)); [left; lia|right; exists h; split; [by left|lia]].
Qed.

(** Division by the page size as two variables. *)
Ltac dm x :=
  pose proof (N.div_mod x 4096 ltac:(lia)); pose proof (N.mod_lt x 4096 ltac:(lia));
  let q := fresh "q" in let r := fresh "r" in
  set (q := (x / 4096)%N) in *; set (r := (x mod 4096)%N) in *; clearbody q r.

(** ** Pages of a header *)
Lemma base_div h : k_base h = (ph_va (bh_ph h) / 4096 * 4096)%N.
Proof.
  unfold k_base. set (v := ph_va (bh_ph h)). pose proof (N.div_mod v 4096 ltac:(lia)) as D.
  set (r := (v mod 4096)%N) in *. set (q := (v / 4096)%N) in *. clearbody r q v. lia.
Qed.
Lemma size_dvd h : exists q, k_size h = (q * 4096)%N. Proof. by eexists. Qed.
Lemma kend_eq h : (0 < ph_memsz (bh_ph h))%N ->
  kend h = (((ph_va (bh_ph h) + ph_memsz (bh_ph h) - 1) / 4096 + 1) * 4096)%N.
Proof.
  intros M. unfold kend, k_size. rewrite base_div.
  set (v := ph_va (bh_ph h)) in *. set (n := ph_memsz (bh_ph h)) in *. clearbody v n.
  pose proof (N.div_mod v 4096 ltac:(lia)) as D. pose proof (N.mod_lt v 4096 ltac:(lia)) as L.
  set (q := (v / 4096)%N) in *. set (r := (v mod 4096)%N) in *. clearbody q r.
  pose proof (N.div_mod (n + r + 4096 - 1) 4096 ltac:(lia)) as D1. pose proof (N.mod_lt (n + r + 4096 - 1) 4096 ltac:(lia)) as L1.
  pose proof (N.div_mod (v + n - 1) 4096 ltac:(lia)) as D2. pose proof (N.mod_lt (v + n - 1) 4096 ltac:(lia)) as L2.
  set (x := ((n + r + 4096 - 1) / 4096)%N) in *. set (y := ((v + n - 1) / 4096)%N) in *.
  set (l1 := ((n + r + 4096 - 1) mod 4096)%N) in *. set (l2 := ((v + n - 1) mod 4096)%N) in *.
  clearbody x y l1 l2. subst v. lia.
Qed.
Lemma in_pages h a : (0 < ph_memsz (bh_ph h))%N -> (k_base h <= a)%N -> (a < kend h)%N -> touches h (a / 4096).
Proof.
  intros M A B. rewrite base_div in A. rewrite kend_eq in B by done. unfold touches, seg_at, in_range.
  set (v := ph_va (bh_ph h)) in *. set (n := ph_memsz (bh_ph h)) in *. clearbody v n.
  destruct (N.le_gt_cases v a) as [V|V].
  - destruct (N.lt_ge_cases a (v + n)) as [W|W]; [exists a; split; [lia|done]|].
    exists (v + n - 1)%N. split; [lia|].
    dm (v + n - 1)%N. dm v. dm a. lia.
  - exists v. split; [lia|].
    dm (v + n - 1)%N. dm v. dm a. lia.
Qed.
Lemma touch_pages h k : touches h k -> (k_base h <= k * 4096)%N /\ (k * 4096 + 4096 <= kend h)%N.
Proof.
  intros (a & [A B] & <-). rewrite base_div. rewrite kend_eq by lia.
  pose proof (N.div_le_mono (ph_va (bh_ph h)) a 4096 ltac:(lia) A).
  pose proof (N.div_le_mono a (ph_va (bh_ph h) + ph_memsz (bh_ph h) - 1) 4096 ltac:(lia) ltac:(lia)). lia.
Qed.
Lemma seg_pages h a : seg_at h a -> (k_base h <= a)%N /\ (a < kend h)%N.
Proof.
  intros S. destruct (touch_pages h (a / 4096)) as [A B]; [by exists a|].
  dm a. lia.
Qed.

(** ** The mappings *)
Definition hdr_ok (h : bhdr) : Prop :=
  ph_r (bh_ph h) = true /\ (0 < ph_memsz (bh_ph h))%N /\
  (N.of_nat (length (ph_bytes (bh_ph h))) <= ph_memsz (bh_ph h))%N /\
  (ph_va (bh_ph h) + ph_memsz (bh_ph h) <= 2 ^ 44)%N.
Definition apart (hs : list bhdr) : Prop :=
  forall i j h g k, hs !! i = Some h -> hs !! j = Some g -> touches h k -> touches g k -> i = j.
Lemma apart_cons h hs : apart (h :: hs) -> apart hs /\ (forall g k, g ∈ hs -> touches h k -> touches g k -> False).
Proof.
  intros A. split.
  - intros i j x y k X Y T U. by injection (A (S i) (S j) x y k X Y T U).
  - intros g k G T U. apply elem_of_list_lookup in G as [j G]. by pose proof (A 0 (S j) h g k eq_refl G T U).
Qed.
Lemma kend_bound h : hdr_ok h -> (kend h <= 2 ^ 44 + 4096)%N.
Proof.
  intros (_ & M & _ & B). rewrite kend_eq by done.
  set (v := (ph_va (bh_ph h) + ph_memsz (bh_ph h) - 1)%N) in *.
  assert (V : (v < 2 ^ 44)%N) by (unfold v; lia). clearbody v. dm v. lia.
Qed.
Lemma k_action_some aw h : ph_r h = true -> k_action aw h <> BNone.
Proof. unfold k_action. intros ->. by destruct aw, (ph_x h), (ph_w h). Qed.

Lemma rfold_cons {A B} (f : A -> B -> res A) a x l : rfold f a (x :: l) = match f a x with Ok a' => rfold f a' l | e => e end.
Proof. reflexivity. Qed.

Definition same_at (t t' : gmap N (gmap N pdpte)) (va : N) : Prop :=
  bl_resolve t' va = bl_resolve t va /\ forall u w x, access t' va u w x = access t va u w x.
Lemma k_maps aw off pbase : (off mod 4096 = 0)%N -> (pbase mod 4096 = 0)%N -> (off + 2 ^ 45 <= 2 ^ 48)%N ->
  forall hs t, Forall hdr_ok hs -> apart hs ->
  (forall h, h ∈ hs -> free_range t (off + k_base h) (k_size h)) ->
  exists t', rfold (k_map1 aw off pbase) t hs = Ok t' /\
    (forall h a, h ∈ hs -> (k_base h <= a)%N -> (a < kend h)%N -> bl_resolve t' (off + a) = Some (pbase + a)%N /\
       forall w x, access t' (off + a) false w x = if asks_kernel (k_action aw (bh_ph h)) w x then Some (pbase + a)%N else None) /\
    (forall va, (va < 2 ^ 48)%N -> (forall h, h ∈ hs -> ~ in_range (off + k_base h) (k_size h) va) -> same_at t t' va).
Proof.
  intros Ho Hp Hb. induction hs as [|h hs IH]; intros t F A Fr.
  { exists t. split; [done|]. split; [intros h a H; by apply elem_of_nil in H|]. done. }
  apply stdpp.list.Forall_cons in F as [Fh F]. apply apart_cons in A as [A Ah].
  pose proof (kend_bound h Fh) as Kb. destruct Fh as (R & M & L & B).
  assert (Kp : (0 < k_size h)%N).
  { pose proof (kend_eq h M) as K. unfold kend in K. rewrite base_div in K.
    set (v := ph_va (bh_ph h)) in *. set (n := ph_memsz (bh_ph h)) in *. clearbody v n.
    set (s := k_size h) in *. clearbody s. dm v. dm (v + n - 1)%N. lia. }
  assert (Ks : (off + k_base h + k_size h <= 2 ^ 48)%N) by (unfold kend in Kb; lia).
  assert (Al : (k_base h mod 4096 = 0)%N) by (apply mod_dvd; [lia|]; rewrite base_div; eauto).
  rewrite rfold_cons. unfold k_map1 at 1.
  destruct (C58_free t (off + k_base h) (pbase + k_base h) (k_size h) (k_action aw (bh_ph h))) as [t1 E1].
  { by apply mod_add_zero. } { by apply mod_add_zero. }
  { apply mod_dvd; [lia|]. apply size_dvd. } { by apply k_action_some. } { done. } { done. } { apply Fr. by left. }
  rewrite E1. pose proof (bl_maps _ _ _ _ _ _ Ks E1) as V.
  assert (Dj : forall g va, g ∈ hs -> in_range (off + k_base h) (k_size h) va -> ~ in_range (off + k_base g) (k_size g) va).
  { intros g va G [V1 V2] [W1 W2]. assert (hdr_ok g) as Hg by (by eapply stdpp.list.Forall_forall in F).
    destruct Hg as (_ & Mg & _).
    apply (Ah g ((va - off) / 4096)%N G); apply in_pages; unfold kend; try done; lia. }
  destruct (IH t1 F A) as (t' & E' & I1 & I2).
  { intros g G va Rg. assert (hdr_ok g) as Hg by (by eapply stdpp.list.Forall_forall in F).
    pose proof (kend_bound g Hg) as Kg. unfold kend in Kg.
    destruct (V va) as [_ V2]; [destruct Rg; lia|].
    rewrite (proj1 (V2 (fun Rh => Dj g va G Rh Rg))). apply Fr in Rg; [done|by right]. }
  exists t'. split; [done|]. split.
  - intros g a G Ga Gb. apply elem_of_cons in G as [->|G]; [|by apply I1].
    assert (in_range (off + k_base h) (k_size h) (off + a)) as Ra by (unfold in_range; unfold kend in Gb; lia).
    destruct (I2 (off + a)%N) as [S1 S2]; [lia|intros g' G'; by apply Dj|].
    destruct (V (off + a)%N) as [V1 _]; [lia|]. destruct (V1 Ra) as [V3 V4].
    replace (pbase + k_base h + (off + a - (off + k_base h)))%N with (pbase + a)%N in * by lia.
    split; [by rewrite S1|]. intros w x. by rewrite S2.
  - intros va Hva Hn. destruct (I2 va Hva) as [S1 S2]; [intros g G; apply Hn; by right|].
    destruct (V va Hva) as [_ V2]. destruct V2 as [V3 V4]; [apply Hn; by left|].
    split; [by rewrite S1|]. intros u w x. by rewrite S2.
Qed.

(** ** The contents *)
Lemma k_copy_ok t off pbase bs : forall dst m,
  (forall a, (dst <= a)%N -> (a < dst + N.of_nat (length bs))%N -> bl_resolve t (off + a) = Some (pbase + a)%N) ->
  exists m', k_copy t m (off + dst) bs = Ok m' /\ forall x, m' x = poke m (pbase + dst) bs x.
Proof.
  induction bs as [|v bs IH]; intros dst m H; cbn [k_copy].
  { exists m. split; [done|]. intros x. unfold poke. cbn [length]. rewrite rng_false by lia. done. }
  cbn [length] in H. rewrite (H dst) by lia.
  replace (off + dst + 1)%N with (off + (dst + 1))%N by lia.
  destruct (IH (dst + 1)%N (poke m (pbase + dst) [v])) as (m' & E & P); [intros a A1 A2; apply H; lia|].
  exists m'. split; [done|]. intros x. rewrite P. unfold poke. cbn [length].
  destruct (N.leb_spec (pbase + (dst + 1)) x), (N.ltb_spec x (pbase + (dst + 1) + N.of_nat (length bs))),
    (N.leb_spec (pbase + dst) x), (N.ltb_spec x (pbase + dst + N.of_nat 1)), (N.ltb_spec x (pbase + dst + N.of_nat (S (length bs))));
    cbn [andb]; try lia; try done.
  - replace (N.to_nat (x - (pbase + dst))) with (S (N.to_nat (x - (pbase + (dst + 1))))) by lia. done.
  - replace (N.to_nat (x - (pbase + dst))) with 0 by lia. done.
Qed.

Definition resolves (t : gmap N (gmap N pdpte)) (off pbase : N) (hs : list bhdr) : Prop :=
  forall h a, h ∈ hs -> seg_at h a -> bl_resolve t (off + a) = Some (pbase + a)%N.
Definition file_in (h : bhdr) (x pbase : N) : Prop := exists a, file_at h a = true /\ x = (pbase + a)%N.
Lemma file_seg h a : hdr_ok h -> file_at h a = true -> seg_at h a.
Proof.
  intros (_ & _ & L & _) H. unfold file_at in H. apply andb_true_iff in H as [H1 H2].
  apply N.leb_le in H1. apply N.ltb_lt in H2. unfold seg_at, in_range. lia.
Qed.
Lemma k_loads t off pbase hs : forall m, Forall hdr_ok hs -> apart hs -> resolves t off pbase hs ->
  exists m', rfold (k_load t off) m hs = Ok m' /\
    (forall h a, h ∈ hs -> seg_at h a -> m' (pbase + a)%N =
       if file_at h a then nth (N.to_nat (a - ph_va (bh_ph h))) (ph_bytes (bh_ph h)) 0%N else m (pbase + a)%N) /\
    (forall x, (forall h a, h ∈ hs -> seg_at h a -> x <> (pbase + a)%N) -> m' x = m x).
Proof.
  induction hs as [|h hs IH]; intros m F A R.
  { exists m. split; [done|]. split; [intros h a H; by apply elem_of_nil in H|done]. }
  apply stdpp.list.Forall_cons in F as [Fh F]. apply apart_cons in A as [A Ah].
  rewrite rfold_cons. unfold k_load at 1.
  destruct (k_copy_ok t off pbase (ph_bytes (bh_ph h)) (ph_va (bh_ph h)) m) as (m1 & E1 & P1).
  { intros a A1 A2. apply (R h); [by left|]. unfold seg_at, in_range. destruct Fh as (_ & _ & L & _). lia. }
  rewrite E1. destruct (IH m1 F A) as (m' & E' & I1 & I2); [intros g a G; apply R; by right|].
  exists m'. split; [done|].
  assert (P2 : forall a, m1 (pbase + a)%N = if file_at h a then nth (N.to_nat (a - ph_va (bh_ph h))) (ph_bytes (bh_ph h)) 0%N else m (pbase + a)%N).
  { intros a. rewrite P1. unfold poke, file_at.
    destruct (N.leb_spec (pbase + ph_va (bh_ph h)) (pbase + a)), (N.leb_spec (ph_va (bh_ph h)) a); try lia; cbn [andb]; try done.
    destruct (N.ltb_spec (pbase + a) (pbase + ph_va (bh_ph h) + N.of_nat (length (ph_bytes (bh_ph h))))),
      (N.ltb_spec a (ph_va (bh_ph h) + N.of_nat (length (ph_bytes (bh_ph h))))); try lia; try done.
    do 2 f_equal. lia. }
  split.
  - intros g a G S. apply elem_of_cons in G as [->|G].
    + rewrite I2; [apply P2|]. intros g b G Sb E. assert (b = a) as -> by lia.
      apply (Ah g (a / 4096)%N G); by exists a.
    + rewrite (I1 g a G S). destruct (file_at g a); [done|]. rewrite P2.
      destruct (file_at h a) eqn:Ef; [|done]. apply file_seg in Ef; [|done].
      destruct (Ah g (a / 4096)%N G); by exists a.
  - intros x X. rewrite I2 by (intros g a G; apply X; by right). rewrite P1. unfold poke.
    match goal with |- context [if ?c then _ else _] => destruct c eqn:Ec end; [|done]. exfalso.
    apply andb_true_iff in Ec as [C1 C2]. apply N.leb_le in C1. apply N.ltb_lt in C2.
    apply (X h (x - pbase)%N); [by left| |lia]. destruct Fh as (_ & _ & L & _). unfold seg_at, in_range. lia.
Qed.

(** ** The relocations *)
Lemma last_reloc_cons r rs a : last_reloc (r :: rs) a =
  match last_reloc rs a with Some r' => Some r' | None => if reloc_at r a then Some r else None end.
Proof.
  unfold last_reloc. cbn [rev]. generalize (rev rs). intros l. induction l as [|x l IH]; cbn [app List.find]; [done|].
  by destruct (reloc_at x a).
Qed.
Lemma last_reloc_in rs a r : last_reloc rs a = Some r -> r ∈ rs /\ reloc_at r a = true.
Proof.
  unfold last_reloc. intros H. apply find_some in H as [H1 H2]. split; [|done].
  apply elem_of_list_In. by apply in_rev in H1.
Qed.
Lemma nth_le8 v i : (i < 8) -> nth i (le8 v) 0%N = byte_of v (N.of_nat i).
Proof. intros H. unfold le8, byte_of. do 8 (destruct i as [|i]; [done|]). lia. Qed.
Lemma k_relocs dbg t off pbase hs : (off < 2 ^ 63)%N -> resolves t off pbase hs ->
  forall rs m, relocs_in hs rs ->
  exists m', rfold (k_relocate dbg t off) m rs = Ok m' /\
    (forall a, m' (pbase + a)%N = match last_reloc rs a with Some r => byte_of (off + rl_add r) (a - rl_off r) | None => m (pbase + a)%N end) /\
    (forall x, (x < pbase)%N -> m' x = m x).
Proof.
  intros Ho R. induction rs as [|r rs IH]; intros m F; [by exists m|].
  apply stdpp.list.Forall_cons in F as [(Fr & Fa & h & H & S & _) F].
  rewrite rfold_cons. unfold k_relocate at 1. rewrite (R h _ H S), Fr.
  unfold rel_word. destruct (N.leb_spec (2 ^ 64) (off + rl_add r)) as [L|L]; [lia|]. cbn [andb].
  rewrite N.mod_small by lia.
  destruct (IH (poke m (pbase + rl_off r) (le8 (off + rl_add r))) F) as (m' & E & I1 & I2).
  exists m'. split; [done|]. split.
  - intros a. rewrite I1, last_reloc_cons. destruct (last_reloc rs a); [done|].
    unfold poke, reloc_at. change (length (le8 (off + rl_add r))) with 8. change (N.of_nat 8) with 8%N.
    destruct (N.leb_spec (pbase + rl_off r) (pbase + a)), (N.leb_spec (rl_off r) a); try lia; cbn [andb]; try done.
    destruct (N.ltb_spec (pbase + a) (pbase + rl_off r + 8)), (N.ltb_spec a (rl_off r + 8)); try lia; try done.
    rewrite nth_le8 by lia. f_equal. lia.
  - intros x X. rewrite I2 by done. unfold poke. rewrite rng_false by lia. done.
Qed.
Lemma k_relocs_bad dbg t off rs : forall m m', rfold (k_relocate dbg t off) m rs = Ok m' -> Forall (fun r => rl_rel r = true) rs.
Proof.
  induction rs as [|r rs IH]; intros m m' H; [constructor|]. rewrite rfold_cons in H.
  destruct (k_relocate dbg t off m r) as [m1| |] eqn:E; [|done|done]. constructor; [|by eapply IH].
  unfold k_relocate in E. destruct (bl_resolve _ _); [|done]. by destruct (rl_rel r).
Qed.
