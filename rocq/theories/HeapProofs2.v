(** Proofs about the kernel heap, continued: blocks in use. *)
From Verif Require Import Base MemModel MemSpec MemProofs BootModel BootSpec BootProofs HeapModel HeapSpec HeapProofs.
Open Scope N_scope.

(** ** Blocks *)
Definition bok (s : ls) (b : blk) : Prop :=
  0 < b_size b /\ 0 < b_align b /\ 2097152 mod b_align b = 0 /\ b_ptr b mod b_align b = 0 /\
  (b_size b <= MAX_ZONE -> exists x p, b_ptr b = x + KBASE /\ p ∈ l_zone s /\ zp_class p = class_of (b_size b) /\
     zp_aff p = b_node b /\ x ∈ zp_used p) /\
  (MAX_ZONE < b_size b <= LARGE_PAGE -> exists x, b_ptr b = x + KBASE /\ x mod 2097152 = 0) /\
  (LARGE_PAGE < b_size b -> BIGBASE <= b_ptr b /\ b_ptr b + b_size b <= l_sbrk s /\
     forall va, b_ptr b <= va < b_ptr b + b_size b ->
       exists e : N * frame, e ∈ l_big s /\ e.1 <= va < e.1 + f_size e.2 /\ f_aff e.2 = b_node b).
(** The memory of a large block. *)
Definition lbf (b : blk) : list frame :=
  if decide (MAX_ZONE < b_size b <= LARGE_PAGE) then [lframe (b_node b) (b_ptr b - KBASE)] else [].
(** Two blocks. *)
Definition sep (b c : blk) : Prop :=
  (b_size b <= MAX_ZONE -> b_size c <= MAX_ZONE -> b_ptr b <> b_ptr c) /\
  (LARGE_PAGE < b_size b -> LARGE_PAGE < b_size c ->
     b_ptr b + b_size b <= b_ptr c \/ b_ptr c + b_size c <= b_ptr b).
Lemma sep_sym b c : sep b c -> sep c b.
Proof. intros [H1 H2]. split; [intros A B E; by apply H1|]. intros A B. destruct (H2 B A); auto. Qed.
Definition fresh (s : ls) (b : blk) : Prop :=
  (b_size b <= MAX_ZONE -> forall x q, b_ptr b = x + KBASE -> q ∈ l_zone s -> x ∉ zp_used q) /\
  (LARGE_PAGE < b_size b -> l_sbrk s <= b_ptr b).
Lemma fresh_sep s b c : fresh s b -> bok s c -> sep b c.
Proof.
  intros [F1 F2] (_ & _ & _ & _ & C1 & _ & C3). split.
  - intros Hb Hc E. destruct (C1 Hc) as (x & p & Ex & Hp & _ & _ & Hx). eapply (F1 Hb x p); [congruence|done|done].
  - intros Hb Hc. right. destruct (C3 Hc) as (_ & Hle & _). specialize (F2 Hb). lia.
Qed.
Lemma bok_grows s s' b : grows s s' -> bok s b -> bok s' b.
Proof.
  intros [G1 G2 G3 G4] (B1 & B2 & B3 & B4 & B5 & B6 & B7). split; [done|]. split; [done|]. split; [done|]. split; [done|].
  split; [|split; [done|]].
  - intros Hs. destruct (B5 Hs) as (x & p & E & Hp & Hc & Ha & Hx). destruct (G1 p x Hp Hx) as (p' & Q1 & Q2 & Q3 & Q4 & Q5).
    exists x, p'. split; [done|]. split; [done|]. split; [congruence|]. split; [congruence|done].
  - intros Hs. destruct (B7 Hs) as (Q1 & Q2 & Q3). split; [done|]. split; [lia|]. intros va Hva.
    destruct (Q3 va Hva) as (e & He & He2). exists e. split; [by apply G2|done].
Qed.

Definition lbfs (L : list blk) : list frame := concat (map lbf L).
Record linv (num : bool) (mb : N) (K : (N -> bool) -> N -> nat) (s : ls) (L : list blk) : Prop := {
  li_s : sinv num mb (fun P a => covP P (lall mb s) a) s;
  li_cov : forall P a, lab num P -> (covP P (lall mb s) a + covP P (lbfs L) a)%nat = K P a;
  li_b : Forall (bok s) L;
  li_sep : forall i j b c, i <> j -> L !! i = Some b -> L !! j = Some c -> sep b c }.

Lemma linv_once num mb K s L : linv num mb K s L -> once num K -> once num (fun P a => covP P (lall mb s) a).
Proof. intros H Ho a. specialize (Ho a). rewrite <- (li_cov _ _ _ _ _ H _ a (lab_all num)) in Ho. cbn beta. lia. Qed.
Lemma sinv_self num mb K s : sinv num mb K s -> sinv num mb (fun P a => covP P (lall mb s) a) s.
Proof. intros [H1 H2 H3 H4]. constructor; done. Qed.

Lemma lbfs_perm L1 L2 : L1 ≡ₚ L2 -> lbfs L1 ≡ₚ lbfs L2.
Proof. intros H. unfold lbfs. by rewrite H. Qed.
Lemma linv_perm num mb K s L1 L2 : L1 ≡ₚ L2 -> linv num mb K s L1 -> linv num mb K s L2.
Proof.
  intros Hp [H1 H2 H3 H4]. constructor; [done| | |].
  - intros P a HP. rewrite <- (H2 P a HP). f_equal. apply covP_perm, lbfs_perm. by symmetry.
  - by rewrite <- Hp.
  - symmetry in Hp. apply Permutation_inj in Hp as [_ (f & Hf & Hl)].
    intros i j b c Hij Hi Hj. eapply (H4 (f i) (f j)); [|by rewrite <- Hl|by rewrite <- Hl].
    intros E. apply Hij. by apply Hf.
Qed.

Lemma mod_add_r a b m : m <> 0 -> a mod m = 0 -> b mod m = 0 -> (a + b) mod m = 0.
Proof. intros Hm Ha Hb. rewrite N.add_mod, Ha, Hb by done. by rewrite N.mod_0_l. Qed.
Lemma mod_trans x a m : a <> 0 -> m <> 0 -> x mod a = 0 -> a mod m = 0 -> x mod m = 0.
Proof.
  intros Ha Hm H1 H2. apply N.mod_divide; [done|]. apply N.mod_divide in H1, H2; [|done|done].
  by eapply N.divide_trans.
Qed.
Lemma kbase_mod : KBASE mod 2097152 = 0.
Proof. vm_compute. reflexivity. Qed.

Lemma alloc_block num mb K core aff size align nt ch s : mb_ok mb -> sinv num mb K s -> once num K -> aff = mc_node (l_pm s) ->
  0 < size -> 0 < align -> 2097152 mod align = 0 ->
  match alloc mb core aff size align nt ch s with
  | (Ok (Some p), s') => let b := mkBlk p size align aff in
      grows s s' /\ bok s' b /\ fresh s b /\
      sinv num mb (fun P a => K P a - covP P (lbf b) a)%nat s' /\ (forall P a, lab num P -> (covP P (lbf b) a <= K P a)%nat)
  | (Ok None, s') => sinv num mb K s' /\ grows s s'
  | _ => True
  end.
Proof.
  intros Hmb Hi Ho Ha Hs Hal Hdiv. unfold alloc.
  assert (HLP : LARGE_PAGE = 2097152) by done. assert (HMZ : MAX_ZONE = 131072) by done.
  destruct (decide (size <= MAX_ZONE)) as [H1|H1]; [|destruct (decide (size <= LARGE_PAGE)) as [H2|H2]].
  - pose proof (alloc_zone_spec num mb K core aff size align 3 ch s Hmb Hi Ho Ha) as Hz.
    destruct (alloc_zone 3 mb core aff size align ch s) as [[r ch'] s']. destruct Hz as (Z1 & Z2 & Z3).
    destruct r as [[p|]|e|]; try done. destruct Z3 as (Z3 & x & q & Ex & Zf & Zq & Zc & Zn & Zx).
    cbn zeta. set (b := mkBlk p size align aff).
    assert (lbf b = []) as Hlb by (unfold lbf; rewrite decide_False; [done|cbn [b_size b]; lia]).
    split; [done|]. split.
    { split; [done|]. split; [done|]. split; [done|]. split; [done|]. split; [|split].
      - intros _. exists x, q. done.
      - cbn [b_size b]. lia. - cbn [b_size b]. lia. }
    split.
    { split; [|cbn [b_size b]; lia]. intros _ y q' Ey Hq'. cbn [b_ptr b] in Ey. assert (y = x) as -> by lia. by apply Zf. }
    rewrite Hlb. split; [|intros; unfold covP, fl; cbn; lia].
    destruct Z1 as [S1 S2 S3 S4]. constructor; [done|done| |done]. intros P a HP. rewrite (S3 P a HP). unfold covP, fl. cbn. lia.
  - pose proof (alloc_large_block num mb K 3 s Hi) as Hz. destruct (alloc_large 3 s) as [r s']. destruct Hz as [Z1 Z2].
    destruct r as [[p|]|e|]; try done. destruct Z2 as (f & Ep & Ef & Hf & Z3 & Z4).
    cbn zeta. set (b := mkBlk p size align aff).
    assert (lbf b = [f]) as Hlb.
    { unfold lbf. rewrite decide_True by (cbn [b_size b]; lia). cbn [b_node b_ptr b].
      replace (p - KBASE) with (f_base f) by lia. by rewrite Ha, <- Ef. }
    split; [done|]. split.
    { split; [done|]. split; [done|]. split; [done|]. split.
      - cbn [b_ptr b_align b]. rewrite Ep. apply (mod_trans _ 2097152); [lia|lia| |done].
        apply mod_add_r; [lia|done|apply kbase_mod].
      - split; [cbn [b_size b]; lia|]. split; [|cbn [b_size b]; lia]. intros _. exists (f_base f). done. }
    split; [split; cbn [b_size b]; lia|]. rewrite Hlb. done.
  - pose proof (alloc_big_spec num mb K core aff size nt 3 ch s Hmb Hi Ho Ha) as Hz.
    destruct (alloc_big 3 mb core aff size nt ch s) as [[[p|]|e|] s']; try done.
    destruct Hz as (Z1 & Z2 & Z3 & Z4 & Z5 & Z6 & Z7). cbn zeta. set (b := mkBlk p size align aff).
    assert (lbf b = []) as Hlb by (unfold lbf; rewrite decide_False; [done|cbn [b_size b]; lia]).
    destruct (si_big _ _ _ _ Hi) as (_ & _ & B3 & _).
    split; [done|]. split.
    { split; [done|]. split; [done|]. split; [done|]. split.
      - cbn [b_ptr b_align b]. apply (mod_trans _ 2097152); [lia|lia|done|done].
      - split; [cbn [b_size b]; lia|]. split; [cbn [b_size b]; lia|]. intros _. cbn [b_ptr b_size b_node b].
        split; [lia|]. split; [done|]. done. }
    split; [split; [cbn [b_size b]; lia|]; intros _; done|].
    rewrite Hlb. split; [|intros; unfold covP, fl; cbn; lia].
    destruct Z3 as [S1 S2 S3 S4]. constructor; [done|done| |done]. intros P a HP. rewrite (S3 P a HP). unfold covP, fl. cbn. lia.
Qed.

Lemma linv_alloc num mb K core aff size align nt ch s L : mb_ok mb -> linv num mb K s L -> once num K -> aff = mc_node (l_pm s) ->
  0 < size -> 0 < align -> 2097152 mod align = 0 ->
  match alloc mb core aff size align nt ch s with
  | (Ok (Some p), s') => linv num mb K s' (L ++ [mkBlk p size align aff]) /\ grows s s' /\ fresh s (mkBlk p size align aff)
  | (Ok None, s') => linv num mb K s' L /\ grows s s'
  | _ => True
  end.
Proof.
  intros Hmb Hl Ho Ha Hs Hal Hdiv. destruct Hl as [H1 H2 H3 H4] eqn:El.
  pose proof (alloc_block num mb _ core aff size align nt ch s Hmb H1 (linv_once _ _ _ _ _ Hl Ho) Ha Hs Hal Hdiv) as Hb.
  clear El Hl.
  destruct (alloc mb core aff size align nt ch s) as [[[p|]|e|] s']; try done.
  - cbn zeta in Hb. set (b := mkBlk p size align aff) in *. destruct Hb as (B1 & B2 & B3 & B4 & B5).
    split; [|done]. constructor.
    + by eapply sinv_self.
    + intros P a HP. unfold lbfs. rewrite map_app, concat_app. cbn [map concat]. rewrite app_nil_r, covP_app.
      fold (lbfs L). rewrite (si_cov _ _ _ _ B4 P a HP). rewrite <- (H2 P a HP). specialize (B5 P a HP). cbn beta in *. lia.
    + apply Forall_app. split; [|by constructor]. eapply Forall_impl; [exact H3|]. intros c Hc. cbn beta in *. by eapply bok_grows.
    + assert (Hf : forall c, c ∈ L -> sep b c).
      { intros c Hc. apply (fresh_sep s); [done|]. by apply (proj1 (stdpp.list.Forall_forall _ _) H3). }
      intros i j x y Hij Hi Hj. apply lookup_app_Some in Hi as [Hi|[Hi1 Hi]]; apply lookup_app_Some in Hj as [Hj|[Hj1 Hj]].
      * by eapply H4.
      * apply list_lookup_singleton_Some in Hj as [_ <-]. apply sep_sym, Hf. by eapply elem_of_list_lookup_2.
      * apply list_lookup_singleton_Some in Hi as [_ <-]. apply Hf. by eapply elem_of_list_lookup_2.
      * apply list_lookup_singleton_Some in Hi as [Hi _]. apply list_lookup_singleton_Some in Hj as [Hj _]. lia.
  - destruct Hb as [B1 B2]. split; [|done]. constructor.
    + by eapply sinv_self.
    + intros P a HP. rewrite (si_cov _ _ _ _ B1 P a HP). by apply H2.
    + eapply Forall_impl; [exact H3|]. intros c Hc. cbn beta in *. by eapply bok_grows.
    + done.
Qed.

(** ** Where the bytes of a block are *)
Definition ltrans (big : list (N * frame)) (va : N) : option N :=
  if decide (va < BIGBASE) then Some (va - KBASE)
  else match list_find (fun e : N * frame => e.1 <= va < e.1 + f_size e.2) big with
       | Some (_, (v, f)) => Some (f_base f + (va - v))
       | None => None
       end.
Definition at_ (s : ls) (b : blk) (off a : N) : Prop :=
  off < b_size b /\
  if decide (b_size b <= MAX_ZONE) then
    exists x p, b_ptr b = x + KBASE /\ p ∈ l_zone s /\ zp_class p = class_of (b_size b) /\ zp_aff p = b_node b /\ x ∈ zp_used p /\ a = x + off
  else if decide (b_size b <= LARGE_PAGE) then
    exists x, b_ptr b = x + KBASE /\ a = x + off
  else exists e : N * frame, e ∈ l_big s /\ e.1 <= b_ptr b + off < e.1 + f_size e.2 /\ f_aff e.2 = b_node b /\
    a = f_base e.2 + (b_ptr b + off - e.1) /\ BIGBASE <= b_ptr b.
Lemma at_exists s b off : bok s b -> off < b_size b -> exists a, at_ s b off a.
Proof.
  intros (B1 & B2 & B3 & B4 & B5 & B6 & B7) Ho. unfold at_.
  destruct (decide (b_size b <= MAX_ZONE)) as [C1|C1]; [|destruct (decide (b_size b <= LARGE_PAGE)) as [C2|C2]].
  - destruct (B5 C1) as (x & p & Ex & Hp & Hc & Ha & Hx). exists (x + off). split; [done|]. exists x, p. done.
  - destruct (B6 ltac:(lia)) as (x & Ex & Hx). exists (x + off). split; [done|]. exists x. done.
  - destruct (B7 ltac:(lia)) as (Q1 & Q2 & Q3). destruct (Q3 (b_ptr b + off) ltac:(lia)) as (e & E1 & E2 & E3).
    exists (f_base e.2 + (b_ptr b + off - e.1)). split; [done|]. exists e. done.
Qed.
(** What covers it. *)
Lemma at_cov_small mb b off p x : zp_ok mb p -> zp_class p = class_of (b_size b) -> x ∈ zp_used p -> off < b_size b -> covers (zframe mb p) (x + off).
Proof. intros Hp Hc Hx Ho. apply slot_covers; [done|done|]. rewrite Hc. pose proof (class_ge (b_size b)). lia. Qed.
Lemma at_cov_large b off x : MAX_ZONE < b_size b <= LARGE_PAGE -> b_ptr b = x + KBASE -> off < b_size b ->
  exists f, lbf b = [f] /\ covers f (x + off) /\ f_aff f = b_node b.
Proof.
  intros Hs Ex Ho. unfold lbf. rewrite decide_True by done. replace (b_ptr b - KBASE) with x by lia.
  eexists. split; [reflexivity|]. unfold covers, lframe. cbn [f_base f_size f_aff].
  assert (LARGE_PAGE = 2097152) by done. assert (MAX_ZONE = 131072) by done. split; [lia|done].
Qed.
Lemma cov_ge_elem l f a : f ∈ l -> covers f a -> (1 <= cov l a)%nat.
Proof. intros Hf Ha. apply elem_of_list_lookup in Hf as [i Hi]. rewrite (cov_lookup l i f a Hi Ha). lia. Qed.
Lemma cov_two l i j f g a : i <> j -> l !! i = Some f -> l !! j = Some g -> covers f a -> covers g a -> (2 <= cov l a)%nat.
Proof.
  intros Hij Hi Hj Hf Hg. rewrite (cov_lookup l i f a Hi Hf).
  assert (g ∈ delete i l) as Hin.
  { apply elem_of_list_lookup. destruct (decide (j < i)%nat).
    - exists j. by rewrite lookup_delete_lt.
    - exists (j - 1)%nat. rewrite lookup_delete_ge by lia. by replace (S (j - 1)) with j by lia. }
  pose proof (cov_ge_elem _ _ _ Hin Hg). lia.
Qed.
Lemma covP_ge_elem (P : N -> bool) l f a : f ∈ l -> covers f a -> P (f_aff f) = true -> (1 <= covP P l a)%nat.
Proof.
  intros Hf Ha HP. unfold covP. apply (cov_ge_elem _ f); [|done]. unfold fl. apply elem_of_list_filter. by rewrite HP.
Qed.
Lemma lbfs_elem L i b f : L !! i = Some b -> lbf b = [f] -> f ∈ lbfs L.
Proof.
  intros Hi Hf. rewrite (lbfs_perm L (b :: delete i L)); [|by apply delete_Permutation].
  unfold lbfs. cbn [map concat]. rewrite Hf. by left.
Qed.
Lemma lbfs_two L i j b c f g a : i <> j -> L !! i = Some b -> L !! j = Some c -> lbf b = [f] -> lbf c = [g] ->
  covers f a -> covers g a -> (2 <= cov (lbfs L) a)%nat.
Proof.
  intros Hij Hi Hj Hf Hg Ca Cb.
  assert (HP : lbfs L ≡ₚ lbf b ++ lbfs (delete i L)).
  { rewrite (lbfs_perm L (b :: delete i L)); [done|by apply delete_Permutation]. }
  assert (c ∈ delete i L) as Hin.
  { apply elem_of_list_lookup. destruct (decide (j < i)%nat).
    - exists j. by rewrite lookup_delete_lt.
    - exists (j - 1)%nat. rewrite lookup_delete_ge by lia. by replace (S (j - 1)) with j by lia. }
  apply elem_of_list_lookup in Hin as [k Hk]. rewrite (cov_perm _ _ a HP), cov_app, Hf.
  pose proof (cov_ge_elem _ _ _ (lbfs_elem _ _ _ _ Hk Hg) Cb).
  pose proof (cov_ge_elem [f] f a ltac:(by left) Ca). lia.
Qed.

Lemma linv_total num mb K s L a : linv num mb K s L ->
  (cov (frames (l_pm s)) a + cov (frames (l_nc s)) a + cov (map (zframe mb) (l_zone s)) a + cov (map snd (l_big s)) a +
   cov (lbfs L) a)%nat = K (fun _ => true) a.
Proof.
  intros H. rewrite <- (li_cov _ _ _ _ _ H _ a (lab_all num)). rewrite !covP_all. unfold lall. rewrite !cov_app. lia.
Qed.

(** Each byte of a block is in memory that is covered by exactly one of the parts. *)
Lemma at_part num mb K s L i b off a : linv num mb K s L -> once num K -> L !! i = Some b -> at_ s b off a ->
  (cov (frames (l_pm s)) a = 0 /\ cov (frames (l_nc s)) a = 0 /\ K (fun _ => true) a = 1)%nat /\
  (if decide (b_size b <= MAX_ZONE) then
    exists x p, b_ptr b = x + KBASE /\ p ∈ l_zone s /\ zp_class p = class_of (b_size b) /\ zp_aff p = b_node b /\ x ∈ zp_used p /\ a = x + off /\
      zp_ok mb p /\ covers (zframe mb p) a
   else if decide (b_size b <= LARGE_PAGE) then
    exists x f, b_ptr b = x + KBASE /\ a = x + off /\ lbf b = [f] /\ covers f a /\ f_aff f = b_node b
   else exists e : N * frame, e ∈ l_big s /\ e.1 <= b_ptr b + off < e.1 + f_size e.2 /\ f_aff e.2 = b_node b /\
    a = f_base e.2 + (b_ptr b + off - e.1) /\ covers e.2 a /\ BIGBASE <= b_ptr b).
Proof.
  intros Hl Ho Hib [Hoff Hat]. pose proof (linv_total _ _ _ _ _ a Hl) as Ht. specialize (Ho a).
  destruct (decide (b_size b <= MAX_ZONE)) as [C1|C1]; [|destruct (decide (b_size b <= LARGE_PAGE)) as [C2|C2]].
  - destruct Hat as (x & p & Ex & Hp & Hc & Ha & Hx & ->).
    assert (Hpok : zp_ok mb p) by (by apply (proj1 (stdpp.list.Forall_forall _ _) (si_zone _ _ _ _ (li_s _ _ _ _ _ Hl)))).
    pose proof (at_cov_small mb b off p x Hpok Hc Hx Hoff) as Hcv.
    pose proof (cov_ge_elem (map (zframe mb) (l_zone s)) (zframe mb p) (x + off) ltac:(apply elem_of_list_fmap; eauto) Hcv).
    split; [lia|]. exists x, p. done.
  - destruct Hat as (x & Ex & ->). destruct (at_cov_large b off x ltac:(lia) Ex Hoff) as (f & Hf & Hcv & Haf).
    pose proof (cov_ge_elem _ _ _ (lbfs_elem _ _ _ _ Hib Hf) Hcv). split; [lia|]. exists x, f. done.
  - destruct Hat as (e & He & Hr & Ha & Ea & Hge).
    assert (Hcv : covers e.2 a) by (unfold covers; lia).
    pose proof (cov_ge_elem (map snd (l_big s)) e.2 a ltac:(apply elem_of_list_fmap; eauto) Hcv).
    split; [lia|]. exists e. done.
Qed.

Lemma at_inj num mb K s L i j b c off off' a : linv num mb K s L -> once num K -> L !! i = Some b -> L !! j = Some c ->
  at_ s b off a -> at_ s c off' a -> i = j /\ off = off'.
Proof.
  intros Hl Ho Hib Hjc Hab Hac. pose proof (linv_total _ _ _ _ _ a Hl) as Ht. pose proof (Ho a) as Hoa.
  destruct (at_part _ _ _ _ _ _ _ _ _ Hl Ho Hib Hab) as [_ Pb]. destruct (at_part _ _ _ _ _ _ _ _ _ Hl Ho Hjc Hac) as [_ Pc].
  destruct Hab as [Hoff _]. destruct Hac as [Hoff' _].
  destruct (decide (b_size b <= MAX_ZONE)) as [B1|B1]; [|destruct (decide (b_size b <= LARGE_PAGE)) as [B2|B2]];
    (destruct (decide (b_size c <= MAX_ZONE)) as [D1|D1]; [|destruct (decide (b_size c <= LARGE_PAGE)) as [D2|D2]]).
  - destruct Pb as (x & p & Ex & Hp & Hc & Ha & Hx & Ea & Hok & Hcv). destruct Pc as (y & q & Ey & Hq & Hc' & Ha' & Hy & Ea' & Hok' & Hcv').
    assert (q = p) as -> by (eapply (zone_unique num mb _ s q p a (li_s _ _ _ _ _ Hl) (linv_once _ _ _ _ _ Hl Ho)); done).
    assert (Hxy : x = y).
    { destruct Hok as (K1 & K2 & K3). destruct (slot_spec mb p x K2 (K3 x Hx)) as (k & Ek & _). destruct (slot_spec mb p y K2 (K3 y Hy)) as (m & Em & _).
      pose proof (class_ge (b_size b)). pose proof (class_ge (b_size c)). rewrite <- Hc in *. rewrite <- Hc' in *.
      assert (k = m) as ->; [|lia].
      assert (E : k * zp_class p + off = m * zp_class p + off') by lia.
      destruct (N.lt_trichotomy k m) as [Hlt|[?|Hlt]]; [exfalso|done|exfalso].
      - assert ((k + 1) * zp_class p <= m * zp_class p) by (apply N.mul_le_mono_r; lia). lia.
      - assert ((m + 1) * zp_class p <= k * zp_class p) by (apply N.mul_le_mono_r; lia). lia. }
    subst y. split; [|lia]. destruct (decide (i = j)) as [|Hij]; [done|exfalso].
    destruct (li_sep _ _ _ _ _ Hl i j b c Hij Hib Hjc) as [Hs _]. apply Hs; [done|done|congruence].
  - exfalso. destruct Pb as (x & p & _ & Hp & _ & _ & _ & _ & _ & Hcv). destruct Pc as (y & f & _ & _ & Hf & Hcv' & _).
    pose proof (cov_ge_elem (map (zframe mb) (l_zone s)) (zframe mb p) a ltac:(apply elem_of_list_fmap; eauto) Hcv).
    pose proof (cov_ge_elem _ _ _ (lbfs_elem _ _ _ _ Hjc Hf) Hcv'). lia.
  - exfalso. destruct Pb as (x & p & _ & Hp & _ & _ & _ & _ & _ & Hcv). destruct Pc as (e & He & _ & _ & _ & Hcv' & _).
    pose proof (cov_ge_elem (map (zframe mb) (l_zone s)) (zframe mb p) a ltac:(apply elem_of_list_fmap; eauto) Hcv).
    pose proof (cov_ge_elem (map snd (l_big s)) e.2 a ltac:(apply elem_of_list_fmap; eauto) Hcv'). lia.
  - exfalso. destruct Pc as (x & p & _ & Hp & _ & _ & _ & _ & _ & Hcv). destruct Pb as (y & f & _ & _ & Hf & Hcv' & _).
    pose proof (cov_ge_elem (map (zframe mb) (l_zone s)) (zframe mb p) a ltac:(apply elem_of_list_fmap; eauto) Hcv).
    pose proof (cov_ge_elem _ _ _ (lbfs_elem _ _ _ _ Hib Hf) Hcv'). lia.
  - destruct Pb as (x & f & Ex & Ea & Hf & Hcv & _). destruct Pc as (y & g & Ey & Ea' & Hg & Hcv' & _).
    destruct (decide (i = j)) as [<-|Hij].
    + split; [done|]. assert (c = b) as -> by congruence. lia.
    + exfalso. pose proof (lbfs_two L i j b c f g a Hij Hib Hjc Hf Hg Hcv Hcv'). lia.
  - exfalso. destruct Pb as (y & f & _ & _ & Hf & Hcv & _). destruct Pc as (e & He & _ & _ & _ & Hcv' & _).
    pose proof (cov_ge_elem _ _ _ (lbfs_elem _ _ _ _ Hib Hf) Hcv).
    pose proof (cov_ge_elem (map snd (l_big s)) e.2 a ltac:(apply elem_of_list_fmap; eauto) Hcv'). lia.
  - exfalso. destruct Pc as (x & p & _ & Hp & _ & _ & _ & _ & _ & Hcv). destruct Pb as (e & He & _ & _ & _ & Hcv' & _).
    pose proof (cov_ge_elem (map (zframe mb) (l_zone s)) (zframe mb p) a ltac:(apply elem_of_list_fmap; eauto) Hcv).
    pose proof (cov_ge_elem (map snd (l_big s)) e.2 a ltac:(apply elem_of_list_fmap; eauto) Hcv'). lia.
  - exfalso. destruct Pc as (y & f & _ & _ & Hf & Hcv & _). destruct Pb as (e & He & _ & _ & _ & Hcv' & _).
    pose proof (cov_ge_elem _ _ _ (lbfs_elem _ _ _ _ Hjc Hf) Hcv).
    pose proof (cov_ge_elem (map snd (l_big s)) e.2 a ltac:(apply elem_of_list_fmap; eauto) Hcv'). lia.
  - destruct Pb as (e & He & Hr & _ & Ea & Hcv & _). destruct Pc as (e' & He' & Hr' & _ & Ea' & Hcv' & _).
    apply elem_of_list_lookup in He as [k Hk]. apply elem_of_list_lookup in He' as [k' Hk'].
    destruct (decide (k = k')) as [<-|Hkk].
    + assert (e' = e) as -> by congruence. assert (Hva : b_ptr b + off = b_ptr c + off') by lia.
      destruct (decide (i = j)) as [<-|Hij].
      * split; [done|]. assert (c = b) as -> by congruence. lia.
      * exfalso. destruct (li_sep _ _ _ _ _ Hl i j b c Hij Hib Hjc) as [_ Hs]. destruct (Hs ltac:(lia) ltac:(lia)); lia.
    + exfalso. assert ((2 <= cov (map snd (l_big s)) a)%nat); [|lia].
      eapply (cov_two _ k k' e.2 e'.2 a Hkk); [| |done|done].
      * change (map ?f ?l) with (f <$> l). by rewrite list_lookup_fmap, Hk.
      * change (map ?f ?l) with (f <$> l). by rewrite list_lookup_fmap, Hk'.
Qed.

(** All memory is below 2 TiB. *)
Definition low (K : (N -> bool) -> N -> nat) : Prop := forall a, (0 < K (fun _ => true) a)%nat -> a < 2199023255552.
Lemma at_trans num mb K s L i b off a : linv num mb K s L -> once num K -> low K -> L !! i = Some b -> at_ s b off a ->
  ltrans (l_big s) (b_ptr b + off) = Some a.
Proof.
  intros Hl Ho Hlow Hib Hat. destruct (at_part _ _ _ _ _ _ _ _ _ Hl Ho Hib Hat) as [(_ & _ & HK) Hp].
  specialize (Hlow a ltac:(lia)). unfold ltrans. assert (HB : BIGBASE = KBASE + 2199023255552) by done.
  destruct (decide (b_size b <= MAX_ZONE)) as [C1|C1]; [|destruct (decide (b_size b <= LARGE_PAGE)) as [C2|C2]].
  - destruct Hp as (x & p & Ex & _ & _ & _ & _ & Ea & _). rewrite decide_True by lia. f_equal. lia.
  - destruct Hp as (x & f & Ex & Ea & _). rewrite decide_True by lia. f_equal. lia.
  - destruct Hp as (e & He & Hr & _ & Ea & _ & Hge). rewrite decide_False by lia.
    destruct (list_find (fun e : N * frame => e.1 <= b_ptr b + off < e.1 + f_size e.2) (l_big s)) as [[k [v f]]|] eqn:Ef.
    + apply list_find_Some in Ef as (Hk & Hkr & _). cbn [fst snd] in Hkr.
      assert (e = (v, f)) as ->; [|cbn [fst snd] in Ea; by rewrite Ea].
      apply elem_of_list_lookup in He as [k' Hk']. destruct (decide (k' = k)) as [->|Hne]; [congruence|exfalso].
      destruct (si_big _ _ _ _ (li_s _ _ _ _ _ Hl)) as (_ & B2 & _).
      specialize (B2 (b_ptr b + off)).
      assert ((2 <= cov (map vframe (l_big s)) (b_ptr b + off))%nat); [|lia].
      eapply (cov_two _ k' k (vframe e) (vframe (v, f)) _ Hne).
      * change (map ?f ?l) with (f <$> l). by rewrite list_lookup_fmap, Hk'.
      * change (map ?f ?l) with (f <$> l). by rewrite list_lookup_fmap, Hk.
      * unfold covers, vframe. cbn [f_base f_size]. lia.
      * unfold covers, vframe. cbn [f_base f_size fst snd]. lia.
    + exfalso. apply list_find_None in Ef. by eapply (proj1 (stdpp.list.Forall_forall _ _) Ef e He).
Qed.

Lemma covP_nil P a : covP P [] a = 0%nat.
Proof. done. Qed.
(** Freeing. *)
Lemma covP_lframe num P n m pa a : lab num P -> (num = true -> n = m) -> covP P [lframe n pa] a = covP P [lframe m pa] a.
Proof.
  intros HP Hn. rewrite !covP_one. destruct HP as [->|HP].
  - by rewrite (Hn eq_refl).
  - rewrite !HP. done.
Qed.
Lemma lbfs_delete L i b : L !! i = Some b -> lbfs L ≡ₚ lbf b ++ lbfs (delete i L).
Proof. intros H. rewrite (lbfs_perm L (b :: delete i L)); [done|by apply delete_Permutation]. Qed.
Lemma delete_sep (L : list blk) i (R : blk -> blk -> Prop) :
  (forall i j b c, i <> j -> L !! i = Some b -> L !! j = Some c -> R b c) ->
  (forall j k b c, j <> k -> delete i L !! j = Some b -> delete i L !! k = Some c -> R b c).
Proof.
  intros H j k b c Hjk Hj Hk.
  assert (Hd : forall j c, delete i L !! j = Some c -> L !! (if decide (j < i)%nat then j else S j) = Some c).
  { intros j' c' Hj'. case_decide; [by rewrite lookup_delete_lt in Hj'|by rewrite lookup_delete_ge in Hj' by lia]. }
  apply Hd in Hj, Hk. eapply H; [|exact Hj|exact Hk]. repeat case_decide; lia.
Qed.

Lemma linv_free num mb K aff s L i b : linv num mb K s L -> once num K -> aff = mc_node (l_pm s) ->
  L !! i = Some b -> (num = true -> MAX_ZONE < b_size b <= LARGE_PAGE -> aff = b_node b) ->
  match dealloc mb aff (b_ptr b) (b_size b) (b_align b) s with
  | (Ok _, s') => linv num mb K s' (delete i L) /\ mc_node (l_pm s') = mc_node (l_pm s)
  | (Err _, _) => False
  | (Panic, _) => MAX_ZONE < b_size b <= LARGE_PAGE /\ freel s = 128
  end.
Proof.
  intros Hl Ho Ha Hib Hhome. pose proof (linv_once _ _ _ _ _ Hl Ho) as Ho'. destruct Hl as [H1 H2 H3 H4].
  assert (Hb : bok s b) by (eapply (Forall_lookup_1 _ _ _ _ H3); exact Hib).
  destruct Hb as (B1 & B2 & B3 & B4 & B5 & B6 & B7). unfold dealloc.
  assert (HLP : LARGE_PAGE = 2097152) by done. assert (HMZ : MAX_ZONE = 131072) by done.
  assert (Hcovb : forall P a, covP P (lbfs L) a = (covP P (lbf b) a + covP P (lbfs (delete i L)) a)%nat).
  { intros P a. rewrite <- covP_app. apply covP_perm. by apply lbfs_delete. }
  assert (Hdel : forall Q : blk -> Prop, (forall j c, L !! j = Some c -> j <> i -> Q c) -> Forall Q (delete i L)).
  { intros Q HQ. apply Forall_lookup_2. intros j c Hj.
    destruct (decide (j < i)%nat).
    - rewrite lookup_delete_lt in Hj by done. apply (HQ j); [done|lia].
    - rewrite lookup_delete_ge in Hj by lia. apply (HQ (S j)); [done|lia]. }
  assert (Hbs : forall j c, L !! j = Some c -> bok s c) by (intros j c Hj; by eapply (Forall_lookup_1 _ _ _ _ H3)).
  destruct (decide (b_size b <= MAX_ZONE)) as [C1|C1]; [|destruct (decide (b_size b <= LARGE_PAGE)) as [C2|C2]].
  - destruct (B5 C1) as (x & p & Ex & Hp & Hc & Hn & Hx). replace (b_ptr b - KBASE) with x by lia. rewrite <- Hc.
    destruct (zone_free_spec num mb _ s p x H1 Ho' Hp Hx) as (zs & -> & Z1 & Z2 & Z3). split; [|done].
    assert (lbf b = []) as Hlb by (unfold lbf; rewrite decide_False; [done|lia]).
    constructor.
    + by eapply sinv_self.
    + intros P a HP. rewrite (si_cov _ _ _ _ Z1 P a HP). rewrite <- (H2 P a HP), Hcovb, Hlb. rewrite covP_nil. cbn beta. lia.
    + apply Hdel. intros j c Hj Hji. destruct (Hbs j c Hj) as (D1 & D2 & D3 & D4 & D5 & D6 & D7).
      split; [done|]. split; [done|]. split; [done|]. split; [done|]. split; [|done].
      intros Hcs. destruct (D5 Hcs) as (y & q & Ey & Hq & Hqc & Hqn & Hy).
      destruct (Z2 q y Hq Hy) as (q' & Q1 & Q2 & Q3 & Q4 & Q5).
      { intros ->. destruct (H4 j i c b Hji Hj Hib) as [Hs _]. apply Hs; [done|done|congruence]. }
      exists y, q'. split; [done|]. split; [done|]. split; [congruence|]. split; [congruence|done].
    + by apply delete_sep.
  - destruct (B6 ltac:(lia)) as (x & Ex & Hx). replace (b_ptr b - KBASE) with x by lia.
    destruct (decide (b_align b <= LARGE_PAGE)) as [C3|C3].
    2:{ exfalso. apply C3. rewrite HLP. apply N.mod_divide in B3; [|lia]. apply N.divide_pos_le in B3; lia. }
    unfold frame_new. rewrite decide_True.
    2:{ rewrite HLP. split; [|done]. eapply (mod_trans x 2097152); [lia|done|done|done]. }
    set (f := mkFrame x LARGE_PAGE aff).
    assert (Hok : mc_ok (l_pm s)) by apply (si_pair _ _ _ _ H1). assert (Hfit : fits SBP SLP (l_pm s)) by apply (si_pair _ _ _ _ H1).
    pose proof (release_large_spec SBP SLP (l_pm s) f Hok Hfit) as Hr.
    destruct (mc_release_large SLP (l_pm s) f) as [[[]|e|] pm] eqn:Er.
    + destruct Hr as (R1 & R2 & R3 & R4 & R5 & R6 & R7). pose proof (release_large_perm _ _ _ _ Er) as Hperm.
      split; [|done].
      assert (Hc : forall P a, covP P (lall mb (set_pm s pm)) a = (covP P [f] a + covP P (lall mb s) a)%nat).
      { intros P a. rewrite <- covP_app. apply covP_perm. unfold lall. cbn [l_pm l_nc l_zone l_big set_pm]. by rewrite Hperm. }
      assert (lbf b = [lframe (b_node b) x]) as Hlb.
      { unfold lbf. rewrite decide_True by lia. by replace (b_ptr b - KBASE) with x by lia. }
      constructor.
      * destruct H1 as [S1 S2 S3 S4]. constructor; [|done|done|done].
        destruct S1 as (_ & _ & ? & ?). split; [done|]. split; [done|]. split; [done|]. cbn [l_pm l_nc set_pm]. congruence.
      * intros P a HP. rewrite Hc. rewrite <- (H2 P a HP), Hcovb, Hlb.
        rewrite (covP_lframe num P (b_node b) aff x a HP); [|intros Hnm; symmetry; apply Hhome; [done|lia]].
        change (lframe aff x) with f. lia.
      * apply Hdel. intros j c Hj _. by apply (Hbs j c Hj).
      * by apply delete_sep.
    + destruct Hr as (_ & _ & Hr). split; [lia|]. unfold freel. rewrite Hr. done.
    + exfalso. unfold mc_release_large, try_push in Er. rewrite decide_True in Er; [case_decide; discriminate|].
      split; [done|]. split; [done|]. first [exact Ha|symmetry; exact Ha].
  - split; [|done]. assert (lbf b = []) as Hlb by (unfold lbf; rewrite decide_False; [done|lia]).
    constructor; [done| | |].
    + intros P a HP. rewrite <- (H2 P a HP), Hcovb, Hlb. rewrite covP_nil. cbn beta. lia.
    + apply Hdel. intros j c Hj _. by apply (Hbs j c Hj).
    + by apply delete_sep.
Qed.

(** Resizing. *)
Lemma class_le_zone size n : size <= MAX_ZONE -> n <= class_of size -> n <= MAX_ZONE.
Proof.
  intros Hs Hn. apply class_mono in Hs. change (class_of MAX_ZONE) with MAX_ZONE in Hs. lia.
Qed.
Lemma insert_sep (L : list blk) i b' (R : blk -> blk -> Prop) : (forall x y, R x y -> R y x) ->
  (forall i j b c, i <> j -> L !! i = Some b -> L !! j = Some c -> R b c) ->
  (forall j c, j <> i -> L !! j = Some c -> R b' c) ->
  (forall j k b c, j <> k -> <[i := b']> L !! j = Some b -> <[i := b']> L !! k = Some c -> R b c).
Proof.
  intros Hs H Hb j k b c Hjk Hj Hk.
  destruct (decide (j = i)) as [->|Hji]; destruct (decide (k = i)) as [->|Hki]; [done| | |].
  - rewrite (list_lookup_insert_ne) in Hk by done. apply list_lookup_insert_Some in Hj as [(_ & <- & _)|[? _]]; [|done]. by apply (Hb k).
  - rewrite (list_lookup_insert_ne) in Hj by done. apply list_lookup_insert_Some in Hk as [(_ & <- & _)|[? _]]; [|done]. apply Hs. by apply (Hb j).
  - rewrite list_lookup_insert_ne in Hj, Hk by done. eapply H; [exact Hjk|exact Hj|exact Hk].
Qed.

Lemma linv_realloc num mb K core aff n nt ch s L i b : mb_ok mb -> linv num mb K s L -> once num K -> low K -> aff = mc_node (l_pm s) ->
  L !! i = Some b -> 0 < n ->
  (num = true -> MAX_ZONE < b_size b <= LARGE_PAGE -> aff = b_node b) ->
  (b_size b <= MAX_ZONE -> b_size b <> 4096 -> n <= class_of (b_size b) -> class_of n = class_of (b_size b)) ->
  match realloc mb core aff (b_ptr b) (b_size b) (b_align b) n nt ch s with
  | (Ok (Some p), s') => linv num mb K s' (<[i := mkBlk p n (b_align b) (if decide (p = b_ptr b) then b_node b else aff)]> L) /\
       mc_node (l_pm s') = mc_node (l_pm s)
  | (Ok None, s') => linv num mb K s' L /\ mc_node (l_pm s') = mc_node (l_pm s)
  | _ => True
  end.
Proof.
  intros Hmb Hl Ho Hlow Ha Hib Hn Hhome Hcl. unfold realloc.
  assert (Hb : bok s b) by (eapply (Forall_lookup_1 _ _ _ _ (li_b _ _ _ _ _ Hl)); exact Hib).
  assert (HLP : LARGE_PAGE = 2097152) by done. assert (HMZ : MAX_ZONE = 131072) by done.
  destruct (decide (b_size b <= MAX_ZONE /\ b_size b <> BASE_PAGE /\ n <= class_of (b_size b))) as [(C1 & C2 & C3)|_].
  { split; [|done]. rewrite decide_True by done. specialize (Hcl C1 C2 C3). pose proof (class_le_zone _ _ C1 C3) as Hnz.
    destruct Hl as [H1 H2 H3 H4]. set (b' := mkBlk (b_ptr b) n (b_align b) (b_node b)).
    assert (Hlt : (i < length L)%nat) by (by eapply lookup_lt_Some).
    assert (Eb : lbf b = []) by (unfold lbf; rewrite decide_False; [done|lia]).
    assert (Eb' : lbf b' = []) by (unfold lbf; rewrite decide_False; [done|cbn [b_size b']; lia]).
    constructor; [done| | |].
    - intros P a HP. rewrite <- (H2 P a HP). f_equal. unfold lbfs. f_equal.
      assert (map lbf (<[i:=b']> L) = map lbf L) as ->; [|done].
      change (map ?f ?l) with (f <$> l). rewrite list_fmap_insert. apply list_insert_id.
      rewrite list_lookup_fmap, Hib. cbn. by rewrite Eb, Eb'.
    - apply Forall_insert; [done|]. destruct Hb as (B1 & B2 & B3 & B4 & B5 & B6 & B7).
      split; [done|]. split; [done|]. split; [done|]. split; [done|]. split; [|split; cbn [b_size b']; lia].
      intros _. destruct (B5 C1) as (x & p & Ex & Hp & Hc & Ha' & Hx). exists x, p. cbn [b_size b_ptr b_node b']. rewrite Hcl. done.
    - apply insert_sep; [apply sep_sym|done|]. intros j c Hji Hj. destruct (H4 i j b c ltac:(done) Hib Hj) as [Q1 Q2].
      split; cbn [b_size b_ptr b']; [intros _; by apply Q1|lia]. }
  pose proof Hb as (B1 & B2 & B3 & B4 & B5 & B6 & B7).
  pose proof (linv_alloc num mb K core aff n (b_align b) nt ch s L Hmb Hl Ho Ha Hn B2 B3) as Hal.
  destruct (alloc mb core aff n (b_align b) nt ch s) as [[[p|]|e|] s1]; try done.
  2:{ destruct Hal as [A1 A2]. split; [done|]. apply (gr_node _ _ A2). }
  destruct Hal as (A1 & A2 & A3). set (b' := mkBlk p n (b_align b) aff) in *.
  assert (Hib1 : (L ++ [b']) !! i = Some b) by (apply lookup_app_l_Some; done).
  pose proof (linv_free num mb K aff s1 (L ++ [b']) i b A1 Ho ltac:(rewrite (gr_node _ _ A2); done) Hib1 Hhome) as Hf.
  destruct (dealloc mb aff (b_ptr b) (b_size b) (b_align b) s1) as [[[]|e|] s2]; try done.
  destruct Hf as [F1 F2]. split; [|rewrite F2; apply (gr_node _ _ A2)].
  assert (Hp : p <> b_ptr b).
  { (* the new block is not where the old one is *)
    intros E.
    assert (Hlb : (L ++ [b']) !! length L = Some b') by (apply list_lookup_middle; done).
    assert (Hb1 : bok s1 b) by (eapply (Forall_lookup_1 _ _ _ _ (li_b _ _ _ _ _ A1)); exact Hib1).
    assert (Hb2 : bok s1 b') by (eapply (Forall_lookup_1 _ _ _ _ (li_b _ _ _ _ _ A1)); exact Hlb).
    destruct (at_exists s1 b 0 Hb1 B1) as [a1 Ha1]. destruct (at_exists s1 b' 0 Hb2 Hn) as [a2 Ha2].
    pose proof (at_trans _ _ _ _ _ _ _ _ _ A1 Ho Hlow Hib1 Ha1) as T1. pose proof (at_trans _ _ _ _ _ _ _ _ _ A1 Ho Hlow Hlb Ha2) as T2.
    cbn [b_ptr b'] in T2. rewrite E, T1 in T2. injection T2 as <-.
    destruct (at_inj _ _ _ _ _ _ _ _ _ _ _ _ A1 Ho Hib1 Hlb Ha1 Ha2) as [Eij _].
    apply lookup_lt_Some in Hib. lia. }
  rewrite decide_False by done. fold b'.
  eapply linv_perm; [|exact F1].
  assert (Hlt : (i < length L)%nat) by (by eapply lookup_lt_Some).
  rewrite <- (take_drop_middle L i b Hib) at 1. rewrite insert_take_drop by done.
  rewrite <- app_assoc. cbn [app].
  assert (delete i (take i L ++ b :: drop (S i) L ++ [b']) = take i L ++ drop (S i) L ++ [b']) as ->.
  { pose proof (delete_middle (take i L) (drop (S i) L ++ [b']) b) as Hd.
    rewrite take_length_le in Hd by lia. done. }
  rewrite (Permutation_app_comm (drop (S i) L) [b']). done.
Qed.
