(** Proofs about the C memory functions. *)
From Verif Require Import Base MemModel HeapModel HeapProofs PgModel PgSpec PgProofs PgProps UmModel UmSpec.
From stdpp Require Import functions.
Open Scope N_scope.

(** ** Memory *)
Lemma load_put a v m n : forall k, k + N.of_nat n <= 8 -> load (put64 a v m) (a + k) n = (v / 256 ^ k) mod 256 ^ N.of_nat n.
Proof.
  induction n as [|n IH]; intros k Hk; cbn [load]; [by rewrite N.mod_1_r|].
  replace (a + k + 1) with (a + (k + 1)) by lia. rewrite IH by lia. unfold put64 at 1. rewrite decide_True by lia.
  replace (a + k - a) with k by lia. replace (N.of_nat (S n)) with (1 + N.of_nat n) by lia.
  rewrite !N.pow_add_r, !N.pow_1_r. rewrite N.mod_mul_r by (try done; apply N.pow_nonzero; done).
  rewrite N.div_div; [done| |done]. by apply N.pow_nonzero.
Qed.
Lemma get_put a v m : v < 2 ^ 64 -> get64 (put64 a v m) a = v.
Proof.
  intros H. unfold get64. pose proof (load_put a v m 8 0 ltac:(lia)) as X. rewrite N.add_0_r in X. rewrite X.
  change (256 ^ 0) with 1. rewrite N.div_1_r. apply N.mod_small. exact H.
Qed.
Lemma load_frame m m' n : forall a, (forall x, a <= x < a + N.of_nat n -> m' x = m x) -> load m' a n = load m a n.
Proof.
  induction n as [|n IH]; intros a H; cbn [load]; [done|]. rewrite H by lia. rewrite IH; [done|]. intros x Hx. apply H. lia.
Qed.
Lemma get_frame m m' a : (forall x, a <= x < a + 8 -> m' x = m x) -> get64 m' a = get64 m a.
Proof. intros H. apply load_frame. intros x Hx. apply H. lia. Qed.
Lemma put_frame a v m x : ~ (a <= x < a + 8) -> put64 a v m x = m x.
Proof. intros H. unfold put64. by rewrite decide_False. Qed.

(** ** The pagers *)
Lemma log_apart st m n i j r1 r2 : pinv st -> pinv2 st -> pg_log st !! m = Some (i, r1) -> pg_log st !! n = Some (j, r2) -> m <> n -> apart r1 r2.
Proof.
  intros I I2 E1 E2 Hn. destruct (decide (i = j)) as [->|Hij]; [by eapply (p_apart _ I m n)|].
  destruct r1 as [b1 s1], r2 as [b2 s2]. apply elem_of_list_lookup_2 in E1, E2.
  pose proof (q_log _ I2 _ _ _ E1). pose proof (q_log _ I2 _ _ _ E2). destruct (p_log _ I _ _ _ E1) as (_ & ? & _ & _). destruct (p_log _ I _ _ _ E2) as (_ & ? & _ & _).
  intros a [A1 A2]. simpl in *. unfold pg_start, pg_limit, HEAP_START, HEAP_REGION in *. set (R := 2 ^ 39) in *.
  assert (i < j \/ j < i)%nat as [|] by lia; nia.
Qed.
Lemma try_loop_spec chk me large ks fuel : forall st c r st', pg_try_loop fuel chk st me c large ks = (Ok r, st') ->
  match r with
  | Some p => exists k, pg_log st' = (k, (p, pg_page_size large)) :: pg_log st /\ p mod pg_page_size large = 0
  | None => pg_log st' = pg_log st
  end.
Proof.
  induction fuel as [|fuel IH]; intros st c r st'; cbn [pg_try_loop]; [done|].
  destruct (pg_alloc_page st c large (ks c)) as [r1 st1] eqn:E. unfold pg_alloc_page in E.
  destruct (allocate_cases _ _ _ _ _ _ _ E) as [[-> ->]|(Hi & sb & sz & E1 & E2 & C)]; [done|].
  rewrite page_size_max in E2. rewrite page_ru in E1. injection E1 as <-.
  pose proof (ru_spec _ _ _ (page_size_pos large) E2) as (R1 & R2 & R3 & R4 & R5).
  destruct C as [(P & O & -> & _)|(-> & _ & Hl & Ho & ->)].
  - destruct r1; [done| |done]. cbv zeta. destruct (pg_stop chk me); [|done..].
    case_decide; [intros [= <- <-]; done|]. intros H1. apply IH in H1. exact H1.
  - intros [= <- <-]. eexists. split; [done|exact R3].
Qed.
Lemma try_spec chk st me large ks r st' : pg_try chk st me large ks = (Ok r, st') ->
  match r with
  | Some p => exists k, pg_log st' = (k, (p, pg_page_size large)) :: pg_log st /\ p mod pg_page_size large = 0
  | None => pg_log st' = pg_log st
  end.
Proof. apply try_loop_spec. Qed.
Lemma try_not_err chk st me large ks e st' : pg_try chk st me large ks <> (Err e, st').
Proof.
  unfold pg_try. assert (X : forall fuel c st, pg_try_loop fuel chk st me c large ks <> (Err e, st')); [|apply X].
  induction fuel as [|f IH]; intros c st1; cbn [pg_try_loop]; [done|].
  destruct (pg_alloc_page st1 c large (ks c)) as [[|e1|] st2]; [done| |done].
  cbv zeta. destruct (pg_stop chk me); [|done..]. case_decide; [intros [= ]|]. apply IH.
Qed.
Lemma try_inv chk st me large ks r st' : pg_try chk st me large ks = (r, st') -> pinv st -> pinv2 st -> pinv st' /\ pinv2 st'.
Proof.
  intros E I I2. split.
  - eapply (inv_try_loop pinv (fun _ _ => True)); [done| |exact I|exact E]. intros. by eapply pinv_alloc.
  - eapply (inv_try_loop pinv2 page_layout); [by eexists| |exact I2|exact E]. intros. by eapply pinv2_alloc.
Qed.
Lemma big_inv chk st me size kss r st' : pg_big chk st me size kss = (r, st') -> pinv st -> pinv2 st -> pinv st' /\ pinv2 st'.
Proof.
  intros E I I2. split.
  - eapply (inv_big_loop pinv (fun _ _ => True)); [done| |exact I|exact E]. intros. by eapply pinv_alloc.
  - eapply (inv_big_loop pinv2 page_layout); [by eexists| |exact I2|exact E]. intros. by eapply pinv2_alloc.
Qed.

(** ** The invariant *)
(** Addresses of a block with its header. *)
Definition full (b : ublk) (a : N) : Prop := ub_ptr b - 16 <= a < ub_ptr b + ub_size b.
Definition small (b : ublk) : Prop := ub_size b + 16 <= MAX_ZONE.
Definition in_page (mb : N) (p : zpage) (a : N) : Prop := zp_base p <= a < zp_base p + zpsize mb (zp_class p).
Record blk_ok (mb : N) (s : uh) (b : ublk) : Prop := {
  bo_low : 16 <= ub_ptr b;
  bo_size : ub_size b + 16 < 2 ^ 64;
  bo_al : ub_ptr b mod 16 = 0;
  bo_small : small b -> exists p, p ∈ u_zone s /\ zp_class p = class_of (ub_size b + 16) /\ ub_ptr b - 16 ∈ zp_used p;
  bo_big : ~ small b -> forall a, full b a -> mapped s a /\ forall p, p ∈ u_zone s -> ~ in_page mb p a }.
Record usinv (mb : N) (s : uh) (live : list ublk) : Prop := {
  us_p : pinv (u_pg s);
  us_p2 : pinv2 (u_pg s);
  us_zone : forall p, p ∈ u_zone s -> zp_ok mb p /\ 0 < zp_base p /\ exists i, (i, (zp_base p, zpsize mb (zp_class p))) ∈ pg_log (u_pg s);
  us_uniq : NoDup (zp_base <$> u_zone s);
  us_used : forall p x, p ∈ u_zone s -> x ∈ zp_used p -> exists b, b ∈ live /\ ub_ptr b = x + 16 /\ small b;
  us_blk : forall b, b ∈ live -> blk_ok mb s b;
  us_ptrs : NoDup (ub_ptr <$> live);
  us_big : forall b c, b ∈ live -> c ∈ live -> ub_ptr b <> ub_ptr c -> ~ small b -> ~ small c -> forall a, ~ (full b a /\ full c a) }.
Definition hinv (m : N -> N) (live : list ublk) : Prop := forall b, b ∈ live -> get64 m (ub_ptr b - 16) = ub_size b + 16.

Lemma usinv_mem mb s live m : usinv mb s live -> usinv mb (mkUh (u_pg s) (u_zone s) m) live.
Proof. intros [H1 H2 H3 H4 H5 H6 H7 H8]. constructor; try done. intros b Hb. destruct (H6 b Hb) as [B1 B2 B3 B4 B5]. by constructor. Qed.
Lemma usinv_perm mb s l l' : l ≡ₚ l' -> usinv mb s l -> usinv mb s l'.
Proof.
  intros P [H1 H2 H3 H4 H5 H6 H7 H8]. constructor; try done.
  - intros p x Hp Hx. destruct (H5 p x Hp Hx) as (b & Hb & ?). exists b. by rewrite <- P.
  - intros b Hb. apply H6. by rewrite P.
  - by rewrite <- P.
  - intros b c Hb Hc. apply H8; by rewrite P.
Qed.

(** Pages that share an address have the same base and are the same. *)
Lemma page_same mb s live p q a : usinv mb s live -> p ∈ u_zone s -> q ∈ u_zone s -> in_page mb p a -> in_page mb q a -> p = q.
Proof.
  intros I Hp Hq Ap Aq.
  destruct (us_zone _ _ _ I p Hp) as (_ & _ & i & Li). destruct (us_zone _ _ _ I q Hq) as (_ & _ & j & Lj).
  assert (Hb : zp_base p = zp_base q).
  { destruct (decide (zp_base p = zp_base q)) as [|Hne]; [done|exfalso].
    apply elem_of_list_lookup in Li as [m Lm]. apply elem_of_list_lookup in Lj as [n Ln].
    assert (m <> n) as Hmn by congruence.
    apply (log_apart _ _ _ _ _ _ _ (us_p _ _ _ I) (us_p2 _ _ _ I) Lm Ln Hmn a). split; [exact Ap|exact Aq]. }
  apply elem_of_list_lookup in Hp as [m Lm]. apply elem_of_list_lookup in Hq as [n Ln].
  assert (m = n) as ->; [|congruence].
  eapply NoDup_lookup; [exact (us_uniq _ _ _ I)|rewrite list_lookup_fmap, Lm; reflexivity|rewrite list_lookup_fmap, Ln; simpl; by rewrite Hb].
Qed.
Lemma small_full mb s live b a : usinv mb s live -> b ∈ live -> small b -> full b a ->
  exists p, p ∈ u_zone s /\ zp_class p = class_of (ub_size b + 16) /\ ub_ptr b - 16 ∈ zp_used p /\ in_page mb p a /\
    ub_ptr b - 16 <= a < ub_ptr b - 16 + zp_class p.
Proof.
  intros I Hb Hs Ha. destruct (us_blk _ _ _ I b Hb) as [B1 B2 B3 B4 B5]. destruct (B4 Hs) as (p & Hp & Hc & Hx).
  destruct (us_zone _ _ _ I p Hp) as ((Q1 & Q2 & Q3) & _). destruct (slot_spec mb p _ Q2 (Q3 _ Hx)) as (i & E & Hle).
  pose proof (class_ge (ub_size b + 16)) as Hg. unfold full in Ha. exists p. split; [done|]. split; [done|]. split; [done|].
  unfold in_page. split; [|lia]. rewrite Hc in *. lia.
Qed.
(** Blocks do not overlap. *)
Lemma full_disj mb s live b c a : usinv mb s live -> b ∈ live -> c ∈ live -> ub_ptr b <> ub_ptr c -> ~ (full b a /\ full c a).
Proof.
  intros I Hb Hc Hne [Fb Fc]. destruct (us_blk _ _ _ I b Hb) as [B1 B2 B3 B4 B5]. destruct (us_blk _ _ _ I c Hc) as [C1 C2 C3 C4 C5].
  destruct (decide (ub_size b + 16 <= MAX_ZONE)) as [Sb|Sb]; destruct (decide (ub_size c + 16 <= MAX_ZONE)) as [Sc|Sc].
  - destruct (small_full mb s live b a I Hb Sb Fb) as (p & Hp & _ & Hx & Ap & Rp).
    destruct (small_full mb s live c a I Hc Sc Fc) as (q & Hq & _ & Hy & Aq & Rq).
    assert (p = q) as <- by (by eapply page_same).
    destruct (us_zone _ _ _ I p Hp) as ((Q1 & Q2 & Q3) & _). destruct (slot_spec mb p _ Q2 (Q3 _ Hx)) as (i & Ei & _).
    destruct (slot_spec mb p _ Q2 (Q3 _ Hy)) as (j & Ej & _).
    assert (i <> j) by (intros ->; lia). clear -Rp Rq Ei Ej H Q2. rewrite Ei in Rp. rewrite Ej in Rq.
    assert (i + 1 <= j \/ j + 1 <= i) as [G|G] by lia; apply (N.mul_le_mono_r _ _ (zp_class p)) in G; lia.
  - destruct (small_full mb s live b a I Hb Sb Fb) as (p & Hp & _ & Hx & Ap & Rp). destruct (C5 Sc a Fc) as [_ X]. by apply (X p Hp).
  - destruct (small_full mb s live c a I Hc Sc Fc) as (p & Hp & _ & Hx & Ap & Rp). destruct (B5 Sb a Fb) as [_ X]. by apply (X p Hp).
  - by apply (us_big _ _ _ I b c Hb Hc Hne Sb Sc a).
Qed.
(** Blocks are in mapped memory. *)
Lemma full_mapped mb s live b a : usinv mb s live -> b ∈ live -> full b a -> mapped s a.
Proof.
  intros I Hb Fb. destruct (decide (ub_size b + 16 <= MAX_ZONE)) as [Sb|Sb].
  - destruct (small_full mb s live b a I Hb Sb Fb) as (p & Hp & _ & Hx & Ap & Rp).
    destruct (us_zone _ _ _ I p Hp) as (_ & _ & i & Li). exists (zp_base p, zpsize mb (zp_class p)).
    split; [|exact Ap]. change (zp_base p, zpsize mb (zp_class p)) with ((i, (zp_base p, zpsize mb (zp_class p))).2).
    by apply elem_of_list_fmap_1.
  - by apply (bo_big _ _ _ (us_blk _ _ _ I b Hb) Sb a).
Qed.

(** ** Allocation *)
Lemma new_apart pg new old a : pinv pg -> pinv2 pg -> pg_log pg = new ++ old -> covered new.*2 a -> covered old.*2 a -> False.
Proof.
  intros I I2 L (r1 & H1 & A1) (r2 & H2 & A2).
  apply elem_of_list_fmap in H1 as ([i x1] & -> & H1). apply elem_of_list_fmap in H2 as ([j x2] & -> & H2).
  apply elem_of_list_lookup in H1 as [m Lm]. apply elem_of_list_lookup in H2 as [n Ln].
  pose proof (lookup_lt_Some _ _ _ Lm) as Hm.
  apply (log_apart pg m (length new + n) i j x1 x2 I I2) with a; [| |lia|done].
  - rewrite L. by apply lookup_app_l_Some.
  - rewrite L. rewrite lookup_app_r by lia. by replace (length new + n - length new)%nat with n by lia.
Qed.
Lemma mapped_page s mb live p a : usinv mb s live -> p ∈ u_zone s -> in_page mb p a -> mapped s a.
Proof.
  intros I Hp Ha. destruct (us_zone _ _ _ I p Hp) as (_ & _ & i & Li). exists (zp_base p, zpsize mb (zp_class p)).
  split; [|exact Ha]. change (zp_base p, zpsize mb (zp_class p)) with ((i, (zp_base p, zpsize mb (zp_class p))).2).
  by apply elem_of_list_fmap_1.
Qed.
Lemma covered_app l1 l2 a : covered l2 a -> covered (l1 ++ l2) a.
Proof. intros (r & H & ?). exists r. split; [set_solver|done]. Qed.

(** A fresh page for the slab allocator. *)
Lemma add_page mb s live core class b k pg m : usinv mb s live -> pinv pg -> pinv2 pg -> 8 <= class ->
  pg_log pg = (k, (b, zpsize mb class)) :: pg_log (u_pg s) -> b mod zpsize mb class = 0 ->
  usinv mb (mkUh pg (mkZp core 0 class b [] :: u_zone s) m) live.
Proof.
  intros I P1 P2 Hc L Hb. set (np := mkZp core 0 class b []).
  assert (Hnew : forall a, b <= a < b + zpsize mb class -> ~ mapped s a).
  { intros a Ha M. apply (new_apart pg [(k, (b, zpsize mb class))] (pg_log (u_pg s)) a P1 P2 L); [|exact M].
    exists (b, zpsize mb class). split; [left|exact Ha]. }
  assert (Hb0 : 0 < b).
  { destruct (p_log _ P1 k b (zpsize mb class)) as (_ & X & _); [rewrite L; left|]. unfold pg_start, HEAP_START, HEAP_REGION in X.
    assert (0 < 2 ^ 39) by (by apply N.neq_0_lt_0, N.pow_nonzero). lia. }
  assert (Hz : 0 < zpsize mb class) by (destruct (zpsize_cases mb class) as [-> | ->]; lia).
  constructor; cbn [u_pg u_zone u_mem]; try done.
  - intros p [->|Hp]%elem_of_cons.
    + cbn [zp_base zp_class np]. split; [|split; [done|]]. 2:{ exists k. rewrite L. left. }
      split; [done|]. split; [done|]. intros x Hx. by apply elem_of_nil in Hx.
    + destruct (us_zone _ _ _ I p Hp) as (Z1 & Z2 & i & Z3). split; [done|]. split; [done|]. exists i. rewrite L. by right.
  - rewrite fmap_cons. apply stdpp.list.NoDup_cons. split; [|exact (us_uniq _ _ _ I)]. intros H. apply elem_of_list_fmap in H as (q & E & Hq).
    cbn [zp_base np] in E. apply (Hnew b); [lia|]. eapply (mapped_page _ _ _ q); [exact I|exact Hq|].
    unfold in_page. rewrite <- E. destruct (zpsize_cases mb (zp_class q)) as [-> | ->]; lia.
  - intros p x [->|Hp]%elem_of_cons Hx; [by apply elem_of_nil in Hx|]. by apply (us_used _ _ _ I p x).
  - intros c Hc'. destruct (us_blk _ _ _ I c Hc') as [B1 B2 B3 B4 B5]. constructor; try done.
    + intros Hs. destruct (B4 Hs) as (p & ? & ?). exists p. split; [by right|done].
    + intros Hs a Ha. destruct (B5 Hs a Ha) as [M NP]. split.
      * unfold mapped. cbn [u_pg]. rewrite L. rewrite fmap_cons. by apply (covered_app [_]).
      * intros p [->|Hp]%elem_of_cons; [|by apply NP]. intros Q. by apply (Hnew a).
  - apply I.
  - apply I.
Qed.

Lemma class16 n : 16 <= n -> class_of n mod 16 = 0.
Proof.
  intros H. unfold class_of. assert (4 <= N.log2_up (N.max 8 n)).
  { change 4 with (N.log2_up 16). apply N.log2_up_le_mono. lia. }
  replace (N.log2_up (N.max 8 n)) with ((N.log2_up (N.max 8 n) - 4) + 4) by lia. rewrite N.pow_add_r. apply N.mod_mul. done.
Qed.
Lemma page16 mb p : zp_ok mb p -> zp_base p mod 16 = 0.
Proof.
  intros (H & _). destruct (zpsize_cases mb (zp_class p)) as [E|E]; rewrite E in H; apply (mod_mul_trans 16 _ _ ltac:(done)) in H; done.
Qed.

(** The slab allocator hands out a slot. *)
Lemma use_spec mb s live core n align c x zs m : usinv mb s live -> 16 <= n <= MAX_ZONE ->
  use_uslot mb core n align (u_zone s) c = Some (x, zs) ->
  usinv mb (mkUh (u_pg s) zs m) (live ++ [mkUb (x + 16) (n - 16)]) /\ x mod align = 0.
Proof.
  intros I Hn E. unfold use_uslot in E. destruct c as [[i x']|]; [|done].
  destruct (u_zone s !! i) as [p|] eqn:Hp; [|done]. destruct (uslot_ok mb core n align p x') eqn:Hs; [|done]. injection E as <- <-.
  unfold uslot_ok in Hs. apply bool_decide_eq_true in Hs as (S1 & S2 & S3 & S4 & S5). split; [|exact S5].
  set (p' := mkZp (zp_core p) (zp_aff p) (zp_class p) (zp_base p) (x' :: zp_used p)).
  pose proof (elem_of_list_lookup_2 _ _ _ Hp) as Hin. pose proof (lookup_lt_Some _ _ _ Hp) as Hlt.
  destruct (us_zone _ _ _ I p Hin) as (Zok & Z0 & k & Zl). pose proof Zok as (Q1 & Q2 & Q3).
  destruct (slot_spec mb p x' Q2 S3) as (sl & Esl & Hsl).
  assert (Hx16 : x' mod 16 = 0).
  { rewrite Esl, <- N.add_mod_idemp_l by done. rewrite (page16 mb p Zok), N.add_0_l, N.mul_mod by done.
    rewrite S2, (class16 n) by lia. by rewrite N.mul_0_r. }
  assert (Hp' : p' ∈ <[i := p']> (u_zone s)) by (apply elem_of_list_lookup; exists i; by apply list_lookup_insert).
  assert (Hel : forall q, q ∈ <[i := p']> (u_zone s) -> q = p' \/ (q ∈ u_zone s /\ q <> p)).
  { intros q Hq. apply elem_of_list_lookup in Hq as [j Hj]. destruct (decide (i = j)) as [<-|Hij].
    - rewrite list_lookup_insert in Hj by done. left. congruence.
    - rewrite list_lookup_insert_ne in Hj by done. right. split; [by eapply elem_of_list_lookup_2|]. intros ->.
      apply Hij. eapply NoDup_lookup; [exact (us_uniq _ _ _ I)|rewrite list_lookup_fmap, Hp; reflexivity|rewrite list_lookup_fmap, Hj; reflexivity]. }
  assert (Hkeep : forall q, q ∈ u_zone s -> exists q', q' ∈ <[i := p']> (u_zone s) /\ zp_base q' = zp_base q /\ zp_class q' = zp_class q /\ forall y, y ∈ zp_used q -> y ∈ zp_used q').
  { intros q Hq. apply elem_of_list_lookup in Hq as [j Hj]. destruct (decide (i = j)) as [<-|Hij].
    - exists p'. split; [done|]. rewrite Hp in Hj. injection Hj as <-. split; [done|]. split; [done|]. intros y Hy. by right.
    - exists q. split; [|done]. apply elem_of_list_lookup. exists j. by rewrite list_lookup_insert_ne. }
  set (nb := mkUb (x' + 16) (n - 16)). assert (Nsm : small nb) by (unfold small; cbn [ub_size nb]; lia).
  assert (Hfresh : forall c, c ∈ live -> ub_ptr c <> x' + 16).
  { intros c Hc Ec. destruct (us_blk _ _ _ I c Hc) as [B1 B2 B3 B4 B5].
    assert (Ip : in_page mb p x'). { unfold in_page. rewrite S2 in *. pose proof (class_pos n). lia. }
    destruct (decide (ub_size c + 16 <= MAX_ZONE)) as [Sc|Sc].
    - assert (Fc : full c x') by (unfold full; lia).
      destruct (small_full mb s live c x' I Hc Sc Fc) as (q & Hq & _ & Hx & Aq & _).
      assert (p = q) as <- by (by eapply (page_same mb s live p q x')). apply S4. by replace x' with (ub_ptr c - 16) by lia.
    - assert (Fc : full c x') by (unfold full; lia). destruct (B5 Sc x' Fc) as [_ X]. by apply (X p Hin). }
  constructor; cbn [u_pg u_zone]; try apply I.
  - intros q [->|[Hq _]]%Hel; [|by apply I]. split; [|split; [done|by exists k]]. split; [done|]. split; [done|].
    intros y Hy. cbn [zp_used p'] in Hy. apply elem_of_cons in Hy as [->|Hy]; [exact S3|]. by apply Q3.
  - rewrite list_fmap_insert. rewrite list_insert_id; [apply I|]. rewrite list_lookup_fmap, Hp. done.
  - intros q y [->|[Hq _]]%Hel Hy.
    + cbn [zp_used p'] in Hy. apply elem_of_cons in Hy as [->|Hy].
      * exists nb. split; [set_solver|done].
      * destruct (us_used _ _ _ I p y Hin Hy) as (b & ? & ?). exists b. split; [set_solver|done].
    + destruct (us_used _ _ _ I q y Hq Hy) as (b & ? & ?). exists b. split; [set_solver|done].
  - intros c [Hc|Hc]%elem_of_app.
    + destruct (us_blk _ _ _ I c Hc) as [B1 B2 B3 B4 B5]. constructor; try done.
      * intros Hs. destruct (B4 Hs) as (q & Hq & Cq & Uq). destruct (Hkeep q Hq) as (q' & ? & ? & ? & K). exists q'. cbn [u_zone]. split; [done|]. split; [congruence|]. by apply K.
      * intros Hs a Ha. destruct (B5 Hs a Ha) as [M NP]. split; [exact M|]. intros q [->|[Hq _]]%Hel; [|by apply NP]. exact (NP p Hin).
    + apply elem_of_list_singleton in Hc as ->. constructor; cbn [ub_ptr ub_size nb].
      * lia.
      * unfold MAX_ZONE in Hn. assert (131072 < 2 ^ 64) by done. lia.
      * rewrite <- N.add_mod_idemp_l, Hx16 by done. done.
      * intros _. exists p'. split; [done|]. split; [cbn [zp_class p']; rewrite S2; f_equal; lia|]. replace (x' + 16 - 16) with x' by lia. by left.
      * intros X. by destruct X.
  - rewrite fmap_app. apply NoDup_app. split; [apply I|]. split; [|apply NoDup_singleton].
    intros y Hy Hy'. apply elem_of_list_singleton in Hy' as ->. apply elem_of_list_fmap in Hy as (c & E & Hc). cbn [ub_ptr nb] in E. by apply (Hfresh c Hc).
  - intros b c Hb Hc Hne Sb Sc a. assert (b ∈ live) as Hb'.
    { apply elem_of_app in Hb as [|Hb]; [done|]. apply elem_of_list_singleton in Hb as ->. by destruct Sb. }
    assert (c ∈ live) as Hc'.
    { apply elem_of_app in Hc as [|Hc]; [done|]. apply elem_of_list_singleton in Hc as ->. by destruct Sc. }
    by apply (us_big _ _ _ I).
Qed.

(** Fresh pages for a large block. *)
Lemma add_big mb s live b n pg new m : usinv mb s live -> pinv pg -> pinv2 pg -> MAX_ZONE < n < 2 ^ 64 ->
  pg_log pg = new ++ pg_log (u_pg s) -> (forall a, b <= a < b + n -> covered new.*2 a) -> b mod 4096 = 0 ->
  usinv mb (mkUh pg (u_zone s) m) (live ++ [mkUb (b + 16) (n - 16)]).
Proof.
  intros I P1 P2 Hn L Cov Hb. set (nb := mkUb (b + 16) (n - 16)).
  assert (Hn16 : 16 <= n) by (unfold MAX_ZONE in Hn; lia).
  assert (Nbig : ~ small nb) by (unfold small; cbn [ub_size nb]; lia).
  assert (Fnb : forall a, full nb a <-> b <= a < b + n) by (intros a; unfold full; cbn [ub_ptr ub_size nb]; lia).
  assert (Hnew : forall a, b <= a < b + n -> ~ mapped s a).
  { intros a Ha M. by apply (new_apart pg new (pg_log (u_pg s)) a P1 P2 L (Cov a Ha)). }
  assert (Hold : forall a, mapped s a -> mapped (mkUh pg (u_zone s) m) a).
  { intros a M. unfold mapped. cbn [u_pg]. rewrite L, fmap_app. by apply covered_app. }
  assert (Hfull : forall c a, c ∈ live -> full c a -> ~ (b <= a < b + n)).
  { intros c a Hc Fc Ha. apply (Hnew a Ha). by eapply full_mapped. }
  constructor; cbn [u_pg u_zone]; try done.
  - intros p Hp. destruct (us_zone _ _ _ I p Hp) as (Z1 & Z2 & i & Z3). split; [done|]. split; [done|]. exists i. rewrite L. set_solver.
  - apply I.
  - intros p x Hp Hx. destruct (us_used _ _ _ I p x Hp Hx) as (c & ? & ?). exists c. split; [set_solver|done].
  - intros c [Hc|Hc]%elem_of_app.
    + destruct (us_blk _ _ _ I c Hc) as [B1 B2 B3 B4 B5]. constructor; try done.
      intros Hs a Ha. destruct (B5 Hs a Ha) as [M NP]. split; [by apply Hold|exact NP].
    + apply elem_of_list_singleton in Hc as ->. constructor; cbn [ub_ptr ub_size nb].
      * lia.
      * lia.
      * apply (mod_mul_trans 16 4096) in Hb; [|done..]. rewrite <- N.add_mod_idemp_l, Hb by done. done.
      * intros X. by destruct Nbig.
      * intros _ a Ha. apply Fnb in Ha. split.
        { unfold mapped. cbn [u_pg]. rewrite L, fmap_app. destruct (Cov a Ha) as (r & Hr & ?). exists r. split; [set_solver|done]. }
        intros p Hp Q. apply (Hnew a Ha). eapply mapped_page; [exact I|exact Hp|exact Q].
  - rewrite fmap_app. apply NoDup_app. split; [apply I|]. split; [|apply NoDup_singleton].
    intros y Hy Hy'. apply elem_of_list_singleton in Hy' as ->. apply elem_of_list_fmap in Hy as (c & E & Hc). cbn [ub_ptr nb] in E.
    destruct (us_blk _ _ _ I c Hc) as [B1 _ _ _ _]. apply (Hfull c b Hc); [unfold full; lia|lia].
  - intros c d Hc Hd Hne Sc Sd a [Fc Fd]. apply elem_of_app in Hc as [Hc|Hc]; apply elem_of_app in Hd as [Hd|Hd].
    + by apply (us_big _ _ _ I c d Hc Hd Hne Sc Sd a).
    + apply elem_of_list_singleton in Hd as ->. apply Fnb in Fd. by apply (Hfull c a).
    + apply elem_of_list_singleton in Hc as ->. apply Fnb in Fc. by apply (Hfull d a).
    + apply elem_of_list_singleton in Hc as ->. apply elem_of_list_singleton in Hd as ->. done.
Qed.

(** slabmalloc's limits. *)
Lemma mb_fits_ok mb : mb_fits mb -> mb_ok mb /\ mb <= 2048.
Proof.
  intros (k & Hk & ->). split.
  - unfold mb_ok, class_of. assert (8 <= 2 ^ k) by (change 8 with (2 ^ 3); apply N.pow_le_mono_r; lia).
    rewrite N.max_r by done. by rewrite N.log2_up_pow2 by lia.
  - change 2048 with (2 ^ 11). apply N.pow_le_mono_r; lia.
Qed.
Lemma zp_page mb n : mb_fits mb -> zpsize mb (class_of n) = pg_page_size (bool_decide (mb < n)).
Proof.
  intros H. rewrite class_mb by (by apply mb_fits_ok). destruct (decide (n <= mb)).
  - rewrite bool_decide_eq_false_2 by lia. done.
  - rewrite bool_decide_eq_true_2 by lia. done.
Qed.
Definition align_ok (align : N) : Prop := exists k, k <= 12 /\ align = 2 ^ k.
Lemma align_page align b l : align_ok align -> b mod pg_page_size l = 0 -> b mod align = 0.
Proof.
  intros (k & Hk & ->) H. apply (mod_mul_trans (2 ^ k) (pg_page_size l)); [by apply N.neq_0_lt_0, N.pow_nonzero|apply page_size_pos| |done].
  assert (D : forall j, 12 <= j -> 2 ^ j mod 2 ^ k = 0).
  { intros j Hj. replace j with ((j - k) + k) by lia. rewrite N.pow_add_r. apply N.mod_mul. by apply N.pow_nonzero. }
  destruct l; [change (pg_page_size true) with (2 ^ 21)|change (pg_page_size false) with (2 ^ 12)]; apply D; lia.
Qed.
(** The first slot of a fresh page can be used. *)
Lemma first_slot mb core n align b zs : mb_fits mb -> n <= MAX_ZONE -> align_ok align -> b mod zpsize mb (class_of n) = 0 ->
  exists zs', use_uslot mb core n align (mkZp core 0 (class_of n) b [] :: zs) (Some (O, b)) = Some (b, zs').
Proof.
  intros Hmb Hn Ha Hb. unfold use_uslot. cbn [lookup list_lookup]. unfold uslot_ok.
  rewrite bool_decide_eq_true_2; [by eexists|]. split; [done|]. split; [done|]. split; [|split; [intros X; by apply elem_of_nil in X|]].
  - unfold zp_slots. cbn [zp_base zp_class]. apply elem_of_list_fmap. exists O. split; [lia|]. apply elem_of_seq. split; [lia|].
    assert (Hc : 1 <= (zpsize mb (class_of n) - 80) / class_of n); [|lia].
    pose proof (class_pos n). apply N.div_le_lower_bound; [lia|]. rewrite N.mul_1_r. destruct (mb_fits_ok mb Hmb) as [M1 M2].
    unfold zpsize. destruct (decide (class_of n <= mb)); [unfold BASE_PAGE; lia|].
    pose proof (class_mono n MAX_ZONE Hn) as X. change (class_of MAX_ZONE) with 131072 in X. unfold LARGE_PAGE. lia.
  - rewrite zp_page in Hb by done. by eapply align_page.
Qed.

Lemma alloc_spec chk mb core n align kss c1 c2 s live : mb_fits mb -> usinv mb s live -> 16 <= n ->
  size_ok s core kss (n - 16) -> align_ok align ->
  match u_alloc chk mb core n align kss c1 c2 s with
  | (Ok (Some b), s') => usinv mb s' (live ++ [mkUb (b + 16) (n - 16)]) /\ u_mem s' = u_mem s
  | (Ok None, s') => usinv mb s' live /\ u_mem s' = u_mem s
  | _ => True
  end.
Proof.
  intros Hmb I Hn [Hsz Hbig] Ha. rewrite N.sub_add in Hsz, Hbig by done. unfold u_alloc. destruct (decide (n <= MAX_ZONE)) as [Hz|Hz].
  - destruct (use_uslot mb core n align (u_zone s) c1) as [[x zs]|] eqn:E1.
    { split; [|done]. by eapply use_spec. }
    destruct (pg_try chk (u_pg s) core (bool_decide (mb < n)) (kss O)) as [r pg] eqn:Et.
    destruct (try_inv _ _ _ _ _ _ _ Et (us_p _ _ _ I) (us_p2 _ _ _ I)) as [P1 P2].
    assert (Hsame : pg_log pg = pg_log (u_pg s) -> usinv mb (mkUh pg (u_zone s) (u_mem s)) live).
    { intros L. destruct I as [H1 H2 H3 H4 H5 H6 H7 H8]. constructor; try done; cbn [u_pg u_zone].
      - intros p Hp. rewrite L. by apply H3.
      - intros b Hb. destruct (H6 b Hb) as [B1 B2 B3 B4 B5]. constructor; try done. unfold mapped. cbn [u_pg]. rewrite L. exact B5. }
    destruct r as [[b|]|e|].
    + pose proof (try_spec _ _ _ _ _ _ _ Et) as (k & L & Hb). cbv zeta.
      assert (Hb' : b mod zpsize mb (class_of n) = 0) by (by rewrite zp_page).
      assert (I' : usinv mb (mkUh pg (mkZp core 0 (class_of n) b [] :: u_zone s) (u_mem s)) live).
      { eapply (add_page _ _ _ core (class_of n) b k); [exact I|done|done|apply class_pos| |done]. by rewrite zp_page. }
      destruct (use_uslot mb core n align (mkZp core 0 (class_of n) b [] :: u_zone s) c2) as [[x zs]|] eqn:E2.
      { split; [|done]. by eapply (use_spec _ _ _ _ _ _ _ _ _ (u_mem s) I'). }
      destruct (first_slot mb core n align b (u_zone s) Hmb Hz Ha Hb') as [zs' E3]. rewrite E3.
      split; [|done]. by eapply (use_spec _ _ _ _ _ _ _ _ _ (u_mem s) I').
    + pose proof (try_spec _ _ _ _ _ _ _ Et) as L. split; [by apply Hsame|done].
    + done.
    + done.
  - destruct (decide (n <= LARGE_PAGE)) as [Hl|Hl].
    + destruct (pg_try chk (u_pg s) core true (kss O)) as [r pg] eqn:Et.
      destruct (try_inv _ _ _ _ _ _ _ Et (us_p _ _ _ I) (us_p2 _ _ _ I)) as [P1 P2].
      destruct r as [[b|]|e|]; [|done..]. pose proof (try_spec _ _ _ _ _ _ _ Et) as (k & L & Hb). split; [|done].
      apply (add_big mb s live b n pg [(k, (b, pg_page_size true))]); [done|done|done|lia|done| |].
      * intros a Ha'. exists (b, pg_page_size true). split; [left|]. cbn [fst snd]. change (pg_page_size true) with LARGE_PAGE. lia.
      * apply (mod_mul_trans 4096 (pg_page_size true)); done.
    + destruct (Hbig ltac:(unfold LARGE_PAGE in Hl; lia)) as (Hc & Hk & HL).
      replace (n - 16 + 16) with n in HL by lia.
      destruct (pg_round_up (pg_sbrk (u_pg s) core) PG_LARGE) as [p|e|] eqn:Er.
      2:{ unfold pg_round_up in Er. by case_decide. }
      2:{ exfalso. unfold pg_round_up in Er. case_decide as X; [done|]. pose proof (limit_bound core Hc). unfold PG_LARGE in X. lia. }
      pose proof (ru_spec _ PG_LARGE _ ltac:(done) Er) as (R1 & R2 & R3 & R4 & R5). clear R4 R5.
      destruct (C38_big_allocation_partial chk (u_pg s) core n kss p Hc ltac:(lia) Hk Er) as (pg & new & E & L & Cov).
      { unfold PG_LARGE in *. lia. }
      rewrite E. destruct (big_inv _ _ _ _ _ _ _ E (us_p _ _ _ I) (us_p2 _ _ _ I)) as [P1 P2]. split; [|done].
      apply (add_big mb s live p n pg ((core,.) <$> new)); [done|done|done|lia|done| |].
      * intros a Ha'. rewrite <- list_fmap_compose. replace (snd ∘ pair core <$> new) with new; [by apply Cov|].
        symmetry. erewrite list_fmap_ext; [apply list_fmap_id|]. done.
      * apply (mod_mul_trans 4096 PG_LARGE); done.
Qed.

(** ** Freeing *)
Lemma dealloc_cons mb s b rest : usinv mb s (b :: rest) ->
  exists s', u_dealloc mb (Some (ub_ptr b - 16)) (ub_size b + 16) s = (Ok tt, s') /\ usinv mb s' rest /\ u_mem s' = u_mem s /\ u_pg s' = u_pg s /\
    (small b -> exists (j : nat) p, u_zone s !! j = Some p /\ zp_class p = class_of (ub_size b + 16) /\ ub_ptr b - 16 ∈ zp_used p /\
       u_zone s' = <[j := mkZp (zp_core p) (zp_aff p) (zp_class p) (zp_base p) (filter (fun y => y <> ub_ptr b - 16) (zp_used p))]> (u_zone s)).
Proof.
  intros I. assert (Hin : b ∈ b :: rest) by left. unfold u_dealloc. pose proof (us_blk _ _ _ I b Hin) as [B1 B2 B3 B4 B5].
  pose proof (us_ptrs _ _ _ I) as ND. rewrite fmap_cons in ND. apply stdpp.list.NoDup_cons in ND as [Nb ND].
  assert (Hptr : forall c, c ∈ rest -> ub_ptr c <> ub_ptr b).
  { intros c Hc E. apply Nb. rewrite <- E. by apply elem_of_list_fmap_1. }
  destruct (decide (ub_size b + 16 <= MAX_ZONE)) as [Hs|Hs].
  - destruct (B4 Hs) as (p & Hp & Hc & Hx). set (x := ub_ptr b - 16) in *. rewrite <- Hc.
    destruct (us_zone _ _ _ I p Hp) as ((P1 & P2 & P3) & P4 & kk & P5). destruct (slot_spec mb p x P2 (P3 x Hx)) as (k & Ek & Hle).
    set (ps := zpsize mb (zp_class p)) in *. assert (Hps : 0 < ps) by (destruct (zpsize_cases mb (zp_class p)); unfold ps; lia).
    assert (Hb : x / ps * ps = zp_base p).
    { clear -P1 Hps Ek Hle P2. apply N.mod_divide in P1; [|lia]. destruct P1 as [m P1]. rewrite P1.
      assert (x / ps = m) as ->; [|done]. symmetry. apply (N.div_unique x ps m (x - m * ps)); lia. }
    unfold zone_free. fold ps. rewrite Hb.
    destruct (list_find (fun q => zp_base q = zp_base p) (u_zone s)) as [[i q]|] eqn:Ef.
    2:{ exfalso. apply list_find_None in Ef. by eapply (proj1 (stdpp.list.Forall_forall _ _) Ef p Hp). }
    apply list_find_Some in Ef as (Hi1 & Hqb & _). pose proof (elem_of_list_lookup_2 _ _ _ Hi1) as Hq.
    assert (q = p) as ->.
    { eapply (page_same mb s _ q p (zp_base p) I Hq Hp); unfold in_page; [rewrite Hqb|]; [destruct (zpsize_cases mb (zp_class q))|fold ps]; lia. }
    assert (Hxb : x - zp_base p = k * zp_class p) by lia.
    rewrite Hxb. rewrite decide_True by (split; [done|apply N.mod_mul; lia]).
    rewrite N.div_mul by lia. rewrite <- Ek. rewrite decide_True by done.
    set (p' := mkZp (zp_core p) (zp_aff p) (zp_class p) (zp_base p) (filter (fun y => y <> x) (zp_used p))).
    eexists. split; [reflexivity|]. split; [|split; [done|split; [done|]]]. 2:{ intros _. by exists i, p. }
    pose proof (lookup_lt_Some _ _ _ Hi1) as Hlt.
    assert (Hp' : p' ∈ <[i := p']> (u_zone s)) by (apply elem_of_list_lookup; exists i; by apply list_lookup_insert).
    assert (Hel : forall q, q ∈ <[i := p']> (u_zone s) -> q = p' \/ (q ∈ u_zone s /\ q <> p)).
    { intros q' Hq'. apply elem_of_list_lookup in Hq' as [j Hj]. destruct (decide (i = j)) as [<-|Hij].
      - rewrite list_lookup_insert in Hj by done. left. congruence.
      - rewrite list_lookup_insert_ne in Hj by done. right. split; [by eapply elem_of_list_lookup_2|]. intros ->.
        apply Hij. eapply NoDup_lookup; [exact (us_uniq _ _ _ I)|rewrite list_lookup_fmap, Hi1; reflexivity|rewrite list_lookup_fmap, Hj; reflexivity]. }
    assert (Hrest : forall q y, q ∈ u_zone s -> y ∈ zp_used q -> y <> x -> exists c, c ∈ rest /\ ub_ptr c = y + 16 /\ small c).
    { intros q y Hq' Hy Hne. destruct (us_used _ _ _ I q y Hq' Hy) as (c & Hc' & Ec & Sc). exists c. split; [|done].
      apply elem_of_cons in Hc' as [->|]; [|done]. exfalso. apply Hne. unfold x. lia. }
    constructor; cbn [u_pg u_zone]; try apply I.
    + intros q [->|[Hq' _]]%Hel; [|by apply I]. split; [|split; [done|by exists kk]]. split; [done|]. split; [done|].
      intros y Hy. cbn [zp_used p'] in Hy. apply elem_of_list_filter in Hy as [_ Hy]. by apply P3.
    + rewrite list_fmap_insert. rewrite list_insert_id; [apply I|]. rewrite list_lookup_fmap, Hi1. done.
    + intros q y [->|[Hq' Hne]]%Hel Hy.
      * cbn [zp_used p'] in Hy. apply elem_of_list_filter in Hy as [Hne Hy]. by apply (Hrest p y).
      * apply (Hrest q y Hq' Hy). intros ->. apply Hne. destruct (us_zone _ _ _ I q Hq') as ((Q1 & Q2 & Q3) & _).
        destruct (slot_spec mb q x Q2 (Q3 x Hy)) as (kq & Eq & Hleq). eapply (page_same mb s _ q p x I Hq' Hp); unfold in_page; [lia|fold ps; lia].
    + intros c Hc'. destruct (us_blk _ _ _ I c ltac:(by right)) as [C1 C2 C3 C4 C5]. constructor; try done.
      * intros Sc. destruct (C4 Sc) as (q & Hq' & Cq & Uq). destruct (decide (q = p)) as [->|Hne].
        -- exists p'. split; [done|]. split; [done|]. cbn [zp_used p']. apply elem_of_list_filter. split; [|done].
           specialize (Hptr c Hc'). unfold x. lia.
        -- exists q. split; [|done]. cbn [u_zone]. apply elem_of_list_lookup in Hq' as [j Hj]. apply elem_of_list_lookup. exists j.
           rewrite list_lookup_insert_ne; [done|]. intros ->. congruence.
      * intros Sc a Ha. destruct (C5 Sc a Ha) as [M NP]. split; [exact M|]. intros q [->|[Hq' _]]%Hel; [|by apply NP]. exact (NP p Hp).
    + exact ND.
    + intros c d Hc' Hd. apply (us_big _ _ _ I); by right.
  - exists s. split; [done|]. split; [|split; [done|split; [done|intros X; by destruct Hs]]].
    destruct I as [H1 H2 H3 H4 H5 H6 H7 H8]. constructor; try done.
    + intros p x Hp Hx. destruct (H5 p x Hp Hx) as (c & Hc & Ec & Sc). exists c. split; [|done].
      apply elem_of_cons in Hc as [->|]; [by destruct Hs|done].
    + intros c Hc. apply H6. by right.
    + intros c d Hc Hd. apply H8; by right.
Qed.
Lemma dealloc_spec mb s live i b : usinv mb s live -> live !! i = Some b ->
  exists s', u_dealloc mb (Some (ub_ptr b - 16)) (ub_size b + 16) s = (Ok tt, s') /\ usinv mb s' (delete i live) /\ u_mem s' = u_mem s /\ u_pg s' = u_pg s /\
    (small b -> exists (j : nat) p, u_zone s !! j = Some p /\ zp_class p = class_of (ub_size b + 16) /\ ub_ptr b - 16 ∈ zp_used p /\
       u_zone s' = <[j := mkZp (zp_core p) (zp_aff p) (zp_class p) (zp_base p) (filter (fun y => y <> ub_ptr b - 16) (zp_used p))]> (u_zone s)).
Proof. intros I Hb. apply dealloc_cons. eapply usinv_perm; [|exact I]. by apply delete_Permutation. Qed.
