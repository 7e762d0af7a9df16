(** Proofs about histories of the C memory functions. *)
From Verif Require Import Base MemModel HeapModel HeapProofs PgModel PgSpec PgProofs UmModel UmSpec UmProofs.
From stdpp Require Import functions.
Open Scope N_scope.

Record winv (mb : N) (s : uh) (live : list ublk) (cs : contents) : Prop := {
  wi_s : usinv mb s live;
  wi_h : hinv (u_mem s) live;
  wi_c : Forall2 (holds (u_mem s)) live cs }.

Lemma holds_frame m m' b c : 16 <= ub_ptr b -> (forall a, full b a -> m' a = m a) -> holds m b c -> holds m' b c.
Proof.
  intros H16 Hf [HL HC]. split; [done|]. intros off v Hv. rewrite <- (HC off v Hv). apply Hf.
  apply lookup_lt_Some in Hv. unfold full. lia.
Qed.
Lemma header_frame m m' b : 16 <= ub_ptr b -> (forall a, full b a -> m' a = m a) -> get64 m' (ub_ptr b - 16) = get64 m (ub_ptr b - 16).
Proof. intros H16 H. apply get_frame. intros x Hx. apply H. unfold full. lia. Qed.
(** Changes inside one block leave the others alone. *)
Lemma frame_blocks mb s L b (m m' : N -> N) : usinv mb s L -> b ∈ L -> (forall a, ~ full b a -> m' a = m a) ->
  forall c, c ∈ L -> ub_ptr c <> ub_ptr b -> forall a, full c a -> m' a = m a.
Proof.
  intros I Hb Hf c Hc Hne a Fc. apply Hf. intros Fb. by apply (full_disj mb s L c b a I Hc Hb Hne).
Qed.
Lemma new_block mb s s' live nb cs c : winv mb s live cs -> usinv mb s' (live ++ [nb]) ->
  (forall a, ~ full nb a -> u_mem s' a = u_mem s a) -> get64 (u_mem s') (ub_ptr nb - 16) = ub_size nb + 16 -> holds (u_mem s') nb c ->
  winv mb s' (live ++ [nb]) (cs ++ [c]).
Proof.
  intros [I H C] I' Hf Hh Hc. assert (Hnb : nb ∈ live ++ [nb]) by set_solver.
  assert (Hold : forall d, d ∈ live -> 16 <= ub_ptr d /\ forall a, full d a -> u_mem s' a = u_mem s a).
  { intros d Hd. assert (Hd' : d ∈ live ++ [nb]) by set_solver. split; [apply (us_blk _ _ _ I' d Hd')|].
    intros a Fa. eapply (frame_blocks mb s' _ nb); [exact I'|done|done|exact Hd'| |exact Fa].
    pose proof (us_ptrs _ _ _ I') as ND. rewrite fmap_app in ND. apply NoDup_app in ND as (_ & ND & _).
    intros E. apply (ND (ub_ptr d)); [by apply elem_of_list_fmap_1|]. rewrite E. by apply elem_of_list_singleton. }
  constructor; [done| |].
  - intros d [Hd|Hd]%elem_of_app.
    + destruct (Hold d Hd) as [? ?]. rewrite (header_frame (u_mem s)); [by apply H|done|done].
    + apply elem_of_list_singleton in Hd as ->. exact Hh.
  - apply Forall2_app; [|by constructor]. apply Forall2_same_length_lookup. split; [by eapply Forall2_length|].
    intros i d e Hd He. destruct (Hold d (elem_of_list_lookup_2 _ _ _ Hd)) as [? ?].
    eapply holds_frame; [done|eassumption|]. by eapply Forall2_lookup_lr.
Qed.

Lemma usize_ok chk n : n < 2 ^ 64 -> usize chk n = Ok n.
Proof. intros H. unfold usize. by rewrite decide_True. Qed.
Lemma align8 : align_ok 8.
Proof. by exists 3. Qed.
Lemma fresh_length n : length (unknown n) = N.to_nat n.
Proof. apply replicate_length. Qed.
Lemma fresh_holds m p n : holds m (mkUb p n) (unknown n).
Proof.
  split; [apply fresh_length|]. intros off v H. unfold unknown in H. apply lookup_replicate in H as [? _]. done.
Qed.
Lemma len_app_ne (live : list ublk) b : bool_decide (length (live ++ [b]) = length live) = false.
Proof. apply bool_decide_eq_false_2. rewrite app_length. simpl. lia. Qed.
Lemma len_same (live : list ublk) : bool_decide (length live = length live) = true.
Proof. by apply bool_decide_eq_true_2. Qed.

(** A function that allocates a fresh block of [n] bytes. *)
Lemma fresh_block chk mb core n align kss c1 c2 s live cs s' b : mb_fits mb -> winv mb s live cs -> 16 <= n ->
  size_ok s core kss (n - 16) -> align_ok align ->
  with_header n (u_alloc chk mb core n align kss c1 c2 s) = (Ok (Some b), s') ->
  winv mb s' (live ++ [mkUb b (n - 16)]) (cs ++ [unknown (n - 16)]).
Proof.
  intros Hmb W Hn Hs Ha E. pose proof (alloc_spec chk mb core n align kss c1 c2 s live Hmb (wi_s _ _ _ _ W) Hn Hs Ha) as A.
  destruct (u_alloc chk mb core n align kss c1 c2 s) as [r s1]. unfold with_header in E. destruct r as [[x|]| |]; [|done..].
  injection E as <- <-. destruct A as [I M]. unfold HEADER. eapply new_block; [exact W|by apply usinv_mem| | |apply fresh_holds]; cbn [u_mem ub_ptr ub_size].
  - intros a Ha'. rewrite put_frame; [by rewrite M|]. unfold full in Ha'. cbn [ub_ptr ub_size] in Ha'. lia.
  - replace (x + 16 - 16) with x by lia. rewrite get_put; [lia|]. destruct Hs as [Hs _]. lia.
Qed.
Lemma no_block chk mb core n align kss c1 c2 s live cs s' : mb_fits mb -> winv mb s live cs -> 16 <= n ->
  size_ok s core kss (n - 16) -> align_ok align ->
  with_header n (u_alloc chk mb core n align kss c1 c2 s) = (Ok None, s') -> winv mb s' live cs.
Proof.
  intros Hmb W Hn Hs Ha E. pose proof (alloc_spec chk mb core n align kss c1 c2 s live Hmb (wi_s _ _ _ _ W) Hn Hs Ha) as A.
  destruct (u_alloc chk mb core n align kss c1 c2 s) as [r s1]. unfold with_header in E. destruct r as [[x|]| |]; try done.
  injection E as <-. destruct A as [I M]. destruct W as [W1 W2 W3]. constructor; [done|by rewrite M|by rewrite M].
Qed.

(** A block of another size at the same address. *)
Lemma resize_cons mb s b rest n : usinv mb s (b :: rest) -> small b -> n + 16 <= class_of (ub_size b + 16) ->
  class_of (n + 16) = class_of (ub_size b + 16) -> usinv mb s (mkUb (ub_ptr b) n :: rest).
Proof.
  intros I Sb Hn Hc. set (b' := mkUb (ub_ptr b) n).
  assert (HM : class_of (ub_size b + 16) <= MAX_ZONE) by (pose proof (class_mono _ _ Sb) as X; change (class_of MAX_ZONE) with MAX_ZONE in X; exact X).
  assert (Sb' : small b') by (unfold small; cbn [ub_size b']; lia).
  destruct I as [H1 H2 H3 H4 H5 H6 H7 H8]. constructor; try done.
  - intros p x Hp Hx. destruct (H5 p x Hp Hx) as (c & Hc' & Ec & Sc). apply elem_of_cons in Hc' as [->|Hc'].
    + exists b'. split; [left|done].
    + exists c. split; [by right|done].
  - intros c [->|Hc']%elem_of_cons; [|apply H6; by right]. destruct (H6 b ltac:(left)) as [B1 B2 B3 B4 B5].
    constructor; cbn [ub_ptr ub_size b']; [done| |done| |].
    + unfold MAX_ZONE in HM. assert (131072 < 2 ^ 64) by done. lia.
    + intros _. rewrite Hc. by apply B4.
    + intros X. by destruct X.
  - intros c d Hc' Hd Hne Sc Sd. assert (c <> b') by (intros ->; done). assert (d <> b') by (intros ->; done).
    apply H8; [set_solver|set_solver|done|done|done].
Qed.
Lemma insert_perm {A} (l : list A) i b x : l !! i = Some b -> <[i := x]> l ≡ₚ x :: delete i l.
Proof.
  intros H. pose proof (lookup_lt_Some _ _ _ H). rewrite insert_take_drop by done. rewrite delete_take_drop. by rewrite Permutation_middle.
Qed.
Lemma alter_const {A} (l : list A) i x : alter (fun _ => x) i l = <[i := x]> l.
Proof. revert i. induction l as [|y l IH]; intros [|i]; simpl; [done..|]. by rewrite <- IH. Qed.

(** Replacing block [i]. *)
Lemma replace_block mb s s' live cs i b nb f : winv mb s live cs -> live !! i = Some b -> usinv mb s' (<[i := nb]> live) ->
  (forall d, d ∈ delete i live -> forall a, full d a -> u_mem s' a = u_mem s a) ->
  get64 (u_mem s') (ub_ptr nb - 16) = ub_size nb + 16 ->
  (forall c, holds (u_mem s) b c -> holds (u_mem s') nb (f c)) ->
  winv mb s' (<[i := nb]> live) (alter f i cs).
Proof.
  intros [I H C] Hb I' Hf Hh Hc. pose proof (lookup_lt_Some _ _ _ Hb) as Hlt.
  assert (Hdel : forall j d, j <> i -> live !! j = Some d -> d ∈ delete i live).
  { intros j d Hj Hd. apply elem_of_list_lookup. destruct (decide (j < i)%nat).
    - exists j. by rewrite lookup_delete_lt.
    - exists (j - 1)%nat. rewrite lookup_delete_ge by lia. by replace (S (j - 1)) with j by lia. }
  constructor; [done| |].
  - intros d Hd. apply elem_of_list_lookup in Hd as [j Hj]. destruct (decide (j = i)) as [->|Hji].
    + rewrite list_lookup_insert in Hj by done. injection Hj as <-. exact Hh.
    + rewrite list_lookup_insert_ne in Hj by done. pose proof (elem_of_list_lookup_2 _ _ _ Hj) as Hd.
      rewrite (header_frame (u_mem s)); [by apply H|apply (us_blk _ _ _ I d Hd)|apply Hf; by apply (Hdel j)].
  - apply Forall2_same_length_lookup. split; [rewrite insert_length, alter_length; by eapply Forall2_length|].
    intros j d e Hd He. destruct (decide (j = i)) as [->|Hji].
    + rewrite list_lookup_insert in Hd by done. injection Hd as <-. rewrite list_lookup_alter in He.
      destruct (cs !! i) as [c|] eqn:Ec; [|done]. injection He as <-. apply Hc. by eapply Forall2_lookup_lr.
    + rewrite list_lookup_insert_ne in Hd by done. rewrite list_lookup_alter_ne in He by done.
      eapply holds_frame; [apply (us_blk _ _ _ I d (elem_of_list_lookup_2 _ _ _ Hd))|apply Hf; by apply (Hdel j)|by eapply Forall2_lookup_lr].
Qed.
Lemma resized_length n c : length (resized n c) = N.to_nat n.
Proof. unfold resized. rewrite app_length, take_length, replicate_length. lia. Qed.
Lemma resized_lookup n c k v : resized n c !! k = Some (Some v) -> c !! k = Some (Some v) /\ (k < N.to_nat n)%nat.
Proof.
  intros H. pose proof (lookup_lt_Some _ _ _ H) as L. rewrite resized_length in L. split; [|done]. unfold resized in H.
  apply lookup_app_Some in H as [H|[_ H]]; [|by apply lookup_replicate in H as [? _]].
  by rewrite lookup_take in H.
Qed.

Lemma realloc_step chk mb core i size kss c1 c2 s live cs b p s' : mb_fits mb -> winv mb s live cs -> live !! i = Some b ->
  size_ok s core kss size -> class_kept live i size ->
  c_realloc chk mb core (Some (ub_ptr b)) size kss c1 c2 s = (Ok (Some p), s') ->
  winv mb s' (<[i := mkUb p size]> live) (alter (resized size) i cs).
Proof.
  intros Hmb W Hb Hs Hk E. pose proof (elem_of_list_lookup_2 _ _ _ Hb) as Hin. unfold c_realloc, HEADER in E.
  rewrite (wi_h _ _ _ _ W b Hin) in E. rewrite usize_ok in E by apply Hs. unfold u_realloc in E.
  destruct (us_blk _ _ _ (wi_s _ _ _ _ W) b Hin) as [B1 B2 B3 B4 B5].
  destruct (decide (ub_size b + 16 <= MAX_ZONE /\ size + 16 <= class_of (ub_size b + 16))) as [[Sb Hc]|Hslow].
  - cbn [with_header] in E. unfold HEADER in E. injection E as <- <-. replace (ub_ptr b - 16 + 16) with (ub_ptr b) by lia.
    apply (replace_block mb s _ live cs i b); [done|done| | | |]; cbn [u_mem ub_ptr ub_size].
    + apply usinv_mem. eapply usinv_perm; [symmetry; by apply (insert_perm _ _ b)|]. apply resize_cons; [|done|done|by apply Hk].
      eapply usinv_perm; [by apply delete_Permutation|apply W].
    + intros d Hd a Fa. apply put_frame. intros Ha.
      assert (Wp : usinv mb s (b :: delete i live)) by (eapply usinv_perm; [by apply delete_Permutation|apply W]).
      pose proof (us_ptrs _ _ _ Wp) as ND. rewrite fmap_cons in ND. apply stdpp.list.NoDup_cons in ND as [Nb _].
      apply (full_disj mb s (b :: delete i live) d b a Wp); [by right|left| |].
      * intros Ed. apply Nb. rewrite <- Ed. by apply elem_of_list_fmap_1.
      * split; [done|]. unfold full. lia.
    + apply get_put. apply Hs.
    + intros c [HL HC]. split; [apply resized_length|]. intros off v Hv. apply resized_lookup in Hv as [Hv _]. cbn [ub_ptr].
      rewrite put_frame by lia. by apply HC.
  - pose proof (alloc_spec chk mb core (size + 16) 8 kss c1 c2 s live Hmb (wi_s _ _ _ _ W) ltac:(lia)) as A.
    replace (size + 16 - 16) with size in A by lia. specialize (A Hs align8).
    destruct (u_alloc chk mb core (size + 16) 8 kss c1 c2 s) as [r s1]. destruct r as [[q|]|e|]; [|done..]. destruct A as [I1 M1].
    cbv zeta in E. set (m := copy (ub_ptr b - 16) q (N.min (ub_size b + 16) (size + 16)) (u_mem s1)) in *.
    set (nb := mkUb (q + 16) size) in *.
    assert (Hb1 : (live ++ [nb]) !! i = Some b) by (by apply lookup_app_l_Some).
    destruct (dealloc_spec mb (mkUh (u_pg s1) (u_zone s1) m) (live ++ [nb]) i b) as (s2 & Ed & I2 & M2 & _); [by apply usinv_mem|done|].
    rewrite Ed in E. cbn [with_header] in E. unfold HEADER in E. injection E as <- <-. cbn [u_mem] in M2.
    assert (Hdi : delete i (live ++ [nb]) = delete i live ++ [nb]).
    { rewrite !delete_take_drop. pose proof (lookup_lt_Some _ _ _ Hb). rewrite take_app_le by lia. rewrite drop_app_le by lia. by rewrite app_assoc. }
    assert (I3 : usinv mb s2 (<[i := nb]> live)).
    { eapply usinv_perm; [|exact I2]. rewrite Hdi, (insert_perm live i b nb Hb). symmetry. apply Permutation_cons_append. }
    assert (Hnb : nb ∈ live ++ [nb]) by set_solver.
    assert (Hold : forall d, d ∈ live -> forall a, full d a -> ~ full nb a).
    { intros d Hd a Fd Fn. apply (full_disj mb s1 (live ++ [nb]) d nb a I1); [set_solver|done| |done].
      pose proof (us_ptrs _ _ _ I1) as ND. rewrite fmap_app in ND. apply NoDup_app in ND as (_ & ND & _).
      intros Ex. apply (ND (ub_ptr d)); [by apply elem_of_list_fmap_1|]. rewrite Ex. by apply elem_of_list_singleton. }
    assert (Hmem : forall a, ~ full nb a -> put64 q (size + 16) (u_mem s2) a = u_mem s a).
    { intros a Ha. rewrite M2. unfold full in Ha. cbn [ub_ptr ub_size nb] in Ha. rewrite put_frame by lia. unfold m, copy. rewrite decide_False by lia. by rewrite M1. }
    apply (replace_block mb s _ live cs i b); [done|done| | | |]; cbn [u_mem ub_ptr ub_size nb].
    + by apply usinv_mem.
    + intros d Hd a Fa. apply Hmem. apply (Hold d); [|done]. eapply elem_of_submseteq; [exact Hd|apply submseteq_delete].
    + replace (q + 16 - 16) with q by lia. apply get_put. apply Hs.
    + intros c [HL HC]. split; [apply resized_length|]. intros off v Hv. apply resized_lookup in Hv as [Hv Hn]. cbn [ub_ptr nb].
      rewrite put_frame by lia. rewrite M2. unfold m, copy. apply lookup_lt_Some in Hv as Hl.
      rewrite decide_True by lia. rewrite M1. rewrite <- (HC off v Hv). f_equal. lia.
Qed.

Lemma delete_block mb s s' live cs i b : winv mb s live cs -> live !! i = Some b -> usinv mb s' (delete i live) -> u_mem s' = u_mem s ->
  winv mb s' (delete i live) (delete i cs).
Proof.
  intros [I H C] Hb I' M. constructor; [done| |]; rewrite M.
  - intros d Hd. apply H. eapply elem_of_submseteq; [exact Hd|apply submseteq_delete].
  - by apply Forall2_delete.
Qed.

Lemma step_inv chk mb s live cs op s' live' : mb_fits mb -> winv mb s live cs -> uop_ok (s, live) op ->
  ustep chk mb (s, live) op = Some (s', live') -> winv mb s' live' (cstep (bool_decide (length live' = length live)) cs op).
Proof.
  intros Hmb W G. destruct op as [c size kss c1 c2|c nmem size kss c1 c2|c align size kss c1 c2|c i size kss c1 c2|c size kss c1 c2|i| |i off v];
    cbn [ustep cstep uop_ok fst snd] in *.
  - assert (Hn : size + 16 - 16 = size) by lia. unfold c_malloc, HEADER. rewrite usize_ok by apply G. unfold take_block.
    destruct (with_header _ _) as [[[p|]|e|] s1] eqn:E; intros [= <- <-].
    + rewrite len_app_ne. apply fresh_block with (live := live) (cs := cs) in E; [by rewrite Hn in E|done|done|lia|by rewrite Hn|apply align8].
    + rewrite len_same. by eapply no_block in E; [|done|done|lia|rewrite Hn|apply align8].
  - assert (Hn : nmem * size + 16 - 16 = nmem * size) by lia. unfold c_calloc, HEADER. rewrite usize_ok by (destruct G; lia). rewrite usize_ok by apply G. unfold take_block.
    pose proof (alloc_spec chk mb c (nmem * size + 16) 8 kss c1 c2 s live Hmb (wi_s _ _ _ _ W) ltac:(lia)) as A. rewrite Hn in A. specialize (A G align8).
    destruct (u_alloc _ _ _ _ _ _ _ _ _) as [[[x|]|e|] s1]; cbn [with_header]; intros [= <- <-]; destruct A as [I M].
    + rewrite len_app_ne. unfold HEADER. eapply new_block; [exact W|by apply usinv_mem| | |]; cbn [u_mem u_pg u_zone ub_ptr ub_size].
      * intros a Ha'. unfold full in Ha'. cbn [ub_ptr ub_size] in Ha'. rewrite put_frame by lia. unfold zero. rewrite decide_False by lia. by rewrite M.
      * replace (x + 16 - 16) with x by lia. apply get_put. apply G.
      * split; [by rewrite replicate_length|]. intros off v Hv. cbn [ub_ptr]. apply lookup_replicate in Hv as [Ev Ho]. assert (v = 0) as -> by congruence. clear Ev.
        rewrite put_frame by lia. unfold zero. by rewrite decide_True by lia.
    + rewrite len_same. destruct W as [W1 W2 W3]. constructor; [done|by rewrite M|by rewrite M].
  - destruct G as [G (k & Hk & ->)]. assert (Hn : size + 16 - 16 = size) by lia. unfold c_memalign, HEADER. rewrite usize_ok by apply G. unfold take_block.
    assert (Ha : align_ok (N.max (2 ^ k) 8)).
    { destruct (decide (3 <= k)).
      - exists k. split; [done|]. apply N.max_l. change 8 with (2 ^ 3). by apply N.pow_le_mono_r.
      - exists 3. split; [done|]. apply N.max_r. change 8 with (2 ^ 3). apply N.pow_le_mono_r; lia. }
    destruct (with_header _ _) as [[[p|]|e|] s1] eqn:E; intros [= <- <-].
    + rewrite len_app_ne. apply fresh_block with (live := live) (cs := cs) in E; [by rewrite Hn in E|done|done|lia|by rewrite Hn|done].
    + rewrite len_same. by eapply no_block in E; [|done|done|lia|rewrite Hn|].
  - destruct G as [G K]. destruct (live !! i) as [b|] eqn:Hb; [|done].
    destruct (c_realloc _ _ _ _ _ _ _ _ _) as [[[p|]|e|] s1] eqn:E; intros [= <- <-].
    + by eapply realloc_step.
    + exfalso. unfold c_realloc in E. destruct (usize chk _) as [n| |]; [|done..].
      by destruct (with_header _ _) as [[[p|]|e|] s2].
  - assert (Hn : size + 16 - 16 = size) by lia. unfold c_realloc, HEADER. rewrite usize_ok by apply G. unfold u_realloc.
    rewrite decide_False. 2:{ change (class_of 0) with 8. lia. }
    pose proof (alloc_spec chk mb c (size + 16) 8 kss c1 c2 s live Hmb (wi_s _ _ _ _ W) ltac:(lia)) as A. rewrite Hn in A. specialize (A G align8).
    destruct (u_alloc _ _ _ _ _ _ _ _ _) as [[[x|]|e|] s1]; cbn [with_header u_mem u_pg u_zone take_block]; try done.
    change (u_dealloc mb None 0 (mkUh (u_pg s1) (u_zone s1) (u_mem s1))) with (Ok tt, mkUh (u_pg s1) (u_zone s1) (u_mem s1)).
    cbn [with_header u_mem u_pg u_zone take_block]. intros [= <- <-]. destruct A as [I M].
    rewrite len_app_ne. unfold HEADER. eapply new_block; [exact W|by apply usinv_mem| | |apply fresh_holds]; cbn [u_mem u_pg u_zone ub_ptr ub_size].
    * intros a Ha'. unfold full in Ha'. cbn [ub_ptr ub_size] in Ha'. rewrite put_frame by lia. by rewrite M.
    * replace (x + 16 - 16) with x by lia. apply get_put. apply G.
  - destruct (live !! i) as [b|] eqn:Hb; [|done]. unfold c_free, HEADER. pose proof (elem_of_list_lookup_2 _ _ _ Hb) as Hin.
    rewrite (wi_h _ _ _ _ W b Hin). destruct (dealloc_spec mb s live i b (wi_s _ _ _ _ W) Hb) as (s2 & -> & I2 & M2 & _).
    intros [= <- <-]. by eapply delete_block.
  - by intros [= <- <-].
  - destruct (live !! i) as [b|] eqn:Hb; [|done]. destruct (decide (off < ub_size b)) as [Ho|Ho]; [|done]. intros [= <- <-].
    pose proof (elem_of_list_lookup_2 _ _ _ Hb) as Hin. destruct (us_blk _ _ _ (wi_s _ _ _ _ W) b Hin) as [B1 B2 B3 B4 B5].
    replace live with (<[i := b]> live) at 1 by (by apply list_insert_id). apply (replace_block mb s _ live cs i b); [done|done| | | |]; cbn [u_mem].
    + rewrite list_insert_id by done. apply usinv_mem, W.
    + intros d Hd a Fa. rewrite decide_False; [done|]. intros ->.
      assert (Wp : usinv mb s (b :: delete i live)) by (eapply usinv_perm; [by apply delete_Permutation|apply W]).
      pose proof (us_ptrs _ _ _ Wp) as ND. rewrite fmap_cons in ND. apply stdpp.list.NoDup_cons in ND as [Nb _].
      apply (full_disj mb s (b :: delete i live) d b (ub_ptr b + off) Wp); [by right|left| |].
      * intros Ed. apply Nb. rewrite <- Ed. by apply elem_of_list_fmap_1.
      * split; [done|]. unfold full. lia.
    + rewrite <- (wi_h _ _ _ _ W b Hin). apply get_frame. intros x Hx. rewrite decide_False by lia. done.
    + intros c [HL HC]. split; [by rewrite insert_length|]. intros o w Hw. destruct (decide (o = off)) as [->|Hne].
      * rewrite list_lookup_insert in Hw by lia. injection Hw as <-. by rewrite decide_True.
      * rewrite list_lookup_insert_ne in Hw by lia. rewrite decide_False by lia. by apply HC.
Qed.

Lemma winv_init mb : winv mb uh_init [] [].
Proof.
  constructor; [|intros b Hb; by apply elem_of_nil in Hb|constructor]. constructor; cbn [u_pg u_zone uh_init].
  - apply pinv_init.
  - apply pinv2_init.
  - intros p Hp. by apply elem_of_nil in Hp.
  - constructor.
  - intros p x Hp. by apply elem_of_nil in Hp.
  - intros b Hb. by apply elem_of_nil in Hb.
  - constructor.
  - intros b c Hb. by apply elem_of_nil in Hb.
Qed.
Lemma run_inv chk mb ops : mb_fits mb -> forall s live cs s' live', winv mb s live cs -> ualong uop_ok chk mb (s, live) ops ->
  urun chk mb (s, live) ops = Some (s', live') -> winv mb s' live' (crun chk mb (s, live) cs ops).
Proof.
  intros Hmb. induction ops as [|op ops IH]; intros s live cs s' live' W G E; cbn [urun ualong crun] in *; [by injection E as <- <-|].
  destruct G as [G1 G2]. destruct (ustep chk mb (s, live) op) as [[s1 live1]|] eqn:E1; [|done].
  apply IH; [|done|done]. cbn [snd]. by eapply step_inv.
Qed.
