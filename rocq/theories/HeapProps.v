(** C47, C48, C49: the kernel heap. *)
From Verif Require Import Base MemModel MemSpec MemProofs BootModel BootSpec BootProofs HeapModel HeapSpec HeapProofs HeapProofs2 HeapProofs3 HeapProofs4.
Open Scope N_scope.

(** ** C47 *)
(** In every history of allocations, frees and resizes on any cores, with any choices
    of the slab allocator and changes of the selected node: each block is aligned as
    asked; each of its bytes is backed by memory that was free at the start and is not
    free now; and no two bytes, of the same block or of two blocks, are backed by the
    same memory.

    Missing for the full property: small blocks must not be shrunk in place to another
    size class ([keeps_class]); without that it is false
    ([C47_heap_blocks_disjoint_refuted]). *)
Theorem C47_heap_blocks_disjoint_partial h0 ops h live :
  heap_init h0 -> along (fun st op => layout_ok op /\ keeps_class st.2 op) (h0, []) ops ->
  hrun (h0, []) ops = Some (h, live) ->
  (forall i b, live !! i = Some b -> b_ptr b mod b_align b = 0 /\
     forall off, off < b_size b -> exists a, translate h (b_ptr b + off) = Some a /\
       (exists f, f ∈ all_free h0 /\ covers f a) /\ (forall f, f ∈ all_free h -> ~ covers f a)) /\
  (forall i j b c off off' a, live !! i = Some b -> live !! j = Some c -> off < b_size b -> off' < b_size c ->
     translate h (b_ptr b + off) = Some a -> translate h (b_ptr c + off') = Some a -> i = j /\ off = off').
Proof.
  intros Hi Ha Hr. destruct (init_once false h0 Hi) as [Ho Hl].
  destruct (reach false h0 ops h live Hi) as [Hg _]; [|done|].
  { eapply along_impl; [|exact Ha]. intros st op [H1 H2]. split; [done|]. split; [done|]. done. }
  destruct (ginv_disjoint false _ h live Hg Ho Hl) as [D1 D2]. split; [|exact D2].
  intros i b Hib. destruct (D1 i b Hib) as [D3 D4]. split; [done|]. intros off Hoff.
  destruct (D4 off Hoff) as (a & A1 & A2 & A3 & _). exists a. split; [done|]. split; [|done].
  rewrite covP_all in A2. destruct (cov_elem (all_free h0) a) as (f & Hf & Hc); [lia|]. exists f. done.
Qed.
Print Assumptions C47_heap_blocks_disjoint_partial.

(** ** C48 *)
(** If large blocks are freed on cores that have their node selected: every byte of a
    block is memory of the node that was selected when it was allocated, and all free
    memory is in caches of the node it belongs to.

    Missing: [frees_home], without which it is false
    ([C48_blocks_on_selected_node_refuted]), and [keeps_class] as in C47. *)
Theorem C48_blocks_on_selected_node_partial h0 ops h live :
  heap_init h0 -> along (fun st op => layout_ok op /\ keeps_class st.2 op /\ frees_home st op) (h0, []) ops ->
  hrun (h0, []) ops = Some (h, live) ->
  (forall b off, b ∈ live -> off < b_size b -> exists a f, translate h (b_ptr b + off) = Some a /\
     f ∈ all_free h0 /\ covers f a /\ f_aff f = b_node b) /\
  (forall f a, f ∈ all_free h -> covers f a -> exists g, g ∈ all_free h0 /\ covers g a /\ f_aff g = f_aff f).
Proof.
  intros Hi Ha Hr. destruct (init_once true h0 Hi) as [Ho Hl].
  destruct (reach true h0 ops h live Hi) as [Hg _]; [|done|].
  { eapply along_impl; [|exact Ha]. intros st op (H1 & H2 & H3). split; [done|]. split; [done|]. done. }
  split.
  - intros b off Hb Hoff. apply elem_of_list_lookup in Hb as [i Hib].
    destruct (ginv_disjoint true _ h live Hg Ho Hl) as [D1 _]. destruct (D1 i b Hib) as [_ D4].
    destruct (D4 off Hoff) as (a & A1 & _ & _ & A4). specialize (A4 eq_refl). cbn beta in A4.
    destruct (covP_elem (fun n => bool_decide (n = b_node b)) (all_free h0) a) as (f & F1 & F2 & F3); [lia|].
    exists a, f. split; [done|]. split; [done|]. split; [done|]. by apply bool_decide_eq_true in F3.
  - intros f a Hf Hc.
    pose proof (g_cov _ _ _ _ Hg (fun n => bool_decide (n = f_aff f)) a (or_introl eq_refl)) as Hcov. cbn beta in Hcov.
    unfold gall in Hcov. rewrite covP_app in Hcov.
    pose proof (covP_ge_elem (fun n => bool_decide (n = f_aff f)) (all_free h) f a Hf Hc ltac:(by apply bool_decide_eq_true)).
    destruct (covP_elem (fun n => bool_decide (n = f_aff f)) (all_free h0) a) as (g & F1 & F2 & F3); [lia|].
    exists g. split; [done|]. split; [done|]. by apply bool_decide_eq_true in F3.
Qed.
Print Assumptions C48_blocks_on_selected_node_partial.

(** Selecting a node never panics, selects it, and fails without effect exactly if
    there is no such node. *)
Theorem C48_select_node h0 ops h live c co node r h' :
  heap_init h0 -> along (fun st op => layout_ok op /\ keeps_class st.2 op) (h0, []) ops ->
  hrun (h0, []) ops = Some (h, live) -> hp_cores h !! c = Some co ->
  k_affinity h c node = (r, h') ->
  (r = Ok true /\ node_of h' c = node /\ (forall c', c' <> c -> node_of h' c' = node_of h c')) \/
  (r = Ok false /\ h' = h /\ node_of h c <> node /\ ~ (node < N.of_nat (length (co_arenas co)) /\ node < N.max 1 (hp_nodes h))).
Proof.
  intros Hi Ha Hr Hc E.
  destruct (reach false h0 ops h live Hi) as [Hg Haf]; [|done|].
  { eapply along_impl; [|exact Ha]. intros st op [H1 H2]. split; [done|]. split; [done|]. done. }
  destruct (affs_affinity _ _ _ _ _ _ _ _ Hg Haf E) as [_ Hok]. destruct Hok as [x Hx]; [by eexists|]. subst r.
  unfold k_affinity in E. rewrite Hc in E.
  destruct (set_affinity (hp_nodes h) node co) as [r co'] eqn:Es. injection E as -> <-.
  destruct (swap_frames _ _ _ _ _ (g_core _ _ _ _ Hg c co Hc) Es) as (_ & _ & W1 & W2 & W3).
  assert (Hlt : (c < length (hp_cores h))%nat) by (by eapply lookup_lt_Some).
  destruct x.
  - left. split; [done|]. unfold node_of. cbn [hp_cores]. split.
    + rewrite list_lookup_insert by done. by apply W1.
    + intros c' Hne. by rewrite list_lookup_insert_ne by done.
  - right. split; [done|]. rewrite (W2 ltac:(discriminate)). split.
    { rewrite list_insert_id by done. by destruct h. }
    destruct (proj1 W3 eq_refl) as [W4 W5]. unfold node_of. rewrite Hc. done.
Qed.
Print Assumptions C48_select_node.

(** ** C49 *)
(** A page of the kind that serves requests of a size is at hand: in the core's
    cache or in the cache of the node it has selected. *)
Definition page_at_hand (h : heap) (co : core) (size : N) : Prop :=
  exists nc, hp_nc h !! N.to_nat (ar_aff (co_cur co)) = Some nc /\
    if decide (size <= hp_mb h) then mc_base (ar_pm (co_cur co)) <> [] \/ mc_base nc <> []
    else mc_large (ar_pm (co_cur co)) <> [] \/ mc_large nc <> [].
(** Requests of up to 2 MiB never panic.  Above 128 KiB they succeed if a page is at
    hand, and below if, moreover, the slab allocator uses the page it is given: for
    every answer to its first question there is one to the second with which the
    request succeeds. *)
Theorem C49_heap_alloc_progress_partial h0 ops h live c co size align nt ch r h' :
  heap_init h0 -> along (fun st op => layout_ok op /\ keeps_class st.2 op) (h0, []) ops ->
  hrun (h0, []) ops = Some (h, live) -> hp_cores h !! c = Some co ->
  0 < size <= 2097152 -> 0 < align -> 4096 mod align = 0 ->
  k_alloc h c size align nt ch = (r, h') ->
  (exists p, r = Ok p) /\
  (131072 < size -> page_at_hand h co size -> exists p, r = Ok (Some p)) /\
  (size <= 131072 -> page_at_hand h co size -> forall o, exists o2 p h2, k_alloc h c size align nt [o; o2] = (Ok (Some p), h2)).
Proof.
  intros Hi Ha Hr Hc Hs Hal Hdiv E. destruct (init_once false h0 Hi) as [Ho Hl].
  destruct (reach false h0 ops h live Hi) as [Hg Haf]; [|done|].
  { eapply along_impl; [|exact Ha]. intros st op [H1 H2]. split; [done|]. split; [done|]. done. }
  assert (Hmb2 : hp_mb h <= 2048).
  { assert (Hmbeq : hp_mb h = hp_mb h0).
    { clear -Hr. revert Hr. generalize (@nil blk). revert h0. induction ops as [|op ops IH]; intros h0 L Hr; cbn [hrun] in Hr; [by injection Hr as -> _|].
      destruct (hstep (h0, L) op) as [[h1 L1]|] eqn:Es; [|done]. rewrite (IH _ _ Hr).
      clear -Es. destruct op as [c size align nt ch|c i|c i n nt ch|c node]; cbn [hstep] in Es;
        unfold k_alloc, k_dealloc, k_realloc, k_affinity, on_core in Es;
        repeat (case_match; simplify_eq/=; try done). }
    rewrite Hmbeq. destruct (hi_mb _ Hi) as (k & [_ Hk] & ->). change 2048 with (2 ^ 11). by apply N.pow_le_mono_r. }
  assert (Hon : forall ch, exists nc K', hp_nc h !! N.to_nat (ar_aff (co_cur co)) = Some nc /\
     linv false (hp_mb h) K' (view h co nc) live /\ once false K' /\ ar_aff (co_cur co) = mc_node (l_pm (view h co nc)) /\
     k_alloc h c size align nt ch = (let '(r, s) := alloc (hp_mb h) c (ar_aff (co_cur co)) size align nt ch (view h co nc) in (r, upd h c co s))).
  { intros ch'. destruct (on_core_view false _ h live c (fun aff => alloc (hp_mb h) c aff size align nt ch') co Hg Haf Hc) as (nc & Hn & Eon).
    destruct (ginv_on _ _ _ _ _ _ _ Hg Hc Hn) as (K' & L1 & L2 & L3 & _). exists nc, K'. split; [done|]. split; [done|].
    split; [intros a; specialize (Ho a); specialize (L2 a); cbn beta in *; lia|]. split; [done|]. exact Eon. }
  assert (HMZ : MAX_ZONE = 131072) by done. assert (HLP : LARGE_PAGE = 2097152) by done.
  pose proof (g_mb _ _ _ _ Hg) as Hmb.
  split; [|split].
  - destruct (Hon ch) as (nc & K' & Hn & L1 & L2 & L3 & Ek). rewrite Ek in E. clear Ek.
    unfold alloc in E. destruct (decide (size <= MAX_ZONE)); [|rewrite decide_True in E by lia].
    + pose proof (alloc_zone_spec false (hp_mb h) _ c (ar_aff (co_cur co)) size align 3 ch (view h co nc) Hmb (li_s _ _ _ _ _ L1) (linv_once _ _ _ _ _ L1 L2) L3) as Hz.
      destruct (alloc_zone 3 (hp_mb h) c (ar_aff (co_cur co)) size align ch (view h co nc)) as [[r2 ch2] s2]. destruct Hz as (_ & _ & Hz).
      injection E as <- <-. destruct r2 as [p|e|]; [by exists p|done|done].
    + pose proof (alloc_large_block false (hp_mb h) _ 3 (view h co nc) (li_s _ _ _ _ _ L1)) as Hz.
      destruct (alloc_large 3 (view h co nc)) as [r2 s2]. destruct Hz as (_ & Hz).
      injection E as <- <-. destruct r2 as [p|e|]; [by exists p|done|done].
  - intros Hbig (nc' & Hn' & Hav). destruct (Hon ch) as (nc & K' & Hn & L1 & L2 & L3 & Ek). rewrite Ek in E. clear Ek.
    assert (nc' = nc) as -> by congruence. rewrite decide_False in Hav by lia.
    unfold alloc in E. rewrite decide_False in E by lia. rewrite decide_True in E by lia.
    destruct (alloc_large_progress _ _ _ _ (li_s _ _ _ _ _ L1)) as (p & s' & Ep).
    { destruct Hav as [Hav|Hav]; [left|by right]. unfold freel. cbn [view l_pm]. destruct (mc_large (ar_pm (co_cur co))); [done|cbn; lia]. }
    rewrite Ep in E. injection E as <- <-. by exists p.
  - intros Hsm (nc' & Hn' & Hav) o.
    destruct (Hon ch) as (nc & K' & Hn & L1 & L2 & L3 & _). assert (nc' = nc) as -> by congruence.
    destruct (alloc_zone_progress false (hp_mb h) _ c (ar_aff (co_cur co)) size align o (view h co nc) Hmb2 Hmb (li_s _ _ _ _ _ L1) (linv_once _ _ _ _ _ L1 L2) L3 ltac:(lia) Hal Hdiv)
      as (o2 & p & ch2 & s' & Ep).
    { unfold freeb, freel. cbn [view l_pm l_nc]. case_decide; (destruct Hav as [Hav|Hav]; [left|by right]).
      - destruct (mc_base (ar_pm (co_cur co))); [done|cbn; lia].
      - destruct (mc_large (ar_pm (co_cur co))); [done|cbn; lia]. }
    destruct (Hon [o; o2]) as (nc2 & K2 & Hn2 & _ & _ & _ & Ek). assert (nc2 = nc) as -> by congruence.
    exists o2, p, (upd h c co s'). rewrite Ek. unfold alloc. rewrite decide_True by lia. rewrite Ep. done.
Qed.
Print Assumptions C49_heap_alloc_progress_partial.

(** Freeing a block on any core succeeds, unless the block is a large one and the core
    already holds 128 large pages; and a large block's page can be had again at once
    on that core. *)
Theorem C49_heap_free_progress_partial h0 ops h live c co i b r h' :
  heap_init h0 -> along (fun st op => layout_ok op /\ keeps_class st.2 op) (h0, []) ops ->
  hrun (h0, []) ops = Some (h, live) -> hp_cores h !! c = Some co -> live !! i = Some b ->
  k_dealloc h c (b_ptr b) (b_size b) (b_align b) = (r, h') ->
  (r = Ok tt \/ 131072 < b_size b <= 2097152 /\ length (mc_large (ar_pm (co_cur co))) = 128%nat) /\
  (r = Ok tt -> 131072 < b_size b <= 2097152 -> forall nt ch, exists h2,
     k_alloc h' c (b_size b) (b_align b) nt ch = (Ok (Some (b_ptr b)), h2)).
Proof.
  intros Hi Ha Hr Hc Hib E. destruct (init_once false h0 Hi) as [Ho Hl].
  destruct (reach false h0 ops h live Hi) as [Hg Haf]; [|done|].
  { eapply along_impl; [|exact Ha]. intros st op [H1 H2]. split; [done|]. split; [done|]. done. }
  destruct (on_core_view false _ h live c (fun aff => dealloc (hp_mb h) aff (b_ptr b) (b_size b) (b_align b)) co Hg Haf Hc) as (nc & Hn & Eon).
  destruct (ginv_on _ _ _ _ _ _ _ Hg Hc Hn) as (K' & L1 & L2 & L3 & L4).
  assert (Ho' : once false K') by (intros a; specialize (Ho a); specialize (L2 a); cbn beta in *; lia).
  unfold k_dealloc in E. rewrite Eon in E. clear Eon.
  pose proof (linv_free false (hp_mb h) K' (ar_aff (co_cur co)) (view h co nc) live i b L1 Ho' (eq_sym L3) Hib ltac:(done)) as Hf.
  assert (HMZ : MAX_ZONE = 131072) by done. assert (HLP : LARGE_PAGE = 2097152) by done.
  assert (Hb : bok (view h co nc) b) by (eapply (Forall_lookup_1 _ _ _ _ (li_b _ _ _ _ _ L1)); exact Hib).
  destruct (dealloc (hp_mb h) (ar_aff (co_cur co)) (b_ptr b) (b_size b) (b_align b) (view h co nc)) as [[[]|e|] s'] eqn:Ed; [| done |].
  - injection E as <- <-. split; [by left|]. intros _ Hs nt ch.
    unfold dealloc in Ed. rewrite decide_False in Ed by lia. rewrite decide_True in Ed by lia.
    destruct Hb as (B1 & B2 & B3 & B4 & _ & B6 & _). destruct (B6 ltac:(lia)) as (x & Ex & Hx).
    case_decide; [|done]. replace (b_ptr b - KBASE) with x in Ed by lia.
    unfold frame_new in Ed. case_decide; [|done].
    destruct (mc_release_large SLP (l_pm (view h co nc)) (mkFrame x LARGE_PAGE (ar_aff (co_cur co)))) as [[[]|e|] pm] eqn:Er; try done.
    injection Ed as <-.
    assert (Hpm : exists rest, mc_large pm = x :: rest /\ mc_node pm = ar_aff (co_cur co)).
    { unfold mc_release_large, try_push in Er. case_decide as Hd; [|done]. case_decide; [|done]. injection Er as <-. eexists. split; [reflexivity|]. exact L3. }
    destruct Hpm as (tl & Hpm & Hpn).
    assert (Hlt : (c < length (hp_cores h))%nat) by (by eapply lookup_lt_Some).
    assert (Hlt2 : (N.to_nat (ar_aff (co_cur co)) < length (hp_nc h))%nat) by (by eapply lookup_lt_Some).
    unfold k_alloc, on_core. cbn [upd hp_cores]. rewrite list_lookup_insert by done. cbn [co_cur ar_aff ar_pm hp_nc upd set_pm l_pm l_nc view].
    rewrite list_lookup_insert by done. unfold alloc. rewrite decide_False by lia. rewrite decide_True by lia.
    rewrite alloc_large_S. cbn [l_pm]. unfold mc_alloc_large. rewrite Hpm.
    unfold frame_new. rewrite decide_True; [|rewrite HLP; split; [|done]; eapply (mod_trans x 2097152); [lia|done|done|done]].
    cbn [f_base]. rewrite <- Ex. eexists. reflexivity.
  - injection E as <- <-. destruct Hf as [Hf1 Hf2]. split; [|done]. right. split; [lia|].
    unfold freel in Hf2. cbn [view l_pm] in Hf2. lia.
Qed.
Print Assumptions C49_heap_free_progress_partial.

(** No request above 257 MiB (128 large and 254 base pages) is ever granted, however
    much memory there is. *)
Theorem C49_no_huge_blocks h0 ops h live c size align nt ch p h' :
  heap_init h0 -> along (fun st op => layout_ok op /\ keeps_class st.2 op) (h0, []) ops ->
  hrun (h0, []) ops = Some (h, live) -> 128 * 2097152 + 254 * 4096 < size ->
  k_alloc h c size align nt ch <> (Ok (Some p), h').
Proof.
  intros Hi Ha Hr Hs E. destruct (init_once false h0 Hi) as [Ho Hl].
  destruct (reach false h0 ops h live Hi) as [Hg Haf]; [|done|].
  { eapply along_impl; [|exact Ha]. intros st op [H1 H2]. split; [done|]. split; [done|]. done. }
  destruct (hp_cores h !! c) as [co|] eqn:Hc; [|unfold k_alloc, on_core in E; by rewrite Hc in E].
  destruct (on_core_view false _ h live c (fun aff => alloc (hp_mb h) c aff size align nt ch) co Hg Haf Hc) as (nc & Hn & Eon).
  destruct (ginv_on _ _ _ _ _ _ _ Hg Hc Hn) as (K' & L1 & L2 & L3 & L4).
  assert (Ho' : once false K') by (intros a; specialize (Ho a); specialize (L2 a); cbn beta in *; lia).
  unfold k_alloc in E. rewrite Eon in E. clear Eon.
  assert (HMZ : MAX_ZONE = 131072) by done. assert (HLP : LARGE_PAGE = 2097152) by done.
  unfold alloc in E. rewrite decide_False in E by lia. rewrite decide_False in E by lia.
  pose proof (alloc_big_spec false (hp_mb h) _ c (ar_aff (co_cur co)) size nt 3 ch (view h co nc) (g_mb _ _ _ _ Hg) (li_s _ _ _ _ _ L1) (linv_once _ _ _ _ _ L1 Ho') (eq_sym L3)) as Hz.
  destruct (alloc_big 3 (hp_mb h) c (ar_aff (co_cur co)) size nt ch (view h co nc)) as [r s']. injection E as -> _.
  destruct Hz as (_ & _ & _ & _ & _ & _ & Hz). destruct (big_pages size) as [base large] eqn:Ep.
  apply big_pages_spec in Ep as [Q1 Q2]. cbn [snd] in Hz. lia.
Qed.
Print Assumptions C49_no_huge_blocks.

(** The memory of a block above 2 MiB is never free again, whatever is freed later. *)
Lemma alloc_big_keeps num mb K core aff size align nt ch s p s' L : mb_ok mb -> linv num mb K s L -> once num K -> aff = mc_node (l_pm s) ->
  0 < size -> 0 < align -> 2097152 mod align = 0 ->
  alloc mb core aff size align nt ch s = (Ok p, s') -> forall e, e ∈ l_big s -> e ∈ l_big s'.
Proof.
  intros Hmb Hl Ho Ha Hs Hal Hdiv E e He. pose proof (linv_alloc num mb K core aff size align nt ch s L Hmb Hl Ho Ha Hs Hal Hdiv) as H.
  rewrite E in H. destruct p; [destruct H as (_ & H & _)|destruct H as [_ H]]; by apply (gr_big _ _ H).
Qed.
Lemma dealloc_big mb aff ptr size align s r s' : dealloc mb aff ptr size align s = (r, s') -> l_big s' = l_big s.
Proof. unfold dealloc. repeat case_match; intros; simplify_eq/=; done. Qed.
Lemma hstep_big K h L op h' L' e : ginv false K h L -> affs_ok h -> once false K -> low K -> layout_ok op ->
  hstep (h, L) op = Some (h', L') -> e ∈ hp_big h -> e ∈ hp_big h'.
Proof.
  intros Hg Haf Ho Hlow Hlay E He. destruct op as [c size align nt ch|c i|c i n nt ch|c node]; cbn [hstep] in E.
  - destruct (hp_cores h !! c) as [co|] eqn:Hc; [|unfold k_alloc, on_core in E; by rewrite Hc in E].
    destruct (on_core_view false _ h L c (fun aff => alloc (hp_mb h) c aff size align nt ch) co Hg Haf Hc) as (nc & Hn & Eon).
    destruct (ginv_on _ _ _ _ _ _ _ Hg Hc Hn) as (K' & L1 & L2 & L3 & L4).
    assert (Ho' : once false K') by (intros a; specialize (Ho a); specialize (L2 a); cbn beta in *; lia).
    unfold k_alloc in E. rewrite Eon in E. clear Eon. destruct Hlay as (Y1 & Y2 & Y3).
    destruct (alloc (hp_mb h) c (ar_aff (co_cur co)) size align nt ch (view h co nc)) as [r s'] eqn:Ea.
    destruct r as [p|e2|]; [|done|done].
    pose proof (alloc_big_keeps _ _ _ _ _ _ _ _ _ _ _ _ _ (g_mb _ _ _ _ Hg) L1 Ho' (eq_sym L3) Y1 Y2 Y3 Ea e He).
    destruct p; injection E as <- <-; done.
  - destruct (L !! i) as [b|] eqn:Hi; [|done]. unfold k_dealloc, on_core in E. repeat case_match; simplify_eq/=.
    by match goal with H : dealloc _ _ _ _ _ _ = _ |- _ => apply dealloc_big in H; cbn in H; rewrite H end.
  - destruct (L !! i) as [b|] eqn:Hi; [|done].
    destruct (hp_cores h !! c) as [co|] eqn:Hc; [|unfold k_realloc, on_core in E; by rewrite Hc in E].
    destruct (on_core_view false _ h L c (fun aff => realloc (hp_mb h) c aff (b_ptr b) (b_size b) (b_align b) n nt ch) co Hg Haf Hc) as (nc & Hn & Eon).
    destruct (ginv_on _ _ _ _ _ _ _ Hg Hc Hn) as (K' & L1 & L2 & L3 & L4).
    assert (Ho' : once false K') by (intros a; specialize (Ho a); specialize (L2 a); cbn beta in *; lia).
    unfold k_realloc in E. rewrite Eon in E. clear Eon.
    assert (Hb : bok (view h co nc) b) by (eapply (Forall_lookup_1 _ _ _ _ (li_b _ _ _ _ _ L1)); exact Hi).
    destruct Hb as (_ & Y2 & Y3 & _).
    destruct (realloc (hp_mb h) c (ar_aff (co_cur co)) (b_ptr b) (b_size b) (b_align b) n nt ch (view h co nc)) as [r s'] eqn:Ea.
    assert (Hk : forall p, r = Ok p -> e ∈ l_big s').
    { intros p ->. unfold realloc in Ea. case_decide; [by injection Ea as _ <-|].
      destruct (alloc (hp_mb h) c (ar_aff (co_cur co)) n (b_align b) nt ch (view h co nc)) as [r1 s1] eqn:Eal.
      destruct r1 as [p1|e1|]; [|done|done].
      pose proof (alloc_big_keeps _ _ _ _ _ _ _ _ _ _ _ _ _ (g_mb _ _ _ _ Hg) L1 Ho' (eq_sym L3) Hlay Y2 Y3 Eal e He) as Hk.
      destruct p1 as [p1|]; [|by injection Ea as _ <-].
      destruct (dealloc (hp_mb h) (ar_aff (co_cur co)) (b_ptr b) (b_size b) (b_align b) s1) as [r2 s2] eqn:Ed.
      apply dealloc_big in Ed. destruct r2; [|done|done]. injection Ea as _ <-. by rewrite Ed. }
    destruct r as [p|e2|]; [|done|done]. specialize (Hk p eq_refl). destruct p; injection E as <- <-; done.
  - unfold k_affinity in E. repeat case_match; simplify_eq/=; done.
Qed.
Theorem C49_big_blocks_never_free_again h0 ops h live i b ops' h' live' off a :
  heap_init h0 -> along (fun st op => layout_ok op /\ keeps_class st.2 op) (h0, []) (ops ++ ops') ->
  hrun (h0, []) ops = Some (h, live) -> live !! i = Some b -> 2097152 < b_size b ->
  hrun (h, live) ops' = Some (h', live') ->
  off < b_size b -> translate h (b_ptr b + off) = Some a -> forall f, f ∈ all_free h' -> ~ covers f a.
Proof.
  intros Hi Ha Hr Hib Hs Hr' Hoff Ht. destruct (init_once false h0 Hi) as [Ho Hl].
  assert (Hsplit : forall ops st, along (fun st op => layout_ok op /\ keeps_class st.2 op) st (ops ++ ops') ->
    along (fun st op => layout_ok op /\ keeps_class st.2 op) st ops /\
    (forall st', hrun st ops = Some st' -> along (fun st op => layout_ok op /\ keeps_class st.2 op) st' ops')).
  { clear. induction ops as [|op ops IH]; intros st H; cbn [app along hrun] in *.
    - split; [done|]. by intros st' [= <-].
    - destruct H as [H1 H2]. destruct (hstep st op) as [st1|]; [|by split].
      destruct (IH st1 H2) as [I1 I2]. split; [done|]. exact I2. }
  destruct (Hsplit ops _ Ha) as [Ha1 Ha2]. specialize (Ha2 _ Hr). clear Hsplit Ha.
  destruct (reach false h0 ops h live Hi) as [Hg Haf]; [|done|].
  { eapply along_impl; [|exact Ha1]. intros st op [H1 H2]. split; [done|]. split; [done|]. done. }
  (* the page mapped at the byte *)
  assert (He : exists e, e ∈ hp_big h /\ covers e.2 a).
  { pose proof (ginv_linv _ _ _ _ Hg) as Hli. set (K' := fun P a => (covP P (all_free h0) a - covP P (all_free h) a)%nat) in *.
    assert (Ho' : once false K') by (intros x; specialize (Ho x); unfold K'; cbn beta in *; lia).
    assert (Hlow' : low K') by (intros x Hx; apply Hl; unfold K' in Hx; lia).
    assert (Hb : bok (hs h) b) by (eapply (Forall_lookup_1 _ _ _ _ (g_b _ _ _ _ Hg)); exact Hib).
    destruct (at_exists _ b off Hb Hoff) as [a2 Hat].
    pose proof (at_trans _ _ _ _ _ _ _ _ _ Hli Ho' Hlow' Hib Hat) as Ht2.
    assert (a2 = a) as -> by (change (ltrans (l_big (hs h)) (b_ptr b + off)) with (translate h (b_ptr b + off)) in Ht2; congruence).
    destruct (at_part _ _ _ _ _ _ _ _ _ Hli Ho' Hib Hat) as [_ Hp].
    assert (HMZ : MAX_ZONE = 131072) by done. assert (HLP : LARGE_PAGE = 2097152) by done.
    rewrite decide_False in Hp by lia. rewrite decide_False in Hp by lia. destruct Hp as (e & He & _ & _ & _ & Hc & _). exists e. done. }
  destruct He as (e & He & Hce). clear Ht Hoff Hs Hib Hr Ha1.
  assert (Hfin : e ∈ hp_big h' /\ ginv false (fun P a => covP P (all_free h0) a) h' live').
  { revert h live Hg Haf Hr' Ha2 He. induction ops' as [|op ops' IH]; intros h live Hg Haf Hr' Ha2 He; cbn [hrun along] in *.
    - injection Hr' as <- <-. done.
    - destruct Ha2 as [[Q1 Q2] Ha2]. destruct (hstep (h, live) op) as [[h1 L1]|] eqn:Es; [|done].
      apply (IH h1 L1); [|by eapply affs_hstep|done|done|by eapply hstep_big].
      eapply hstep_inv; [exact Hg|exact Ho|exact Hl|exact Es|done|done|done]. }
  destruct Hfin as [He' Hg']. intros f Hf Hc.
  pose proof (g_cov _ _ _ _ Hg' _ a (lab_all false)) as Hcov. specialize (Ho a). cbn beta in *. rewrite !covP_all in *.
  unfold gall in Hcov. rewrite !cov_app in Hcov.
  pose proof (cov_ge_elem _ _ _ Hf Hc). pose proof (cov_ge_elem (map snd (hp_big h')) e.2 a ltac:(apply elem_of_list_fmap; eauto) Hce). lia.
Qed.
Print Assumptions C49_big_blocks_never_free_again.
