(** Proofs about the kernel heap, continued: cores and histories. *)
From Verif Require Import Base MemModel MemSpec MemProofs BootModel BootSpec BootProofs HeapModel HeapSpec HeapProofs HeapProofs2.
Open Scope N_scope.

Definition arena_ok (a : arena) : Prop := mc_ok (ar_pm a) /\ fits SBP SLP (ar_pm a) /\ mc_node (ar_pm a) = ar_aff a.
Definition core_ok (c : core) : Prop := arena_ok (co_cur c) /\
  forall j a, co_arenas c !! j = Some (Some a) -> arena_ok a /\ N.to_nat (ar_aff a) = j /\ ar_aff a <> ar_aff (co_cur c).
Definition hs (h : heap) : ls := mkLs (mc_new 0) (mc_new 0) (hp_zone h) (hp_sbrk h) (hp_big h).
Definition gall (h : heap) : list frame := all_free h ++ map (zframe (hp_mb h)) (hp_zone h) ++ map snd (hp_big h).
Record ginv (num : bool) (K : (N -> bool) -> N -> nat) (h : heap) (L : list blk) : Prop := {
  g_mb : mb_ok (hp_mb h);
  g_core : forall i c, hp_cores h !! i = Some c -> core_ok c;
  g_nc : forall i c, hp_nc h !! i = Some c -> mc_ok c /\ mc_node c = N.of_nat i;
  g_zone : Forall (zp_ok (hp_mb h)) (hp_zone h);
  g_big : big_ok (hs h);
  g_cov : forall P a, lab num P -> (covP P (gall h) a + covP P (lbfs L) a)%nat = K P a;
  g_b : Forall (bok (hs h)) L;
  g_sep : forall i j b c, i <> j -> L !! i = Some b -> L !! j = Some c -> sep b c }.

(** The state of one core, and the rest. *)
Definition view (h : heap) (co : core) (nc : mcache) : ls :=
  mkLs (ar_pm (co_cur co)) nc (hp_zone h) (hp_sbrk h) (hp_big h).
Definition upd (h : heap) (c : nat) (co : core) (s : ls) : heap :=
  let aff := ar_aff (co_cur co) in
  mkHp (hp_mb h) (hp_nodes h) (<[c := mkCore (mkAr aff (l_pm s)) (co_arenas co)]> (hp_cores h))
       (<[N.to_nat aff := l_nc s]> (hp_nc h)) (l_zone s) (l_sbrk s) (l_big s).
Lemma concat_map_delete {A} (f : A -> list frame) l i x : l !! i = Some x ->
  concat (map f l) ≡ₚ f x ++ concat (map f (delete i l)).
Proof. intros H. rewrite (delete_Permutation l i x H) at 1. done. Qed.
Lemma concat_map_insert {A} (f : A -> list frame) l i x y : l !! i = Some x ->
  concat (map f (<[i := y]> l)) ≡ₚ f y ++ concat (map f (delete i l)).
Proof.
  intros H. assert (Hlt : (i < length l)%nat) by (by eapply lookup_lt_Some).
  rewrite (concat_map_delete f (<[i:=y]> l) i y); [|by apply list_lookup_insert].
  assert (delete i (<[i:=y]> l) = delete i l) as ->; [|done].
  rewrite insert_take_drop by done. rewrite (delete_take_drop l i).
  pose proof (delete_middle (take i l) (drop (S i) l) y) as Hd. rewrite take_length_le in Hd by lia. done.
Qed.
Definition rest (h : heap) (c : nat) (co : core) : list frame :=
  concat (map arena_frames (co_arenas co)) ++ concat (map core_frames (delete c (hp_cores h))) ++
  concat (map frames (delete (N.to_nat (ar_aff (co_cur co))) (hp_nc h))).

Lemma gall_view h c co nc : hp_cores h !! c = Some co -> hp_nc h !! N.to_nat (ar_aff (co_cur co)) = Some nc ->
  gall h ≡ₚ lall (hp_mb h) (view h co nc) ++ rest h c co.
Proof.
  intros Hc Hn. unfold gall, all_free, rest, lall, view. cbn [l_pm l_nc l_zone l_big].
  rewrite (concat_map_delete core_frames _ _ _ Hc), (concat_map_delete frames _ _ _ Hn). unfold core_frames at 1.
  solve_Permutation.
Qed.
Lemma gall_upd h c co nc s : hp_cores h !! c = Some co -> hp_nc h !! N.to_nat (ar_aff (co_cur co)) = Some nc ->
  gall (upd h c co s) ≡ₚ lall (hp_mb h) s ++ rest h c co.
Proof.
  intros Hc Hn. unfold gall, all_free, rest, lall, upd. cbn [hp_cores hp_nc hp_zone hp_big hp_mb].
  rewrite (concat_map_insert core_frames _ _ _ _ Hc), (concat_map_insert frames _ _ _ _ Hn). unfold core_frames at 1.
  cbn [co_cur co_arenas ar_pm]. solve_Permutation.
Qed.

Lemma bok_ext s s' b : l_zone s = l_zone s' -> l_sbrk s = l_sbrk s' -> l_big s = l_big s' -> bok s b -> bok s' b.
Proof. intros E1 E2 E3. unfold bok. by rewrite E1, E2, E3. Qed.

Lemma ginv_on num K h L c co nc : ginv num K h L -> hp_cores h !! c = Some co ->
  hp_nc h !! N.to_nat (ar_aff (co_cur co)) = Some nc ->
  exists K', linv num (hp_mb h) K' (view h co nc) L /\ (forall a, (K' (fun _ => true) a <= K (fun _ => true) a)%nat) /\
    mc_node (l_pm (view h co nc)) = ar_aff (co_cur co) /\
    forall s' L', linv num (hp_mb h) K' s' L' -> mc_node (l_pm s') = ar_aff (co_cur co) -> ginv num K (upd h c co s') L'.
Proof.
  intros [H1 H2 H3 H4 H5 H6 H7 H8] Hc Hn. destruct (H2 c co Hc) as [(A1 & A2 & A3) A4]. destruct (H3 _ _ Hn) as [N1 N2].
  exists (fun P a => K P a - covP P (rest h c co) a)%nat.
  assert (Hcov : forall P a, covP P (gall h) a = (covP P (lall (hp_mb h) (view h co nc)) a + covP P (rest h c co) a)%nat).
  { intros P a. rewrite <- covP_app. apply covP_perm. by apply gall_view. }
  split; [|split; [|split; [done|]]].
  - constructor.
    + constructor; [|done|done|done]. cbn [l_pm l_nc view]. split; [done|]. split; [done|]. split; [done|]. lia.
    + intros P a HP. rewrite <- (H6 P a HP), Hcov. lia.
    + eapply Forall_impl; [exact H7|]. intros b Hb. cbn beta in *. by eapply bok_ext; [..|exact Hb].
    + done.
  - intros a. cbn beta. lia.
  - intros s' L' [S1 S2 S3 S4] Hnode. constructor.
    + done.
    + intros i c' Hi. cbn [upd hp_cores] in Hi. apply list_lookup_insert_Some in Hi as [(<- & <- & _)|[_ Hi]]; [|by eapply H2].
      split; cbn [co_cur co_arenas ar_aff ar_pm]; [|exact A4].
      destruct (si_pair _ _ _ _ S1) as (Q1 & Q2 & Q3 & Q4). split; [done|]. split; done.
    + intros i c' Hi. cbn [upd hp_nc] in Hi. apply list_lookup_insert_Some in Hi as [(<- & <- & _)|[_ Hi]]; [|by eapply H3].
      destruct (si_pair _ _ _ _ S1) as (Q1 & Q2 & Q3 & Q4). split; [done|]. lia.
    + apply (si_zone _ _ _ _ S1).
    + apply (si_big _ _ _ _ S1).
    + intros P a HP. assert (covP P (gall (upd h c co s')) a = (covP P (lall (hp_mb h) s') a + covP P (rest h c co) a)%nat) as ->.
      { rewrite <- covP_app. apply covP_perm. by eapply gall_upd. }
      specialize (S2 P a HP). cbn beta in S2. specialize (H6 P a HP). rewrite Hcov in H6. lia.
    + eapply Forall_impl; [exact S3|]. intros b Hb. cbn beta in *. by eapply bok_ext; [..|exact Hb].
    + done.
Qed.

(** Selecting a node. *)
Lemma swap_frames nodes node c r c' : core_ok c -> set_affinity nodes node c = (r, c') ->
  core_ok c' /\ core_frames c' ≡ₚ core_frames c /\
  (r = Ok true -> ar_aff (co_cur c') = node) /\ (r <> Ok true -> c' = c) /\
  (r = Ok false <-> ar_aff (co_cur c) <> node /\ ~ (node < N.of_nat (length (co_arenas c)) /\ node < N.max 1 nodes)).
Proof.
  intros [(A1 & A2 & A3) A4] E. unfold set_affinity in E. destruct (decide (node = ar_aff (co_cur c))) as [Hn|Hn].
  { injection E as <- <-. split; [done|]. split; [done|]. split; [done|]. split; [done|]. split; [done|]. intros [? _]. congruence. }
  unfold swap_manager in E. destruct (decide (node < N.of_nat (length (co_arenas c)) /\ node < N.max 1 nodes)) as [Hv|Hv].
  2:{ injection E as <- <-. split; [done|]. split; [done|]. split; [done|]. split; [done|]. split; [|done]. intros _. split; [congruence|done]. }
  set (ar := match co_arenas c !! N.to_nat node with Some (Some a) => a | _ => mkAr node (mc_new node) end) in *.
  assert (Har : arena_ok ar /\ ar_aff ar = node).
  { unfold ar. destruct (co_arenas c !! N.to_nat node) as [[a|]|] eqn:El.
    - destruct (A4 _ _ El) as (Q1 & Q2 & _). split; [done|]. lia.
    - split; [|done]. split; [|split; [|done]]; [split; cbn; constructor|split; cbn; lia].
    - split; [|done]. split; [|split; [|done]]; [split; cbn; constructor|split; cbn; lia]. }
  destruct Har as [Har1 Har2].
  rewrite insert_length in E. destruct (decide (N.to_nat (ar_aff (co_cur c)) < length (co_arenas c))%nat) as [Hl|Hl].
  2:{ injection E as <- <-. split; [done|]. split; [done|]. split; [done|]. split; [done|]. split; [done|]. intros [_ Hx]. by exfalso. }
  injection E as <- <-.
  assert (Hlt : (N.to_nat node < length (co_arenas c))%nat) by lia.
  assert (Hne : N.to_nat node <> N.to_nat (ar_aff (co_cur c))) by lia.
  split.
  { split; [done|]. cbn [co_cur co_arenas]. intros j a Hj.
    apply list_lookup_insert_Some in Hj as [(<- & [= <-] & _)|[Hjn Hj]].
    - split; [split; [exact A1|split; [exact A2|exact A3]]|]. split; [done|]. lia.
    - apply list_lookup_insert_Some in Hj as [(_ & [=] & _)|[Hjn2 Hj]].
      destruct (A4 _ _ Hj) as (Q1 & Q2 & Q3). split; [done|]. split; [done|]. intros E2. apply Hjn2. lia. }
  split.
  { unfold core_frames. cbn [co_cur co_arenas].
    destruct (lookup_lt_is_Some_2 (co_arenas c) (N.to_nat node) Hlt) as [o Ho].
    destruct (lookup_lt_is_Some_2 (co_arenas c) (N.to_nat (ar_aff (co_cur c))) Hl) as [o2 Ho2].
    assert (o2 = None) as -> by (destruct o2 as [a|]; [|done]; destruct (A4 _ _ Ho2) as (_ & Q2 & Q3); lia).
    assert (Hor : arena_frames o = frames (ar_pm ar)).
    { unfold ar. rewrite Ho. destruct o as [a|]; done. }
    assert (L1 : (<[N.to_nat node := None]> (co_arenas c)) !! N.to_nat (ar_aff (co_cur c)) = Some None) by (by rewrite list_lookup_insert_ne).
    rewrite (concat_map_insert arena_frames _ _ _ (Some (co_cur c)) L1).
    assert (Hd : concat (map arena_frames (<[N.to_nat node := None]> (co_arenas c))) ≡ₚ
      arena_frames None ++ concat (map arena_frames (delete (N.to_nat (ar_aff (co_cur c))) (<[N.to_nat node := None]> (co_arenas c)))))
      by (by apply concat_map_delete).
    cbn [arena_frames app] in Hd. rewrite <- Hd.
    rewrite (concat_map_insert arena_frames _ _ _ None Ho). cbn [arena_frames app].
    rewrite (concat_map_delete arena_frames _ _ _ Ho). rewrite Hor. solve_Permutation. }
  split; [done|]. split; [done|]. split; [done|]. intros [_ Hx]. by exfalso.
Qed.
Lemma ginv_affinity num K h L c node r h' : ginv num K h L -> k_affinity h c node = (r, h') -> r <> Panic ->
  ginv num K h' L.
Proof.
  intros [H1 H2 H3 H4 H5 H6 H7 H8] E Hr. unfold k_affinity in E.
  destruct (hp_cores h !! c) as [co|] eqn:Hc; [|by injection E as <- <-].
  destruct (set_affinity (hp_nodes h) node co) as [r' co'] eqn:Es. injection E as <- <-.
  destruct (swap_frames _ _ _ _ _ (H2 c co Hc) Es) as (S1 & S2 & _).
  constructor; try done.
  - intros i c' Hi. cbn [hp_cores] in Hi. apply list_lookup_insert_Some in Hi as [(<- & <- & _)|[_ Hi]]; [done|by eapply H2].
  - intros P a HP. rewrite <- (H6 P a HP). f_equal. apply covP_perm. unfold gall, all_free. cbn [hp_cores hp_nc hp_zone hp_big hp_mb].
    rewrite (concat_map_insert core_frames _ _ _ _ Hc), (concat_map_delete core_frames _ _ _ Hc), S2. done.
Qed.

(** One operation. *)
Lemma hstep_inv num K h L op h' L' : ginv num K h L -> once num K -> low K -> hstep (h, L) op = Some (h', L') ->
  layout_ok op -> keeps_class L op -> (num = true -> frees_home (h, L) op) -> ginv num K h' L'.
Proof.
  intros Hg Ho Hlow E Hlay Hkc Hhome. destruct op as [c size align nt ch|c i|c i n nt ch|c node]; cbn [hstep] in E.
  - unfold k_alloc, on_core in E. destruct (hp_cores h !! c) as [co|] eqn:Hc; [|done].
    destruct (hp_nc h !! N.to_nat (ar_aff (co_cur co))) as [nc|] eqn:Hn; [|done].
    destruct (ginv_on num K h L c co nc Hg Hc Hn) as (K' & Hl & HK & Hnode & Hback).
    assert (Ho' : once num K') by (intros a; specialize (Ho a); specialize (HK a); lia).
    fold (view h co nc) in E. destruct Hlay as (L1 & L2 & L3).
    pose proof (linv_alloc num (hp_mb h) K' c (ar_aff (co_cur co)) size align nt ch (view h co nc) L (g_mb _ _ _ _ Hg) Hl Ho' (eq_sym Hnode) L1 L2 L3) as Ha.
    destruct (alloc (hp_mb h) c (ar_aff (co_cur co)) size align nt ch (view h co nc)) as [[[p|]|e|] s']; try done.
    + injection E as <- <-. destruct Ha as (A1 & A2 & _). unfold node_of. rewrite Hc. apply Hback; [done|]. by rewrite (gr_node _ _ A2).
    + injection E as <- <-. destruct Ha as (A1 & A2). apply Hback; [done|]. by rewrite (gr_node _ _ A2).
  - destruct (L !! i) as [b|] eqn:Hi; [|done].
    unfold k_dealloc, on_core in E. destruct (hp_cores h !! c) as [co|] eqn:Hc; [|done].
    destruct (hp_nc h !! N.to_nat (ar_aff (co_cur co))) as [nc|] eqn:Hn; [|done].
    destruct (ginv_on num K h L c co nc Hg Hc Hn) as (K' & Hl & HK & Hnode & Hback).
    assert (Ho' : once num K') by (intros a; specialize (Ho a); specialize (HK a); lia).
    fold (view h co nc) in E.
    pose proof (linv_free num (hp_mb h) K' (ar_aff (co_cur co)) (view h co nc) L i b Hl Ho' (eq_sym Hnode) Hi) as Ha.
    specialize (Ha ltac:(intros Hnum Hs; specialize (Hhome Hnum b Hi Hs); cbn [fst] in Hhome; unfold node_of in Hhome; by rewrite Hc in Hhome)).
    destruct (dealloc (hp_mb h) (ar_aff (co_cur co)) (b_ptr b) (b_size b) (b_align b) (view h co nc)) as [[[]|e|] s']; try done.
    injection E as <- <-. destruct Ha as (A1 & A2). apply Hback; [done|]. by rewrite A2.
  - destruct (L !! i) as [b|] eqn:Hi; [|done].
    unfold k_realloc, on_core in E. destruct (hp_cores h !! c) as [co|] eqn:Hc; [|done].
    destruct (hp_nc h !! N.to_nat (ar_aff (co_cur co))) as [nc|] eqn:Hn; [|done].
    destruct (ginv_on num K h L c co nc Hg Hc Hn) as (K' & Hl & HK & Hnode & Hback).
    assert (Ho' : once num K') by (intros a; specialize (Ho a); specialize (HK a); lia).
    assert (Hlow' : low K') by (intros a Ha; apply Hlow; specialize (HK a); lia).
    fold (view h co nc) in E.
    pose proof (linv_realloc num (hp_mb h) K' c (ar_aff (co_cur co)) n nt ch (view h co nc) L i b (g_mb _ _ _ _ Hg) Hl Ho' Hlow' (eq_sym Hnode) Hi Hlay) as Ha.
    specialize (Ha ltac:(intros Hnum Hs; specialize (Hhome Hnum b Hi Hs); cbn [fst] in Hhome; unfold node_of in Hhome; by rewrite Hc in Hhome) (Hkc b Hi)).
    destruct (realloc (hp_mb h) c (ar_aff (co_cur co)) (b_ptr b) (b_size b) (b_align b) n nt ch (view h co nc)) as [[[p|]|e|] s']; try done.
    + injection E as <- <-. destruct Ha as (A1 & A2). unfold node_of. rewrite Hc. apply Hback; [done|]. by rewrite A2.
    + injection E as <- <-. destruct Ha as (A1 & A2). apply Hback; [done|]. by rewrite A2.
  - destruct (k_affinity h c node) as [[x|e|] h2] eqn:Ek; try done. injection E as <- <-. by eapply ginv_affinity.
Qed.

(** Histories. *)
Lemma cov_elem l a : (0 < cov l a)%nat -> exists f, f ∈ l /\ covers f a.
Proof.
  induction l as [|f l IH]; cbn [cov]; [lia|]. case_decide as Hc.
  - intros _. exists f. split; [by left|done].
  - intros H. destruct (IH H) as (g & Hg & Hgc). exists g. split; [by right|done].
Qed.
Lemma covP_elem (P : N -> bool) l a : (0 < covP P l a)%nat -> exists f, f ∈ l /\ covers f a /\ P (f_aff f) = true.
Proof.
  unfold covP, fl. intros H. apply cov_elem in H as (f & Hf & Hc). apply elem_of_list_filter in Hf as [Hp Hf].
  exists f. split; [done|]. split; [done|]. by destruct (P (f_aff f)).
Qed.
Lemma class_pow k : 3 <= k -> mb_ok (2 ^ k).
Proof.
  intros Hk. unfold mb_ok, class_of. rewrite N.max_r.
  - by rewrite N.log2_up_pow2 by lia.
  - change 8 with (2 ^ 3). apply N.pow_le_mono_r; [done|lia].
Qed.
Lemma ginv_init num h : heap_init h -> ginv num (fun P a => covP P (all_free h) a) h [].
Proof.
  intros [Hmb Hz Hb Hs Hd Hlo Hnc Hco _]. constructor.
  - destruct Hmb as (k & Hk & ->). apply class_pow. lia.
  - intros i c Hi. destruct (Hco i c Hi) as (C1 & C2 & C3 & C4 & C5 & _). split; [|intros j a Hj; by destruct (C5 j a)].
    split; [exact C1|]. split; [|done]. split; unfold SBP, SLP; lia.
  - intros i c Hi. destruct (Hnc i c Hi) as [C1 C2]. done.
  - rewrite Hz. constructor.
  - unfold big_ok, hs. cbn [l_big l_sbrk]. rewrite Hb, Hs. split; [intros e He; by apply elem_of_nil in He|]. split; [intros a; cbn; lia|].
    split; [lia|]. vm_compute. reflexivity.
  - intros P a _. unfold gall. rewrite Hz, Hb. cbn [map app]. rewrite app_nil_r. unfold lbfs. cbn [map concat]. rewrite covP_nil. lia.
  - constructor.
  - intros i j b c _ Hi. done.
Qed.
Lemma init_once num h : heap_init h -> once num (fun P a => covP P (all_free h) a) /\ low (fun P a => covP P (all_free h) a).
Proof.
  intros Hi. split.
  - intros a. rewrite covP_all. apply cov_disjoint. apply (hi_disjoint _ Hi).
  - intros a Ha. rewrite covP_all in Ha. apply cov_elem in Ha as (f & Hf & Hc). pose proof (hi_low _ Hi f Hf). unfold covers in Hc. lia.
Qed.
Lemma hrun_inv num K ops : forall h L h' L', ginv num K h L -> once num K -> low K -> hrun (h, L) ops = Some (h', L') ->
  along (fun st op => layout_ok op /\ keeps_class st.2 op /\ (num = true -> frees_home st op)) (h, L) ops -> ginv num K h' L'.
Proof.
  induction ops as [|op ops IH]; intros h L h' L' Hg Ho Hl E Ha; cbn [hrun] in E.
  { by injection E as <- <-. }
  cbn [along] in Ha. destruct Ha as [(G1 & G2 & G3) Ha]. destruct (hstep (h, L) op) as [[h1 L1]|] eqn:Es; [|done].
  eapply IH; [|done|done|exact E|exact Ha]. by eapply hstep_inv.
Qed.
Lemma along_impl (G1 G2 : heap * list blk -> hop -> Prop) ops : (forall st op, G1 st op -> G2 st op) ->
  forall st, along G1 st ops -> along G2 st ops.
Proof.
  intros H. induction ops as [|op ops IH]; intros st; cbn [along]; [done|]. intros [Ha Hb]. split; [by apply H|].
  destruct (hstep st op); [by apply IH|done].
Qed.

(** The blocks of the whole heap. *)
Lemma ginv_linv num K h L : ginv num K h L ->
  linv num (hp_mb h) (fun P a => K P a - covP P (all_free h) a)%nat (hs h) L.
Proof.
  intros [H1 H2 H3 H4 H5 H6 H7 H8]. constructor; [|  |done|done].
  - constructor; [|done|done|done]. split; [split; constructor|]. split; [split; cbn; lia|]. split; [split; constructor|done].
  - intros P a HP. rewrite <- (H6 P a HP). unfold gall. rewrite covP_app. unfold lall, hs. cbn [l_pm l_nc l_zone l_big]. cbn [frames mc_new mc_base mc_large map app]. lia.
Qed.
Lemma ginv_free num K h L a : ginv num K h L -> (covP (fun _ => true) (all_free h) a <= K (fun _ => true) a)%nat.
Proof. intros H. rewrite <- (g_cov _ _ _ _ H _ a (lab_all num)). unfold gall. rewrite covP_app. lia. Qed.

Lemma ginv_disjoint num K h L : ginv num K h L -> once num K -> low K ->
  (forall i b, L !! i = Some b -> b_ptr b mod b_align b = 0 /\ forall off, off < b_size b -> exists a,
     translate h (b_ptr b + off) = Some a /\ K (fun _ => true) a = 1%nat /\ (forall f, f ∈ all_free h -> ~ covers f a) /\
     (num = true -> K (fun n => bool_decide (n = b_node b)) a = 1%nat)) /\
  (forall i j b c off off' a, L !! i = Some b -> L !! j = Some c -> off < b_size b -> off' < b_size c ->
     translate h (b_ptr b + off) = Some a -> translate h (b_ptr c + off') = Some a -> i = j /\ off = off').
Proof.
  intros Hg Ho Hlow. pose proof (ginv_linv _ _ _ _ Hg) as Hl.
  set (K' := fun P a => (K P a - covP P (all_free h) a)%nat) in *.
  assert (Ho' : once num K') by (intros a; specialize (Ho a); unfold K'; lia).
  assert (Hlow' : low K') by (intros a Ha; apply Hlow; unfold K' in Ha; lia).
  assert (Htr : forall i b off, L !! i = Some b -> off < b_size b -> exists a, translate h (b_ptr b + off) = Some a /\ at_ (hs h) b off a).
  { intros i b off Hi Hoff. assert (Hb : bok (hs h) b) by (eapply (Forall_lookup_1 _ _ _ _ (g_b _ _ _ _ Hg)); exact Hi).
    destruct (at_exists _ b off Hb Hoff) as [a Ha]. exists a. split; [|done].
    exact (at_trans _ _ _ _ _ _ _ _ _ Hl Ho' Hlow' Hi Ha). }
  split.
  - intros i b Hi. split.
    { assert (Hb : bok (hs h) b) by (eapply (Forall_lookup_1 _ _ _ _ (g_b _ _ _ _ Hg)); exact Hi). apply Hb. }
    intros off Hoff. destruct (Htr i b off Hi Hoff) as (a & Ht & Ha). exists a. split; [done|].
    destruct (at_part _ _ _ _ _ _ _ _ _ Hl Ho' Hi Ha) as [(_ & _ & HK) Hp].
    pose proof (ginv_free _ _ _ _ a Hg) as Hle. specialize (Ho a). unfold K' in HK.
    split; [lia|]. split.
    { intros f Hf Hc. pose proof (cov_ge_elem _ _ _ Hf Hc) as Hge. rewrite <- covP_all in Hge. lia. }
    intros ->.
    assert (Hlabel : (1 <= K (fun n => bool_decide (n = b_node b)) a)%nat).
    { rewrite <- (g_cov _ _ _ _ Hg _ a (or_introl eq_refl)). unfold gall. rewrite !covP_app.
      destruct (decide (b_size b <= MAX_ZONE)) as [C1|C1]; [|destruct (decide (b_size b <= LARGE_PAGE)) as [C2|C2]].
      - destruct Hp as (x & p & _ & Hp & _ & Han & _ & _ & _ & Hc).
        pose proof (covP_ge_elem (fun n => bool_decide (n = b_node b)) (map (zframe (hp_mb h)) (hp_zone h)) (zframe (hp_mb h) p) a
          ltac:(apply elem_of_list_fmap; eauto) Hc ltac:(by apply bool_decide_eq_true)). lia.
      - destruct Hp as (x & f & _ & _ & Hf & Hc & Han).
        pose proof (covP_ge_elem (fun n => bool_decide (n = b_node b)) (lbfs L) f a
          (lbfs_elem _ _ _ _ Hi Hf) Hc ltac:(by apply bool_decide_eq_true)). lia.
      - destruct Hp as (e & He & _ & Han & _ & Hc & _).
        pose proof (covP_ge_elem (fun n => bool_decide (n = b_node b)) (map snd (hp_big h)) e.2 a
          ltac:(apply elem_of_list_fmap; exists e; done) Hc ltac:(by apply bool_decide_eq_true)). lia. }
    assert (Hle2 : (K (fun n => bool_decide (n = b_node b)) a <= K (fun _ => true) a)%nat); [|lia].
    rewrite <- (g_cov _ _ _ _ Hg _ a (or_introl eq_refl)), <- (g_cov _ _ _ _ Hg _ a (lab_all true)).
    rewrite (covP_split (fun _ => true) (fun n => bool_decide (n = b_node b)) (gall h)).
    rewrite (covP_split (fun _ => true) (fun n => bool_decide (n = b_node b)) (lbfs L)).
    cbn [andb]. lia.
  - intros i j b c off off' a Hi Hj Hoff Hoff' Hta Htb.
    destruct (Htr i b off Hi Hoff) as (a1 & T1 & A1). destruct (Htr j c off' Hj Hoff') as (a2 & T2 & A2).
    assert (a1 = a) as -> by congruence. assert (a2 = a) as -> by congruence.
    exact (at_inj _ _ _ _ _ _ _ _ _ _ _ _ Hl Ho' Hi Hj A1 A2).
Qed.
