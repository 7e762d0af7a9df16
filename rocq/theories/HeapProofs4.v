(** Proofs about the kernel heap, continued: progress. *)
From Verif Require Import Base MemModel MemSpec MemProofs BootModel BootSpec BootProofs HeapModel HeapSpec HeapProofs HeapProofs2 HeapProofs3.
Open Scope N_scope.

(** ** Every core has a node with a cache *)
Definition affs_ok (h : heap) : Prop :=
  N.max 1 (hp_nodes h) <= N.of_nat (length (hp_nc h)) /\
  forall i c, hp_cores h !! i = Some c -> ar_aff (co_cur c) < N.max 1 (hp_nodes h) /\ ar_aff (co_cur c) < N.of_nat (length (co_arenas c)).
Lemma affs_init h : heap_init h -> affs_ok h.
Proof. intros H. split; [apply (hi_nodes _ H)|]. intros i c Hi. apply (hi_core _ H i c Hi). Qed.
Lemma affs_on {A} h c (k : N -> ls -> res A * ls) r h' : affs_ok h -> on_core h c k = (r, h') -> affs_ok h'.
Proof.
  intros [H1 H2] E. unfold on_core in E. destruct (hp_cores h !! c) as [co|] eqn:Hc; [|by injection E as <- <-].
  destruct (hp_nc h !! N.to_nat (ar_aff (co_cur co))) as [nc|]; [|by injection E as <- <-].
  destruct (k _ _) as [r2 s]. injection E as <- <-. split; cbn [hp_nodes hp_nc hp_cores].
  - by rewrite insert_length.
  - intros i c' Hi. apply list_lookup_insert_Some in Hi as [(<- & <- & _)|[_ Hi]]; [|by eapply H2].
    cbn [co_cur co_arenas ar_aff]. by eapply H2.
Qed.
Lemma set_affinity_len nodes node c r c' : ar_aff (co_cur c) < N.of_nat (length (co_arenas c)) -> set_affinity nodes node c = (r, c') ->
  r <> Panic /\ length (co_arenas c') = length (co_arenas c) /\ (r = Ok true -> node = ar_aff (co_cur c) \/ node < N.of_nat (length (co_arenas c)) /\ node < N.max 1 nodes) /\
  (forall e, r <> Err e).
Proof.
  intros Ha E. unfold set_affinity in E. destruct (decide (node = ar_aff (co_cur c))) as [Hn|Hn].
  { injection E as <- <-. split; [done|]. split; [done|]. split; [by left|done]. }
  unfold swap_manager in E. destruct (decide (node < N.of_nat (length (co_arenas c)) /\ node < N.max 1 nodes)) as [Hv|Hv].
  2:{ injection E as <- <-. done. }
  rewrite insert_length in E. rewrite decide_True in E by lia. injection E as <- <-.
  split; [done|]. split; [cbn [co_arenas]; by rewrite !insert_length|]. split; [by right|done].
Qed.
Lemma affs_affinity num K L h c node r h' : ginv num K h L -> affs_ok h -> k_affinity h c node = (r, h') ->
  affs_ok h' /\ (is_Some (hp_cores h !! c) -> exists b, r = Ok b).
Proof.
  intros Hg [H1 H2] E. unfold k_affinity in E. destruct (hp_cores h !! c) as [co|] eqn:Hc.
  2:{ injection E as <- <-. split; [done|]. intros [? [=]]. }
  destruct (set_affinity (hp_nodes h) node co) as [r' co'] eqn:Es. injection E as <- <-.
  destruct (H2 c co Hc) as [A1 A2]. destruct (set_affinity_len _ _ _ _ _ A2 Es) as (S1 & S2 & S3 & S4).
  destruct (swap_frames _ _ _ _ _ (g_core _ _ _ _ Hg c co Hc) Es) as (_ & _ & W1 & W2 & _).
  split.
  - split; [done|]. cbn [hp_cores hp_nodes]. intros i c' Hi. apply list_lookup_insert_Some in Hi as [(<- & <- & _)|[_ Hi]]; [|by eapply H2].
    rewrite S2. destruct (decide (r' = Ok true)) as [Hr|Hr].
    + rewrite (W1 Hr). destruct (S3 Hr) as [->|[? ?]]; done.
    + rewrite (W2 Hr). done.
  - intros _. destruct r' as [b|e|]; [by exists b|by destruct (S4 e)|done].
Qed.
Lemma affs_hstep num K h L op h' L' : ginv num K h L -> affs_ok h -> hstep (h, L) op = Some (h', L') -> affs_ok h'.
Proof.
  intros Hg Ha E. destruct op as [c size align nt ch|c i|c i n nt ch|c node]; cbn [hstep] in E.
  - destruct (k_alloc h c size align nt ch) as [r h2] eqn:Ek. apply (affs_on _ _ _ _ _ Ha) in Ek.
    destruct r as [[p|]|e|]; [|..]; by simplify_eq.
  - destruct (L !! i) as [b|]; [|done]. destruct (k_dealloc h c (b_ptr b) (b_size b) (b_align b)) as [r h2] eqn:Ek. apply (affs_on _ _ _ _ _ Ha) in Ek.
    destruct r as [[]|e|]; [|..]; by simplify_eq.
  - destruct (L !! i) as [b|]; [|done]. destruct (k_realloc h c (b_ptr b) (b_size b) (b_align b) n nt ch) as [r h2] eqn:Ek. apply (affs_on _ _ _ _ _ Ha) in Ek.
    destruct r as [[p|]|e|]; [|..]; by simplify_eq.
  - destruct (k_affinity h c node) as [r h2] eqn:Ek. apply (affs_affinity _ _ _ _ _ _ _ _ Hg Ha) in Ek as [Ek _].
    destruct r as [b|e|]; [|..]; by simplify_eq.
Qed.

(** States of histories. *)
Definition good (num : bool) (st : heap * list blk) (op : hop) : Prop :=
  layout_ok op /\ keeps_class st.2 op /\ (num = true -> frees_home st op).
Lemma hrun_inv2 num K ops : forall h L h' L', ginv num K h L -> affs_ok h -> once num K -> low K -> hrun (h, L) ops = Some (h', L') ->
  along (good num) (h, L) ops -> ginv num K h' L' /\ affs_ok h'.
Proof.
  induction ops as [|op ops IH]; intros h L h' L' Hg Hf Ho Hl E Ha; cbn [hrun] in E.
  { by injection E as <- <-. }
  cbn [along] in Ha. destruct Ha as [(G1 & G2 & G3) Ha]. destruct (hstep (h, L) op) as [[h1 L1]|] eqn:Es; [|done].
  eapply IH; [| |done|done|exact E|exact Ha].
  - by eapply hstep_inv.
  - by eapply affs_hstep.
Qed.
Lemma reach num h0 ops h L : heap_init h0 -> along (good num) (h0, []) ops -> hrun (h0, []) ops = Some (h, L) ->
  ginv num (fun P a => covP P (all_free h0) a) h L /\ affs_ok h.
Proof.
  intros Hi Ha Hr. destruct (init_once num h0 Hi) as [Ho Hl]. eapply hrun_inv2; [by apply ginv_init|by apply affs_init|done|done|exact Hr|done].
Qed.
Lemma on_core_view {A} num K h L c (k : N -> ls -> res A * ls) co : ginv num K h L -> affs_ok h -> hp_cores h !! c = Some co ->
  exists nc, hp_nc h !! N.to_nat (ar_aff (co_cur co)) = Some nc /\
    on_core h c k = (let '(r, s) := k (ar_aff (co_cur co)) (view h co nc) in (r, upd h c co s)).
Proof.
  intros Hg [H1 H2] Hc. destruct (H2 c co Hc) as [A1 A2].
  destruct (lookup_lt_is_Some_2 (hp_nc h) (N.to_nat (ar_aff (co_cur co)))) as [nc Hn]; [lia|].
  exists nc. split; [done|]. unfold on_core. rewrite Hc, Hn. done.
Qed.

(** ** Allocation of up to a large page *)
Lemma alloc_large_S t s : alloc_large (S t) s =
    match mc_alloc_large (l_pm s) with
    | (Ok f, pm) => (Ok (Some (f_base f + KBASE)), set_pm s pm)
    | (Err _, pm) =>
      match refill_tcache 0 1 (set_pm s pm) with
      | (Ok _, s') => alloc_large t s'
      | (Err _, s') => (Ok None, s')
      | (Panic, s') => (Panic, s')
      end
    | (Panic, pm) => (Panic, set_pm s pm)
    end.
Proof. done. Qed.
Lemma alloc_large_progress num mb K s : sinv num mb K s -> 0 < freel s \/ mc_large (l_nc s) <> [] ->
  exists p s', alloc_large 3 s = (Ok (Some p), s').
Proof.
  intros Hi Hav. assert (H1 : forall t s, sinv num mb K s -> 0 < freel s -> exists p s', alloc_large (S t) s = (Ok (Some p), s')).
  { clear. intros t s Hi Hf. rewrite alloc_large_S.
    assert (Hok : mc_ok (l_pm s)) by apply (si_pair _ _ _ _ Hi). assert (Hfit : fits SBP SLP (l_pm s)) by apply (si_pair _ _ _ _ Hi).
    pose proof (alloc_large_spec _ _ _ Hok Hfit) as Ha.
    destruct (mc_alloc_large (l_pm s)) as [[f|e|] pm] eqn:Ea; [eauto| |done].
    destruct Ha as (_ & _ & Hz). unfold freel in Hf. rewrite Hz in Hf. done. }
  destruct (decide (0 < freel s)) as [Hf|Hf]; [by apply H1|].
  destruct Hav as [?|Hnc]; [done|].
  assert (Hok : mc_ok (l_pm s)) by apply (si_pair _ _ _ _ Hi). assert (Hfit : fits SBP SLP (l_pm s)) by apply (si_pair _ _ _ _ Hi).
  rewrite alloc_large_S.
  pose proof (alloc_large_spec _ _ _ Hok Hfit) as Ha.
  destruct (mc_alloc_large (l_pm s)) as [[f|e|] pm] eqn:Ea; [eauto| |done].
  destruct Ha as (_ & -> & Hz). assert (set_pm s (l_pm s) = s) as -> by (by destruct s).
  pose proof (refill_tcache_spec 0 1 s (si_pair _ _ _ _ Hi)) as Hr. destruct (refill_tcache 0 1 s) as [r s2].
  destruct Hr as (R1 & R2 & R3 & R4 & R5 & R6 & R7 & R8). destruct (sinv_refill num mb K s s2 Hi R2 R3 R4) as [Hi2 Hg2].
  destruct r as [[]|e2|]; [| |done].
  - destruct (R7 eq_refl) as [_ R7'].
    apply (H1 1%nat); [done|lia].
  - exfalso. destruct (R8 e2 eq_refl) as [?|Hlt]; [lia|]. destruct (mc_large (l_nc s)); [done|cbn in Hlt; lia].
Qed.

(** From the slab allocator: whatever its first answer, there is a second one (a slot of
    the page it was given meanwhile). *)
Lemma maybe_refill_avail nb nl s : pairok (l_pm s) (l_nc s) ->
  nb <= 1 -> nl <= 1 -> (nb <= freeb s \/ mc_base (l_nc s) <> []) -> (nl <= freel s \/ mc_large (l_nc s) <> []) -> nb = 0 \/ nl = 0 ->
  exists s', maybe_refill nb nl s = (Ok tt, s') /\ nb <= freeb s' /\ nl <= freel s'.
Proof.
  intros Hp Hnb Hnl Hb Hl H0. pose proof (maybe_refill_spec nb nl s Hp) as Hr. unfold maybe_refill in *.
  destruct (decide (N.of_nat (length (mc_base (l_pm s))) < nb \/ N.of_nat (length (mc_large (l_pm s))) < nl)) as [Hd|Hd].
  - destruct (refill_tcache nb nl s) as [r s2]. destruct Hr as (R1 & R2 & R3 & R4 & R5 & R6 & R7 & R8).
    destruct r as [[]|e|]; [| |done].
    + destruct (R7 eq_refl). exists s2. split; [done|]. lia.
    + exfalso. unfold freeb, freel in *. destruct (R8 e eq_refl) as [Hx|Hx].
      * destruct (mc_base (l_nc s)); [destruct Hb; [lia|done]|cbn [length] in Hx; lia].
      * destruct (mc_large (l_nc s)); [destruct Hl; [lia|done]|cbn [length] in Hx; lia].
  - exists s. split; [done|]. unfold freeb, freel. lia.
Qed.
Lemma slot_zero mb core aff size b : mb <= 2048 -> mb_ok mb -> size <= MAX_ZONE -> b ∈ zp_slots mb (mkZp core aff (class_of size) b []).
Proof.
  intros Hmb Hok Hs. unfold zp_slots. cbn [zp_base zp_class]. apply elem_of_list_fmap. exists 0%nat. split; [lia|].
  apply elem_of_seq. split; [lia|].
  assert (Hd : 1 <= (zpsize mb (class_of size) - 80) / class_of size); [|lia].
  pose proof (class_pos size). apply N.div_le_lower_bound; [lia|]. rewrite (class_mb mb size Hok).
  assert (HBP : BASE_PAGE = 4096) by done. assert (HLP : LARGE_PAGE = 2097152) by done.
  case_decide as Hd.
  - apply class_mono in Hd. unfold mb_ok in Hok. lia.
  - apply class_mono in Hs. change (class_of MAX_ZONE) with 131072 in Hs. lia.
Qed.
Lemma zone_alloc_tail mb core aff size align o (ch : list choice) s : zone_alloc mb core aff size align (o :: ch) s =
  match zone_alloc mb core aff size align [o] s with (r, _, s1) => (r, ch, s1) end.
Proof. unfold zone_alloc. cbn [next_choice tail]. destruct o as [[i y]|]; [|done]. by destruct (use_slot _ _ _ _ _ _ _ _). Qed.
Lemma alloc_zone_progress num mb K core aff size align o s : mb <= 2048 -> mb_ok mb -> sinv num mb K s -> once num K -> aff = mc_node (l_pm s) ->
  size <= MAX_ZONE -> 0 < align -> 4096 mod align = 0 ->
  (if decide (size <= mb) then 0 < freeb s \/ mc_base (l_nc s) <> [] else 0 < freel s \/ mc_large (l_nc s) <> []) ->
  exists o2 p ch s', alloc_zone 3 mb core aff size align [o; o2] s = (Ok (Some p), ch, s').
Proof.
  intros Hmb2 Hmb Hi Ho Ha Hs Hal Hdiv Hav.
  pose proof (zone_alloc_spec num mb K core aff size align [o] s Hi Ho) as Hz.
  destruct (zone_alloc mb core aff size align [o] s) as [[[x|e|] ch'] s1] eqn:Ez; [| |done].
  { exists None, (x + KBASE), [None], s1. rewrite alloc_zone_S, zone_alloc_tail, Ez. done. }
  subst s1.
  assert (Hr : exists s2, (if decide (size <= mb) then maybe_refill 1 0 s else maybe_refill 0 1 s) = (Ok tt, s2) /\
    (if decide (size <= mb) then 0 < freeb s2 else 0 < freel s2)).
  { destruct (decide (size <= mb)).
    - destruct (maybe_refill_avail 1 0 s (si_pair _ _ _ _ Hi)) as (s2 & E & H1 & H2); [lia|lia|destruct Hav; [left; lia|by right]|left; lia|by right|].
      exists s2. split; [done|lia].
    - destruct (maybe_refill_avail 0 1 s (si_pair _ _ _ _ Hi)) as (s2 & E & H1 & H2); [lia|lia|left; lia|destruct Hav; [left; lia|by right]|by left|].
      exists s2. split; [done|lia]. }
  destruct Hr as (s2 & Hr & Hav2).
  assert (Hi2 : sinv num mb K s2 /\ grows s s2).
  { assert (forall nb nl, maybe_refill nb nl s = (Ok tt, s2) -> sinv num mb K s2 /\ grows s s2) as Hx.
    { intros nb nl E. pose proof (maybe_refill_spec nb nl s (si_pair _ _ _ _ Hi)) as H. rewrite E in H. destruct H as (M1 & M2 & M3 & M4 & _).
      by apply sinv_refill. }
    case_decide; by eapply Hx. }
  destruct Hi2 as [Hi2 Hg2].
  pose proof (refill_zone_spec num mb K core aff size s2 Hmb Hi2 Ho ltac:(rewrite (gr_node _ _ Hg2); done)) as Hf.
  destruct (refill_zone mb core aff size s2) as [[[]|e3|] s3] eqn:Ef; [| |done].
  2:{ exfalso. destruct Hf as [_ Hf]. case_decide; lia. }
  destruct Hf as (F1 & _ & _ & _ & b & F4).
  assert (Hbal : (b + KBASE) mod align = 0).
  { assert (Hp : zp_ok mb (mkZp core aff (class_of size) b [])).
    { apply (proj1 (stdpp.list.Forall_forall _ _) (si_zone _ _ _ _ F1)). rewrite F4. by left. }
    destruct Hp as (P1 & _ & _). cbn [zp_base zp_class] in P1. rewrite class_mb in P1 by done.
    assert (P2 : b mod 4096 = 0).
    { case_decide; [exact P1|]. apply (mod_trans b 2097152); [lia|lia|exact P1|done]. }
    apply (mod_trans _ 4096); [lia|lia| |done]. apply mod_add_r; [lia|done|]. vm_compute. reflexivity. }
  exists (Some (0%nat, b)), (b + KBASE), [].
  eexists. rewrite alloc_zone_S, zone_alloc_tail, Ez.
  rewrite Hr, Ef. rewrite alloc_zone_S. unfold zone_alloc. cbn [next_choice tail]. unfold use_slot. rewrite F4. cbn [lookup list_lookup].
  assert (slot_ok mb core aff size align (mkZp core aff (class_of size) b []) b = true) as ->; [|reflexivity].
  unfold slot_ok. apply bool_decide_eq_true. split; [done|]. split; [done|]. split; [done|].
  split; [by apply slot_zero|]. split; [apply not_elem_of_nil|done].
Qed.

