(** C42: loading a program. *)
From Verif Require Import Base VsModel VsSpec VsProofs VsProps ElfModel ElfSpec ElfProofs.
Local Ltac elia := zify; Z.to_euclidean_division_equations; lia.

(** ** The frames used *)

Lemma pages_of_len wfr hs : forall sup, length (pages_of wfr hs sup) = length hs.
Proof. induction hs as [|h hs IH]; intros sup; [done|]. cbn [pages_of length]. by rewrite IH. Qed.
Lemma pages_of_lookup wfr hs : Forall (fun h => ph_w h = true -> n_pages h <= length wfr) hs -> forall sup i h,
  demand false hs <= length sup -> hs !! i = Some h ->
  exists frs, pages_of wfr hs sup !! i = Some (pair_pages (page_base h) frs) /\ length frs = n_pages h /\ (ph_w h = true -> frs = take (n_pages h) wfr).
Proof.
  induction 1 as [|g hs Hg _ IH]; intros sup i h Hd Hi; [done|]. unfold demand, list_sum in Hd. cbn [map fold_right] in Hd.
  destruct i as [|i]; cbn [pages_of lookup list_lookup] in *.
  - injection Hi as ->. exists (take (n_pages h) (if ph_w h then wfr else sup)). split; [done|].
    destruct (ph_w h) eqn:W; (split; [|done]); apply take_length_le; [by apply Hg|]. cbn [Bool.eqb] in Hd. lia.
  - apply IH; [|done]. unfold demand, list_sum. destruct (ph_w g); cbn [Bool.eqb] in Hd; [lia|]. rewrite drop_length. lia.
Qed.
Lemma pages_of_from wfr hs : forall sup f, f ∈ map snd (concat (pages_of wfr hs sup)) -> f ∈ sup \/ f ∈ wfr /\ exists h, h ∈ hs /\ ph_w h = true.
Proof.
  induction hs as [|h hs IH]; intros sup f Hf; cbn [pages_of concat map] in Hf; [by apply elem_of_nil in Hf|].
  rewrite map_app, pair_pages_snd in Hf. apply elem_of_app in Hf as [Hf|Hf].
  - destruct (ph_w h) eqn:W.
    + right. split; [apply elem_of_take in Hf as (k & Hk & _); by eapply elem_of_list_lookup_2|]. exists h. split; [by left|done].
    + left. apply elem_of_take in Hf as (k & Hk & _). by eapply elem_of_list_lookup_2.
  - apply IH in Hf as [Hf|(Hf & g & Hg & Wg)].
    + left. destruct (ph_w h); [done|]. apply elem_of_list_lookup in Hf as [k Hk]. rewrite lookup_drop in Hk. by eapply elem_of_list_lookup_2.
    + right. split; [done|]. exists g. split; [by right|done].
Qed.
Lemma take_nodup {A} n (l : list A) : NoDup l -> NoDup (take n l).
Proof. rewrite <- (take_drop n l) at 1. by intros [H _]%NoDup_app. Qed.
Lemma pages_of_nodup wfr hs : (forall i j h g, hs !! i = Some h -> hs !! j = Some g -> ph_w h = true -> ph_w g = true -> i = j) ->
  forall sup, NoDup (wfr ++ sup) -> NoDup (map snd (concat (pages_of wfr hs sup))).
Proof.
  induction hs as [|h hs IH]; intros Hone sup Hnd; cbn [pages_of concat map]; [constructor|].
  rewrite map_app, pair_pages_snd. apply NoDup_app in Hnd as Hnd'. destruct Hnd' as (N1 & N2 & N3).
  assert (forall i j g g', hs !! i = Some g -> hs !! j = Some g' -> ph_w g = true -> ph_w g' = true -> i = j) as Hone'.
  { intros i j g g' Hi Hj Wi Wj. by injection (Hone (S i) (S j) g g' Hi Hj Wi Wj). }
  destruct (ph_w h) eqn:W.
  - apply NoDup_app. split; [by apply take_nodup|]. split; [|by apply IH].
    intros f Hf Hc. apply elem_of_take in Hf as (k & Hk & _). apply elem_of_list_lookup_2 in Hk.
    apply pages_of_from in Hc as [Hc|(_ & g & Hg & Wg)]; [by eapply N2|].
    apply elem_of_list_lookup in Hg as [j Hj]. by pose proof (Hone 0 (S j) h g eq_refl Hj W Wg).
  - assert (NoDup (take (n_pages h) sup ++ drop (n_pages h) sup)) as N4 by (by rewrite take_drop). apply NoDup_app in N4 as (N4 & N5 & N6).
    apply NoDup_app. split; [done|]. split.
    + intros f Hf Hc. apply pages_of_from in Hc as [Hc|(Hc & _)]; [by eapply N5|]. apply elem_of_take in Hf as (k & Hk & _).
      eapply N2; [exact Hc|]. by eapply elem_of_list_lookup_2.
    + apply IH; [done|]. apply NoDup_app. split; [done|]. split; [|done]. intros f Hf Hc. eapply N2; [exact Hf|].
      apply elem_of_list_lookup in Hc as [k Hk]. rewrite lookup_drop in Hk. by eapply elem_of_list_lookup_2.
Qed.

Lemma in_concat {A} (ll : list (list A)) x : x ∈ concat ll <-> exists i l, ll !! i = Some l /\ x ∈ l.
Proof.
  rewrite elem_of_list_In, in_concat. split.
  - intros (l & Hl & Hx). apply elem_of_list_In in Hl, Hx. apply elem_of_list_lookup in Hl as [i Hi]. by exists i, l.
  - intros (i & l & Hi & Hx). exists l. split; apply elem_of_list_In; [by eapply elem_of_list_lookup_2|done].
Qed.

Lemma pages_good off hs wfr sup : layout_ok off hs -> Forall (fun h => ph_w h = true -> n_pages h <= length wfr) hs ->
  demand false hs <= length sup -> NoDup (wfr ++ sup) -> Forall (fun f => f mod LARGE = 0)%N (wfr ++ sup) ->
  good (concat (pages_of wfr hs sup)).
Proof.
  intros Lo Hw Hd Hnd Hal.
  assert (forall eb f, (eb, f) ∈ concat (pages_of wfr hs sup) -> exists i h frs k, hs !! i = Some h /\
    pages_of wfr hs sup !! i = Some (pair_pages (page_base h) frs) /\ length frs = n_pages h /\ frs !! k = Some f /\ eb = (page_base h + N.of_nat k * LARGE)%N) as Hin.
  { intros eb f H. apply in_concat in H as (i & l & Hi & Hx).
    destruct (lookup_lt_is_Some_2 hs i) as [h Hh]; [rewrite <- (pages_of_len wfr hs sup); by eapply lookup_lt_Some|].
    destruct (pages_of_lookup wfr hs Hw sup i h Hd Hh) as (frs & Hl & Len & _). rewrite Hl in Hi. injection Hi as <-.
    apply pair_pages_in in Hx as (k & Hk & ->). by exists i, h, frs, k. }
  split.
  - intros eb f H. destruct (Hin _ _ H) as (i & h & frs & k & _ & _ & _ & _ & ->). rewrite page_base_eq. rewrite <- N.mul_add_distr_r. by apply N.mod_mul.
  - intros eb f H. assert (f ∈ map snd (concat (pages_of wfr hs sup))) as Hf by (by apply (elem_of_list_fmap_1 snd _ (eb, f))).
    apply (proj1 (Forall_forall _ _) Hal). apply elem_of_app. apply pages_of_from in Hf as [|[]]; auto.
  - intros eb f g H1 H2. destruct (Hin _ _ H1) as (i & h & frs & k & Hi & Li & Ni & Ki & E1).
    destruct (Hin _ _ H2) as (j & h' & frs' & k' & Hj & Lj & Nj & Kj & E2).
    assert (i = j) as <-.
    { pose proof (lookup_lt_Some _ _ _ Ki). pose proof (lookup_lt_Some _ _ _ Kj).
      apply (lo_apart _ _ Lo i j h h' (eb / LARGE)); [done..| |].
      - apply (page_on_page h (N.of_nat k)); [lia|]. rewrite E1. unfold within, LARGE. lia.
      - apply (page_on_page h' (N.of_nat k')); [lia|]. rewrite E2. unfold within, LARGE. lia. }
    rewrite Hi in Hj. injection Hj as <-. rewrite Li in Lj. injection Lj as Lj.
    assert (frs = frs') as <- by (rewrite <- (pair_pages_snd (page_base h) frs), Lj; apply pair_pages_snd).
    assert (k = k') as <- by (clear -E1 E2; subst; unfold LARGE in *; lia). congruence.
  - intros eb eb' f H1 H2. pose proof (pages_of_nodup wfr hs (lo_one _ _ Lo) sup Hnd) as N.
    apply elem_of_list_lookup in H1 as [i Hi], H2 as [j Hj].
    assert (i = j) as <-.
    { eapply (NoDup_lookup _ i j f N); change (map ?g ?l) with (g <$> l); rewrite list_lookup_fmap; [by rewrite Hi|by rewrite Hj]. }
    congruence.
Qed.

Lemma ds_allocate_none hs sup : Forall (fun h => ph_w h = false) hs -> ds_allocate hs sup = Ok [].
Proof. induction 1 as [|h hs W _ IH]; [done|]. cbn [ds_allocate]. by rewrite W. Qed.
Lemma ds_allocate_ok hs sup : (forall i j h g, hs !! i = Some h -> hs !! j = Some g -> ph_w h = true -> ph_w g = true -> i = j) ->
  demand true hs <= length sup ->
  (Forall (fun h => ph_w h = false) hs /\ ds_allocate hs sup = Ok []) \/
  (exists h, h ∈ hs /\ ph_w h = true /\ n_pages h <= length sup /\ ds_allocate hs sup = Ok (pair_pages (page_base h) (take (n_pages h) sup))).
Proof.
  induction hs as [|h hs IH]; intros Hone Hd; [by left|]. unfold demand, list_sum in Hd. cbn [map fold_right] in Hd. cbn [ds_allocate].
  destruct (ph_w h) eqn:W.
  - right. exists h. cbn [Bool.eqb] in Hd. split; [by left|]. split; [done|]. split; [lia|].
    assert ((length sup <? n_pages h) = false) as -> by (apply Nat.ltb_ge; lia).
    rewrite ds_allocate_none; [by rewrite app_nil_r|]. apply Forall_forall. intros g Hg. apply elem_of_list_lookup in Hg as [j Hj].
    destruct (ph_w g) eqn:Wg; [|done]. by pose proof (Hone 0 (S j) h g eq_refl Hj W Wg).
  - destruct IH as [[H1 H2]|(g & H1 & H2 & H3 & H4)].
    + intros i j g g' Hi Hj Wi Wj. by injection (Hone (S i) (S j) g g' Hi Hj Wi Wj).
    + unfold demand, list_sum. lia.
    + left. split; [by constructor|done].
    + right. exists g. split; [by right|done].
Qed.

Lemma chunk_some a0 bs a v : chunk a0 bs a = Some v <-> within a0 (N.of_nat (length bs)) a /\ v = nth (N.to_nat (a - a0)) bs 0%N.
Proof.
  unfold chunk, within. destruct (_ && _) eqn:E.
  - apply andb_true_iff in E as [E1 E2]. apply N.leb_le in E1. apply N.ltb_lt in E2. split; [by intros [= <-]|by intros [_ ->]].
  - split; [done|]. intros [[H1 H2] _]. apply N.leb_le in H1. apply N.ltb_lt in H2. by rewrite H1, H2 in E.
Qed.
Lemma chunk_none a0 bs a : ~ within a0 (N.of_nat (length bs)) a -> chunk a0 bs a = None.
Proof. intros H. destruct (chunk a0 bs a) eqn:E; [|done]. by apply chunk_some in E as [? _]. Qed.
Lemma le8_nth v i : i < 8 -> nth i (le8 v) 0%N = (v / 256 ^ N.of_nat i mod 256)%N.
Proof. intros H. do 8 (destruct i as [|i]; [done|]). lia. Qed.

(** The byte a relocation puts at an address. *)
Definition rel_byte (off : N) (r : rela) (a : N) : N := ((off + rl_add r) / 256 ^ (a - rl_off r) mod 256)%N.
Lemma word_some off r act a w : word off r act a = Some w <-> act = true /\ covers r a /\ w = rel_byte off r a.
Proof.
  unfold word, covers, rel_byte. destruct act; [|split; [done|by intros [? _]]]. rewrite chunk_some, le8_len. change (N.of_nat 8) with 8%N.
  assert (within (rl_off r) 8 a -> nth (N.to_nat (a - rl_off r)) (le8 (off + rl_add r)) 0%N = ((off + rl_add r) / 256 ^ (a - rl_off r) mod 256)%N) as H.
  { intros [H1 H2]. rewrite le8_nth by lia. by rewrite N2Nat.id. }
  split; [intros [H1 ->]; by rewrite H|intros (_ & H1 & ->); by rewrite H].
Qed.
Lemma same_word x y a : (x mod 8 = 0 -> y mod 8 = 0 -> within x 8 a -> within y 8 a -> x = y)%N.
Proof. unfold within. elia. Qed.

(** ** The theorem *)

(** For every layout and all relocations the loader supports, given enough large pages, loading
    succeeds.  Then the address of every byte of every segment is mapped with the rights the
    header asks for, different addresses to different memory, and this byte is:
    the byte of the relocated word, if a relocation covers it;
    else the byte of the file, if the file has one for it;
    else what the page contained before.
    Other addresses translate as before and memory outside of the supplied pages is unchanged. *)
Theorem C42_load_partial dbg off hs rs relro wsup rsup vs m :
  reach true dbg vs -> layout_ok off hs -> relocs_ok off hs rs -> supply_ok hs wsup rsup ->
  Forall (fun s => (off + s.1 + s.2) mod 4096 = 0)%N relro ->
  (forall h k x, h ∈ hs -> on_page h k -> within (off + k * LARGE) LARGE x -> vs_resolve vs x = Err NotMapped) ->
  exists vs' m' at_pa, elf_load true dbg off hs rs relro wsup rsup vs m = Ok (vs', m') /\
    (forall h a, h ∈ hs -> in_seg h a ->
       vs_resolve vs' (off + a) = Ok (at_pa a, seg_rights h) /\
       (forall r, r ∈ rs -> covers r a -> m' (at_pa a) = ((off + rl_add r) / 256 ^ (a - rl_off r) mod 256)%N) /\
       ((forall r, r ∈ rs -> ~ covers r a) -> in_file h a -> m' (at_pa a) = nth (N.to_nat (a - ph_va h)) (ph_bytes h) 0%N) /\
       ((forall r, r ∈ rs -> ~ covers r a) -> ~ in_file h a -> m' (at_pa a) = m (at_pa a))) /\
    (forall h g a b, h ∈ hs -> g ∈ hs -> in_seg h a -> in_seg g b -> at_pa a = at_pa b -> a = b) /\
    (forall h a, h ∈ hs -> in_seg h a -> exists f, f ∈ wsup ++ rsup /\ within f LARGE (at_pa a)) /\
    (forall x, (x < 2 ^ 48)%N -> (forall h k, h ∈ hs -> on_page h k -> ~ within (off + k * LARGE) LARGE x) -> vs_resolve vs' x = vs_resolve vs x) /\
    (forall p, (forall f, f ∈ wsup ++ rsup -> ~ within f LARGE p) -> m' p = m p).
Proof.
  intros R Lo Ro Su Hrel Hun. pose proof (lo_off _ _ Lo) as Ho.
  pose proof (su_nodup _ _ _ Su) as Snd. pose proof (su_al _ _ _ Su) as Sal.
  (* the frames of the writable header *)
  assert (exists fw frw, ds_allocate hs wsup = Ok fw /\ map snd fw = frw /\ (forall f, f ∈ frw -> f ∈ wsup) /\ NoDup (frw ++ rsup) /\
    length fw <= 4 /\ (forall h, h ∈ hs -> ph_w h = true -> fw = pair_pages (page_base h) frw /\ length frw = n_pages h) /\
    (forall e, e ∈ fw -> exists h, h ∈ hs /\ ph_w h = true)) as (fw & frw & Ea & Efw & Fin & Fnd & F4 & Fw & Fe).
  { destruct (ds_allocate_ok hs wsup (lo_one _ _ Lo) (su_w _ _ _ Su)) as [[H1 H2]|(h & H1 & H2 & H3 & H4)].
    - exists [], []. split; [done|]. split; [done|]. split; [intros f Hf; by apply elem_of_nil in Hf|]. split; [by apply NoDup_app in Snd as (_ & _ & ?)|].
      split; [cbn; lia|]. split; [|intros e He; by apply elem_of_nil in He]. intros h Hh W. by rewrite (proj1 (Forall_forall _ _) H1 h Hh) in W.
    - exists (pair_pages (page_base h) (take (n_pages h) wsup)), (take (n_pages h) wsup). split; [done|]. split; [apply pair_pages_snd|].
      assert (forall f, f ∈ take (n_pages h) wsup -> f ∈ wsup) as Hsub.
      { intros f Hf. apply elem_of_take in Hf as (k & Hk & _). by eapply elem_of_list_lookup_2. }
      assert (length (take (n_pages h) wsup) = n_pages h) as Hl by (by apply take_length_le).
      split; [done|]. apply NoDup_app in Snd as (N1 & N2 & N3). split; [apply NoDup_app; split; [by apply take_nodup|]; split; [|done]; auto|].
      split; [rewrite pair_pages_len, Hl; by apply (proj1 (Forall_forall _ _) (lo_four _ _ Lo) h H1)|].
      split; [|intros e _; by exists h]. intros g Hg W. assert (g = h) as ->; [|done].
      apply elem_of_list_lookup in Hg as [i Hi], H1 as [j Hj]. assert (i = j) as <- by (by eapply (lo_one _ _ Lo)). congruence. }
  assert (Forall (fun h => ph_w h = true -> n_pages h <= length frw) hs) as Hw.
  { apply Forall_forall. intros h Hh W. destruct (Fw h Hh W) as [_ ->]. done. }
  assert (Forall (fun f => f mod LARGE = 0)%N (frw ++ rsup)) as Fal.
  { apply Forall_app in Sal as [S1 S2]. apply Forall_app. split; [|done]. apply Forall_forall. intros f Hf. by apply (proj1 (Forall_forall _ _) S1), Fin. }
  pose proof (pages_good off hs frw rsup Lo Hw (su_r _ _ _ Su) Fnd Fal) as G.
  set (fs := concat (pages_of frw hs rsup)) in *.
  assert (forall h a, h ∈ hs -> in_seg h a -> exists i l eb f, hs !! i = Some h /\ pages_of frw hs rsup !! i = Some l /\ (eb, f) ∈ l /\ (eb, f) ∈ fs /\ within eb LARGE a /\ (ph_w h = true -> (eb, f) ∈ fw)) as Hseg.
  { intros h a Hh Ha. apply elem_of_list_lookup in Hh as Hh'. destruct Hh' as [i Hi].
    destruct (pages_of_lookup frw hs Hw rsup i h (su_r _ _ _ Su) Hi) as (frs & Hl & Len & Hfw).
    destruct (seg_page h a Ha) as (k & Hk & Hwk). destruct (lookup_lt_is_Some_2 frs (N.to_nat k)) as [f Hf]; [rewrite Len; clear -Hk; lia|].
    assert ((page_base h + k * LARGE, f)%N ∈ pair_pages (page_base h) frs) as Hp by (apply pair_pages_in; exists (N.to_nat k); by rewrite N2Nat.id).
    exists i, (pair_pages (page_base h) frs), (page_base h + k * LARGE)%N, f. split; [done|]. split; [done|]. split; [done|].
    split; [apply in_concat; by exists i, (pair_pages (page_base h) frs)|]. split; [done|].
    intros W. destruct (Fw h Hh W) as [-> E]. specialize (Hfw W). rewrite take_ge in Hfw by (rewrite E; done). by rewrite <- Hfw. }
  assert (forall e, e ∈ fw -> e ∈ fs) as Hsub.
  { intros e He. destruct (Fe e He) as (h & Hh & W). destruct (Fw h Hh W) as [E Len]. apply elem_of_list_lookup in Hh as [i Hi].
    destruct (pages_of_lookup frw hs Hw rsup i h (su_r _ _ _ Su) Hi) as (frs & Hl & Len' & Hfw). specialize (Hfw W). rewrite take_ge in Hfw by (rewrite Len; done).
    apply in_concat. exists i, (pair_pages (page_base h) frs). split; [done|]. rewrite Hfw, <- E. done. }
  (* the process maps them *)
  destruct (p_allocate_ok dbg off frw hs Ho) with (sup := rsup) (vs := vs) as (vs' & Ep & R' & P1 & P2).
  { by apply Forall_app in Fal as [? _]. }
  { eapply Forall_impl; [exact (lo_hdr _ _ Lo)|]. by intros h (? & _ & ?). }
  { exact (lo_apart _ _ Lo). }
  { done. }
  { by apply Forall_app in Fal as [_ ?]. }
  { exact (su_r _ _ _ Su). }
  { done. }
  { intros h x Hh Hx. pose proof (range_on_page off h x Ho Hx) as [Hx1 Hx2]. eapply Hun; [done..|]. clear -Hx1. unfold within, LARGE. elia. }
  assert (forall h a, h ∈ hs -> in_seg h a -> exists p, at_ fs a p /\ vs_resolve vs' (off + a) = Ok (p, seg_rights h)) as Hat.
  { intros h a Hh Ha. destruct (Hseg h a Hh Ha) as (i & l & eb & f & Hi & Hl & Hin & Hfs & Hwi & _).
    exists (f + (a - eb))%N. split; [by exists eb, f|]. by eapply P1. }
  assert (forall a p q, at_ fs a p -> at_ fs a q -> p = q) as Hfun.
  { intros a p q (eb & f & I1 & W1 & ->) (eb' & f' & I2 & W2 & ->).
    assert (eb = eb') as <- by (apply (aligned_same eb eb' a); [by eapply (g_eb _ G)..|done|done]). by rewrite (g_fst _ G _ _ _ I1 I2). }
  assert (forall a b p, at_ fs a p -> at_ fs b p -> a = b) as Hinj.
  { intros a b p (eb & f & I1 & W1 & E1) (eb' & f' & I2 & W2 & E2).
    assert (f = f') as <-. { apply (aligned_same f f' p); [by eapply (g_f _ G)..| |]; destruct W1, W2; split; lia. }
    assert (eb = eb') as <- by (by eapply (g_snd _ G)). destruct W1, W2. lia. }
  assert (forall h g a, h ∈ hs -> g ∈ hs -> in_seg h a -> in_seg g a -> h = g) as Hsame.
  { intros h g a Hh Hg Ha Hb. apply elem_of_list_lookup in Hh as [i Hi], Hg as [j Hj].
    assert (i = j) as <- by (apply (lo_apart _ _ Lo i j h g (a / LARGE)); [done..|by apply seg_on_page|by apply seg_on_page]). congruence. }
  assert (forall h a, h ∈ hs -> in_file h a -> in_seg h a) as Hfile.
  { intros h a Hh [A1 A2]. destruct (proj1 (Forall_forall _ _) (lo_hdr _ _ Lo) h Hh) as (_ & B & _). split; lia. }
  (* copying the data *)
  destruct (fold_eff fs (ds_load fw) (fun h a => if ph_w h then chunk (ph_va h) (ph_bytes h) a else None) hs) with (m := m) as (m1 & E1 & A1 & B1 & C1).
  { intros h Hh m0. unfold ds_load. destruct (ph_w h) eqn:W; [|by exists m0; split; [|apply eff_refl]].
    destruct (Fw h Hh W) as [Ew Len]. rewrite Ew. apply ds_copy_ok; [done|by rewrite <- Ew|]. right.
    destruct (proj1 (Forall_forall _ _) (lo_hdr _ _ Lo) h Hh) as (_ & B & _). rewrite Len. clear -B.
    unfold page_base, n_pages. rewrite N2Nat.id. revert B. generalize (N.of_nat (length (ph_bytes h))) (ph_va h) (ph_memsz h). clear h. intros n va ms B. unfold LARGE. elia. }
  (* relocating the data *)
  assert (forall r, r ∈ rs -> rl_rel r = true /\ (off + rl_add r < 2 ^ 64)%N /\ (rl_off r mod 8 = 0)%N) as Hre by (apply Forall_forall, (ro_each _ _ _ Ro)).
  assert (forall r, r ∈ rs -> exists h, h ∈ hs /\ in_seg h (rl_off r) /\ in_seg h (rl_off r + 7) /\ (ph_w h = false -> rl_off r < ro_end hs)%N) as Hri by (apply Forall_forall, (ro_in _ _ _ Ro)).
  destruct (fold_eff fs (ds_relocate dbg off fw) (fun r => word off r (hits fw (rl_off r))) rs) with (m := m1) as (m2 & E2 & A2 & B2 & C2).
  { intros r Hr m0. destruct (Hre r Hr) as (X1 & X2 & X3). apply ds_relocate_ok; [done..|].
    intros eb f Hin. destruct (Fe _ Hin) as (h & Hh & W). destruct (Fw h Hh W) as [Ew Len]. rewrite Ew in Hin. apply pair_pages_in in Hin as (k & Hk & ->).
    pose proof (lookup_lt_Some _ _ _ Hk) as Hlt. rewrite Len in Hlt.
    pose proof (ro_edge _ _ _ Ro r h (ph_va h / LARGE + N.of_nat k)%N Hr Hh W) as X. rewrite page_base_eq. intros Eq. apply X; [unfold on_page; clear -Hlt; lia|].
    rewrite Eq. clear. lia. }
  (* copying the rest *)
  destruct (fold_eff fs (p_load_mem vs' off) (fun h a => if ph_w h then None else chunk (ph_va h) (ph_bytes h) a) hs) with (m := m2) as (m3 & E3 & A3 & B3 & C3).
  { intros h Hh m0. unfold p_load_mem. destruct (ph_w h) eqn:W; [by exists m0; split; [|apply eff_refl]|].
    apply p_copy_ok; [done|]. intros a Ha. destruct (Hseg h a Hh) as (i & l & eb & f & Hi & Hl & Hin & Hfs & Hwi & _); [by apply Hfile|].
    exists eb, f, (seg_rights h). split; [done|]. split; [done|]. by eapply P1. }
  (* relocating the rest *)
  set (ro := foldl (ro_step off) 0%N hs).
  destruct (fold_eff fs (p_relocate dbg vs' off ro) (fun r => word off r (negb (ro <=? off + rl_off r)%N)) rs) with (m := m3) as (m4 & E4 & A4 & B4 & C4).
  { intros r Hr m0. unfold p_relocate. destruct (ro <=? off + rl_off r)%N; cbn [negb]; [by exists m0; split; [|apply eff_refl]|].
    destruct (Hre r Hr) as (X1 & X2 & X3). destruct (Hri r Hr) as (h & Hh & S1 & _).
    destruct (Hseg h _ Hh S1) as (i & l & eb & f & Hi & Hl & Hin & Hfs & Hwi & _). rewrite (P1 i h l eb f _ Hi Hl Hin Hwi), X1, (rel_word_ok _ _ _ X2).
    eexists. split; [done|]. unfold word. apply poke_eff; [done|done|by destruct Hwi|]. rewrite le8_len. apply (word_fits eb); [by eapply (g_eb _ G)|done|done]. }
  (* together *)
  exists vs', m4, (fun a => match vs_resolve vs' (off + a) with Ok (p, _) => p | _ => 0%N end).
  assert (forall h a p, h ∈ hs -> in_seg h a -> at_ fs a p -> vs_resolve vs' (off + a) = Ok (p, seg_rights h)) as Hres.
  { intros h a p Hh Ha Hp. destruct (Hat h a Hh Ha) as (q & Hq & ->). by rewrite (Hfun _ _ _ Hp Hq). }
  split.
  { unfold elf_load, ds_run. rewrite Ea, E1, E2. assert ((4 <? length fw) = false) as H4 by (by apply Nat.ltb_ge). rewrite H4, andb_false_r.
    unfold p_run. rewrite map_length, H4, Efw, Ep, (p_load_split _ _ _ _ _ _ E3). fold ro. rewrite E4.
    unfold p_readonly. assert (forallb (fun s => (off + s.1 + s.2) mod BASE =? 0)%N relro = true) as ->; [|done].
    apply forallb_forall. intros s Hs. apply elem_of_list_In in Hs. apply N.eqb_eq. by apply (proj1 (Forall_forall _ _) Hrel). }
  assert (forall r r' a, r ∈ rs -> r' ∈ rs -> covers r a -> covers r' a -> r = r') as Huniq.
  { intros r r' a Hr Hr' C D. destruct (Hre r Hr) as (_ & _ & X), (Hre r' Hr') as (_ & _ & Y). pose proof (same_word _ _ _ X Y C D) as Eo.
    apply elem_of_list_lookup in Hr as [i Hi], Hr' as [j Hj]. assert (i = j) as <-; [|congruence].
    eapply (NoDup_lookup _ i j (rl_off r) (ro_nodup _ _ _ Ro)); change (map ?g ?l) with (g <$> l); rewrite list_lookup_fmap; [by rewrite Hi|rewrite Hj; cbn; by rewrite Eo]. }
  split; [|split; [|split; [|split]]].
  - intros h a Hh Ha. destruct (Hat h a Hh Ha) as (p & Hp & Er). rewrite Er. split; [done|].
    assert (forall g w, g ∈ hs -> (if ph_w g then None else chunk (ph_va g) (ph_bytes g) a) = Some w -> g = h /\ ph_w h = false /\ in_file h a /\ w = nth (N.to_nat (a - ph_va h)) (ph_bytes h) 0%N) as K3.
    { intros g w Hg Hc. destruct (ph_w g) eqn:W; [done|]. apply chunk_some in Hc as [Hc ->]. assert (g = h) as -> by (eapply Hsame; [done|done|by apply Hfile|done]). done. }
    assert (forall g w, g ∈ hs -> (if ph_w g then chunk (ph_va g) (ph_bytes g) a else None) = Some w -> g = h /\ ph_w h = true /\ in_file h a /\ w = nth (N.to_nat (a - ph_va h)) (ph_bytes h) 0%N) as K1.
    { intros g w Hg Hc. destruct (ph_w g) eqn:W; [|done]. apply chunk_some in Hc as [Hc ->]. assert (g = h) as -> by (eapply Hsame; [done|done|by apply Hfile|done]). done. }
    split; [|split].
    + intros r Hr Hc. change (m4 p = rel_byte off r a).
      assert (forall act y w, y ∈ rs -> word off y act a = Some w -> w = rel_byte off r a) as Kw.
      { intros act y w Hy Hw'. apply word_some in Hw' as (_ & Cy & ->). by rewrite (Huniq y r a Hy Hr Cy Hc). }
      apply (C4 a p _ Hp); [intros y w Hy; by apply Kw|].
      destruct (Hri r Hr) as (g & Hg & S1 & S7 & Sro).
      assert (g = h) as ->. { eapply Hsame; [done|done| |done]. destruct S1, S7, Hc. split; lia. }
      destruct (ph_w h) eqn:W.
      * left. rewrite (B3 a p Hp).
        2:{ intros g Hg'. destruct (if ph_w g then None else chunk (ph_va g) (ph_bytes g) a) eqn:Eg; [|done]. destruct (K3 _ _ Hg' Eg) as (_ & ? & _). done. }
        apply (C2 a p _ Hp); [intros y w Hy; by apply Kw|]. right. exists r. split; [done|]. apply word_some. split; [|done].
        apply hits_true. destruct (Hseg h _ Hh S1) as (i & l & eb & f & _ & _ & _ & _ & Hwi & Hfw). exists eb, f. split; [by apply Hfw|done].
      * right. exists r. split; [done|]. apply word_some. split; [|done]. apply negb_true_iff, N.leb_gt. subst ro. rewrite (ro_end_off off hs h Hh W).
        specialize (Sro eq_refl). clear -Sro. lia.
    + intros Hno Hf. rewrite (B4 a p Hp).
      2:{ intros r Hr. destruct (word _ _ _ _) eqn:Ew; [|done]. apply word_some in Ew as (_ & ? & _). by destruct (Hno r Hr). }
      apply (C3 a p _ Hp); [intros g w Hg Hc; by apply (K3 g w)|]. destruct (ph_w h) eqn:W.
      * left. rewrite (B2 a p Hp).
        2:{ intros r Hr. destruct (word _ _ _ _) eqn:Ew; [|done]. apply word_some in Ew as (_ & ? & _). by destruct (Hno r Hr). }
        apply (C1 a p _ Hp); [intros g w Hg Hc; by apply (K1 g w)|]. right. exists h. split; [done|]. rewrite W. by apply chunk_some.
      * right. exists h. split; [done|]. rewrite W. by apply chunk_some.
    + intros Hno Hf.
      assert (forall act r, r ∈ rs -> word off r act a = None) as Kn.
      { intros act r Hr. destruct (word _ _ _ _) eqn:Ew; [|done]. apply word_some in Ew as (_ & ? & _). by destruct (Hno r Hr). }
      rewrite (B4 a p Hp) by (intros; by apply Kn). rewrite (B3 a p Hp).
      2:{ intros g Hg. destruct (if ph_w g then None else chunk (ph_va g) (ph_bytes g) a) eqn:Eg; [|done]. by destruct (K3 _ _ Hg Eg) as (_ & _ & ? & _). }
      rewrite (B2 a p Hp) by (intros; by apply Kn). apply (B1 a p Hp).
      intros g Hg. destruct (if ph_w g then chunk (ph_va g) (ph_bytes g) a else None) eqn:Eg; [|done]. by destruct (K1 _ _ Hg Eg) as (_ & _ & ? & _).
  - intros h g a b Hh Hg Ha Hb. destruct (Hat h a Hh Ha) as (p & Hp & ->), (Hat g b Hg Hb) as (q & Hq & ->). intros <-. by eapply Hinj.
  - intros h a Hh Ha. destruct (Hat h a Hh Ha) as (p & (eb & f & Hin & [W1 W2] & ->) & ->). exists f. split; [|split; lia].
    assert (f ∈ map snd fs) as Hf by (by apply (elem_of_list_fmap_1 snd _ (eb, f))). apply elem_of_app.
    apply pages_of_from in Hf as [|[? _]]; [by right|left; by apply Fin].
  - intros x Hx Hno. apply P2; [done|]. intros h Hh Hr. pose proof (range_on_page off h x Ho Hr) as [Hx1 Hx2]. apply (Hno h _ Hh Hx2).
    clear -Hx1. unfold within, LARGE. elia.
  - intros p Hp. assert (forall a, ~ at_ fs a p) as Hna; [|by rewrite (A4 _ Hna), (A3 _ Hna), (A2 _ Hna), (A1 _ Hna)].
    intros a (eb & f & Hin & [W1 W2] & ->).
    assert (f ∈ map snd fs) as Hf by (by apply (elem_of_list_fmap_1 snd _ (eb, f))).
    apply (Hp f); [|split; lia]. apply elem_of_app. apply pages_of_from in Hf as [|[? _]]; [by right|left; by apply Fin].
Qed.
Print Assumptions C42_load_partial.

(** Code of 32 bytes at 0x10 with a relocation, and data with zero-initialised memory on two
    pages with a relocation on each; loaded at the address used for position independent
    programs (lib/kpi/src/process.rs:21). *)
Definition ELF_OFFSET : N := 0x2000000000.
Definition ex_hs : list phdr :=
  [Ph 0x10 0x100 (map N.of_nat (seq 1 32)) true false true; Ph 0x400010 0x200100 (map N.of_nat (seq 101 16)) true true false].
Definition ex_rs : list rela := [Rl 0x18 true 0x1234; Rl 0x400018 true 0x10; Rl 0x600008 true 0x400010].
Definition ex_w : list N := [0x40000000; 0x40200000; 0x40400000]%N.
Definition ex_r : list N := [0x50000000]%N.
Lemma ex_page0 k : on_page (Ph 0x10 0x100 (map N.of_nat (seq 1 32)) true false true) k -> k = 0%N.
Proof. intros [_ H]. match type of H with (_ < ?x)%N => change x with 1%N in H end. lia. Qed.
Lemma ex_page1 k : on_page (Ph 0x400010 0x200100 (map N.of_nat (seq 101 16)) true true false) k -> (2 <= k)%N.
Proof. intros [H _]. match type of H with (?x <= _)%N => change x with 2%N in H end. done. Qed.
Example C42_hyps_met :
  reach true true vs_init /\ layout_ok ELF_OFFSET ex_hs /\ relocs_ok ELF_OFFSET ex_hs ex_rs /\ supply_ok ex_hs ex_w ex_r /\
  (forall x, vs_resolve vs_init x = Err NotMapped) /\
  match elf_load true true ELF_OFFSET ex_hs ex_rs [(0x400000, 0x1000)]%N ex_w ex_r vs_init (fun _ => 7%N) with
  | Ok (vs, m) => vs_resolve vs 0x2000000018 = Ok (0x50000018%N, ma_execute) /\ vs_resolve vs 0x2000600009 = Ok (0x40200009%N, ma_write_) /\
      map m [0x50000010; 0x50000018; 0x50000019; 0x40000010; 0x40000018; 0x40200008; 0x4020000a; 0x40200010]%N = [1; 0x34; 0x12; 101; 0x10; 0x10; 0x40; 7]%N
  | _ => False
  end.
Proof.
  split; [constructor|]. split.
  { split; [done|by repeat constructor| | |].
    - intros i j h g k Hi Hj A B. destruct i as [|[|i]], j as [|[|j]]; cbn in Hi, Hj; try done; injection Hi as <-; injection Hj as <-; exfalso.
      + apply ex_page0 in A. apply ex_page1 in B. lia.
      + apply ex_page1 in A. apply ex_page0 in B. lia.
    - intros i j h g Hi Hj Wi Wj. destruct i as [|[|i]], j as [|[|j]]; cbn in Hi, Hj; try done; injection Hi as <-; injection Hj as <-; done.
    - constructor; [done|]. constructor; [|constructor]. intros _. vm_compute. lia. }
  split.
  { split.
    - cbn [map ex_rs rl_off]. by apply (bool_decide_eq_true_1 (NoDup [0x18; 0x400018; 0x600008]%N)).
    - by repeat constructor.
    - constructor; [|constructor; [|constructor; [|constructor]]].
      + exists (Ph 0x10 0x100 (map N.of_nat (seq 1 32)) true false true). split; [by left|]. unfold in_seg, within. cbn. split; [lia|]. split; [lia|done].
      + exists (Ph 0x400010 0x200100 (map N.of_nat (seq 101 16)) true true false). split; [right; by left|]. unfold in_seg, within. cbn. split; [lia|]. split; [lia|done].
      + exists (Ph 0x400010 0x200100 (map N.of_nat (seq 101 16)) true true false). split; [right; by left|]. unfold in_seg, within. cbn. split; [lia|]. split; [lia|done].
    - intros r h k Hr _ _ _ E. unfold LARGE in E. repeat (apply elem_of_cons in Hr as [-> | Hr]; [cbn [rl_off] in E; lia|]). by apply elem_of_nil in Hr. }
  split.
  { split; [by repeat constructor| |vm_compute; lia|vm_compute; lia]. by apply (bool_decide_eq_true_1 (NoDup [0x40000000; 0x40200000; 0x40400000; 0x50000000]%N)). }
  split; [intros x; apply resolve_none; unfold walk; cbn [vs_init vs_pt]; by rewrite lookup_empty|]. vm_compute. done.
Qed.

(** Missing from the full claim.  Zero-initialised memory is what the pages contained before:
    nobody clears them. *)
Theorem C42_bss_not_zeroed_refuted : exists hs h a wsup m vs' m' p r, hs = [h] /\ in_seg h a /\ ~ in_file h a /\
  elf_load true true 0 hs [] [] wsup [] vs_init m = Ok (vs', m') /\ vs_resolve vs' a = Ok (p, r) /\ m' p <> 0%N.
Proof.
  set (h := Ph 0 0x100 [1%N] true true false). set (m := fun _ : N => 7%N).
  exists [h], h, 1%N, [0x40000000%N], m.
  assert (exists q, elf_load true true 0 [h] [] [] [0x40000000%N] [] vs_init m = Ok q /\ vs_resolve q.1 1 = Ok (0x40000001%N, ma_write_) /\ q.2 0x40000001%N = 7%N) as ([vs' m'] & E & E1 & E2).
  { eexists. split; [reflexivity|]. split; by vm_compute. }
  exists vs', m', 0x40000001%N, ma_write_. split; [done|]. split; [unfold in_seg, within; cbn; lia|]. split; [unfold in_file, within; cbn; lia|].
  split; [done|]. split; [done|]. cbn [snd] in E2. by rewrite E2.
Qed.
Print Assumptions C42_bss_not_zeroed_refuted.

(** A second writable header, on pages of its own, shows the content of the first. *)
Theorem C42_two_writable_headers_refuted : exists h g wsup vs' m' p r, in_file g 0x400000%N /\ (forall k, on_page h k -> ~ on_page g k) /\
  elf_load true true 0 [h; g] [] [] wsup [] vs_init (fun _ => 0%N) = Ok (vs', m') /\
  vs_resolve vs' 0x400000 = Ok (p, r) /\ ph_bytes g = [2%N] /\ m' p = 1%N.
Proof.
  set (h := Ph 0 8 [1%N] true true false). set (g := Ph 0x400000 8 [2%N] true true false). exists h, g, [0x40000000; 0x40200000]%N.
  assert (exists q, elf_load true true 0 [h; g] [] [] [0x40000000; 0x40200000]%N [] vs_init (fun _ => 0%N) = Ok q /\ vs_resolve q.1 0x400000 = Ok (0x40000000%N, ma_write_) /\ q.2 0x40000000%N = 1%N) as ([vs' m'] & E & E1 & E2).
  { eexists. split; [reflexivity|]. split; by vm_compute. }
  exists vs', m', 0x40000000%N, ma_write_. split; [unfold in_file, within; cbn; lia|]. split; [|done].
  intros k [_ A] [B _]. change (ph_va h / LARGE)%N with 0%N in A. change (n_pages h) with 1 in A. change (ph_va g / LARGE)%N with 2%N in B. lia.
Qed.
Print Assumptions C42_two_writable_headers_refuted.

(** Two read-only headers on one 2 MiB page: the kernel panics. *)
Theorem C42_shared_page_panics_refuted :
  elf_load true true 0 [Ph 0 8 [1%N] true false false; Ph 0x1000 8 [2%N] true false true] [] [] [] [0x40000000; 0x40200000]%N vs_init (fun _ => 0%N) = Panic.
Proof. by vm_compute. Qed.
Print Assumptions C42_shared_page_panics_refuted.

(** A relocation at the start of the second page of the data is also applied behind the first
    page, to memory that was not given to the program. *)
Theorem C42_relocation_behind_page_refuted : exists hs r wsup vs' m' p,
  elf_load true true 0 hs [r] [] wsup [] vs_init (fun _ => 0%N) = Ok (vs', m') /\
  (forall f, f ∈ wsup -> ~ within f LARGE p) /\ m' p <> 0%N.
Proof.
  set (hs := [Ph 0 0x200100 [] true true false]). exists hs, (Rl 0x200000 true 5), [0x40000000; 0x50000000]%N.
  assert (exists q, elf_load true true 0 hs [Rl 0x200000 true 5] [] [0x40000000; 0x50000000]%N [] vs_init (fun _ => 0%N) = Ok q /\ q.2 0x40200000%N = 5%N) as ([vs' m'] & E & E2).
  { eexists. split; [reflexivity|]. by vm_compute. }
  exists vs', m', 0x40200000%N. split; [done|]. split; [|cbn [snd] in E2; by rewrite E2].
  intros f Hf [H1 H2]. unfold LARGE in H2. repeat (apply elem_of_cons in Hf as [-> | Hf]; [lia|]). by apply elem_of_nil in Hf.
Qed.
Print Assumptions C42_relocation_behind_page_refuted.
