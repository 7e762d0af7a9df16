(** Proofs for RmModel: the pages of a rack, and its invariant. *)
From Verif Require MemModel.
From Verif Require Import Base NodeModel VsModel VsSpec VsProofs PrcModel PrcSpec VsProps PrcProofs PrcProps
  IsoModel IsoSpec IsoProofs RmModel RmSpec.

(** ** Frames as lists of pages *)

Definition pages (fs : list pframe) : list N := concat (map frame_pages fs).
Lemma pages_app l1 l2 : pages (l1 ++ l2) = pages l1 ++ pages l2.
Proof. unfold pages. by rewrite map_app, concat_app. Qed.
Lemma elem_pages f x : frame_ok true f -> x ∈ frame_pages f <-> page_of_frame f x = true.
Proof.
  intros [Hs Ha]. unfold frame_pages, page_of_frame. rewrite andb_true_iff, N.leb_le, N.ltb_lt.
  rewrite elem_of_list_In, in_map_iff.
  assert ((pf_base f + pf_size f) / BASE = pf_base f / BASE + pf_size f / BASE)%N as E.
  { apply page_size_cases in Hs as [E|E]; rewrite E.
    - pose proof (N.div_add (pf_base f) 1 BASE ltac:(done)) as H. rewrite N.mul_1_l in H. exact H.
    - exact (N.div_add (pf_base f) 512 BASE ltac:(done)). }
  rewrite E. set (a := (pf_base f / BASE)%N). set (n := (pf_size f / BASE)%N). clearbody a n. clear. split.
  - intros (i & <- & Hi). apply in_seq in Hi. lia.
  - intros [H1 H2]. exists (N.to_nat (x - a)). split; [lia|]. apply in_seq. lia.
Qed.
Lemma NoDup_frame_pages f : NoDup (frame_pages f).
Proof.
  unfold frame_pages. apply NoDup_fmap_2; [|apply NoDup_ListNoDup, seq_NoDup]. intros i j H. lia.
Qed.
Lemma len_frame_pages f : length (frame_pages f) = N.to_nat (pf_size f / BASE).
Proof. unfold frame_pages. by rewrite map_length, seq_length. Qed.
Lemma pages_page n : frame_pages (page_frame n) = [n].
Proof.
  unfold frame_pages, page_frame. cbn [pf_base pf_size]. change (N.to_nat (BASE / BASE)) with 1. cbn [seq map].
  rewrite N.div_mul by done. by rewrite N.add_0_r.
Qed.
Lemma pages_pages l : pages (map page_frame l) = l.
Proof. unfold pages. induction l as [|n l IH]; [done|]. cbn [map concat]. by rewrite pages_page, IH. Qed.
Lemma page_frame_ok n : frame_ok true (page_frame n).
Proof. split; [by left|]. unfold page_frame. cbn [pf_base pf_size]. by apply N.mod_mul. Qed.

(** Taking frames, as lists of pages. *)
Lemma tk_pages fr fs fr' : tk fr fs fr' ->
  Forall (frame_ok true) fs /\ NoDup (pages fs) /\ (forall x, x ∈ pages fs -> fr x = true) /\
  forall x, fr' x = fr x && negb (bool_decide (x ∈ pages fs)).
Proof.
  revert fr. induction fs as [|f fs IH]; intros fr; cbn [tk].
  { intros <-. split; [done|]. split; [apply NoDup_nil_2|]. split; [intros x Hx; by apply elem_of_nil in Hx|].
    intros x. rewrite bool_decide_eq_false_2; [by rewrite andb_true_r|]. apply not_elem_of_nil. }
  intros (Hs & fr1 & E & H). destruct (take_frame_spec _ _ _ _ Hs E) as (_ & Hf & Hfr & Hfr1).
  destruct (IH _ H) as (I1 & I2 & I3 & I4). unfold pages in *. cbn [map concat].
  split; [by constructor|]. split.
  { apply NoDup_app. split; [apply NoDup_frame_pages|]. split; [|done]. intros x Hx Hx'. apply I3 in Hx'. rewrite Hfr1 in Hx'.
    apply elem_pages in Hx; [|done]. rewrite Hx in Hx'. by rewrite andb_false_r in Hx'. }
  split.
  { intros x Hx. apply elem_of_app in Hx as [Hx|Hx]; [apply Hfr; by apply elem_pages|]. apply I3 in Hx. rewrite Hfr1 in Hx.
    by apply andb_true_iff in Hx as [? _]. }
  intros x. rewrite I4, Hfr1. destruct (fr x); [|done]. cbn [andb].
  destruct (page_of_frame f x) eqn:Ep.
  - rewrite (bool_decide_eq_true_2 (x ∈ frame_pages f ++ _)); [done|]. apply elem_of_app. left. by apply elem_pages.
  - cbn [negb andb]. f_equal. apply bool_decide_ext. rewrite elem_of_app. split; [by right|]. intros [Hx|Hx]; [|done].
    apply elem_pages in Hx; [|done]. congruence.
Qed.
Lemma tk_of_pages fs : forall fr, Forall (frame_ok true) fs -> NoDup (pages fs) -> (forall x, x ∈ pages fs -> fr x = true) ->
  exists fr', tk fr fs fr'.
Proof.
  induction fs as [|f fs IH]; intros fr Hok Hnd Hin; [by exists fr|].
  apply Forall_cons_1 in Hok as [Hf Hok]. unfold pages in *. cbn [map concat] in *. apply NoDup_app in Hnd as (_ & Hd & Hnd).
  assert (take_frame fr (pf_size f) f = Some (fun x => fr x && negb (page_of_frame f x))) as E.
  { unfold take_frame. rewrite N.eqb_refl. destruct Hf as [_ ->]. cbn [N.eqb andb].
    assert (forallb fr (frame_pages f) = true) as ->; [|done]. apply forallb_forall. intros x Hx. apply Hin.
    apply elem_of_app. left. by apply elem_of_list_In. }
  destruct (IH (fun x => fr x && negb (page_of_frame f x)) Hok Hnd) as [fr' Ht].
  { intros x Hx. rewrite Hin by (apply elem_of_app; by right). cbn [andb]. apply negb_true_iff, not_true_is_false. intros Hp.
    apply elem_pages in Hp; [|done]. by apply (Hd _ Hp). }
  exists fr'. cbn [tk]. split; [apply Hf|]. eexists. split; [exact E|exact Ht].
Qed.

(** ** Caches *)

Lemma cache_split (C : list (list (list N))) i p cs c : C !! i = Some cs -> cs !! p = Some c ->
  exists A B, concat (concat C) = A ++ c ++ B /\ forall c', concat (concat (set_cache C i p c')) = A ++ c' ++ B.
Proof.
  intros Hi Hp. pose proof (lookup_lt_Some _ _ _ Hi) as Li. pose proof (lookup_lt_Some _ _ _ Hp) as Lp.
  pose proof (eq_sym (take_drop_middle C i cs Hi)) as EC. pose proof (eq_sym (take_drop_middle cs p c Hp)) as Ecs.
  assert (forall c', set_cache C i p c' = take i C ++ (take p cs ++ c' :: drop (S p) cs) :: drop (S i) C) as Es.
  { intros c'. unfold set_cache. rewrite Hi. rewrite (insert_take_drop C i _ Li), (insert_take_drop cs p c' Lp). done. }
  set (C1 := take i C) in *. set (C2 := drop (S i) C) in *. set (c1 := take p cs) in *. set (c2 := drop (S p) cs) in *.
  clearbody C1 C2 c1 c2. clear Hi Hp Li Lp. subst cs.
  exists (concat (concat C1) ++ concat c1), (concat c2 ++ concat (concat C2)). split.
  - rewrite EC. rewrite !concat_app. cbn [concat]. rewrite !concat_app. cbn [concat]. by rewrite <- !app_assoc.
  - intros c'. rewrite Es. rewrite !concat_app. cbn [concat]. rewrite !concat_app. cbn [concat]. by rewrite <- !app_assoc.
Qed.

(** ** The frames registered with a process *)

Definition pfr (s : prc) (id : nat) : option pframe := match p_pfm s !! id with Some (o, _) => o | None => None end.
Lemma pfr_shared K s id : pfr (shared_in K s) id = pfr s id.
Proof. done. Qed.
Lemma remove_frames fs pa fs' r : pfs_remove_mapping fs pa = (fs', r) ->
  forall id, (match fs' !! id with Some (o, _) => o | None => None end) = match fs !! id with Some (o, _) => o | None => None end.
Proof.
  revert fs' r. induction fs as [|[[f|] n] fs IH]; intros fs' r; cbn [pfs_remove_mapping].
  - by intros [= <- <-].
  - destruct (pf_base f =? pa)%N.
    + destruct n; intros [= <- <-]; [done|]. by intros [|id].
    + destruct (pfs_remove_mapping fs pa) as [fs2 r2]. intros [= <- <-] [|id]; [done|]. exact (IH fs2 r2 eq_refl id).
  - destruct (pfs_remove_mapping fs pa) as [fs2 r2]. intros [= <- <-] [|id]; [done|]. exact (IH fs2 r2 eq_refl id).
Qed.
Lemma free_frame fs i : pfs_free fs = Some i -> exists n, fs !! i = Some (None, n).
Proof.
  revert i. induction fs as [|[[f|] n] fs IH]; intros i; cbn [pfs_free]; [done| |intros [= <-]; by exists n].
  destruct (pfs_free fs) as [j|]; [|done]. intros [= <-]. by apply IH.
Qed.
Lemma step_pfr dbg nm s op s' r : prc_step true dbg nm s op = (s', r) ->
  match op with
  | PoMapFrame _ _ _ _ | PoMapId _ _ _ _ | PoUnmap _ => forall id, pfr s' id = pfr s id
  | PoAddFrame f =>
    (r <> Panic /\ forall id, pfr s' id = pfr s id) \/
    exists i, pfr s i = None /\ forall id, pfr s' id = if decide (id = i) then Some f else pfr s id
  | PoRelease i =>
    match r with
    | Ok (PrFrame f) => pfr s i = Some f /\ forall id, pfr s' id = if decide (id = i) then None else pfr s id
    | _ => forall id, pfr s' id = pfr s id
    end
  | _ => True
  end.
Proof.
  destruct op as [f aff fail|b f a refill|f a|b id a refill|va|g region oom|f|id]; cbn [prc_step]; try done.
  - destruct refill; [|by intros [= <- <-]]. destruct (vs_map_frame _ _ _ _ _ _). by intros [= <- <-].
  - unfold pfs_get, pfs_add_mapping. destruct (p_pfm s !! id) as [[[f|] k]|] eqn:Ei; [|by intros [= <- <-]..].
    intros H. assert (forall j, match <[id := (Some f, S k)]> (p_pfm s) !! j with Some (o, _) => o | None => None end = pfr s j) as Hj.
    { intros j. unfold pfr. destruct (decide (id = j)) as [<-|].
      - rewrite list_lookup_insert by (by eapply lookup_lt_Some). by rewrite Ei.
      - by rewrite list_lookup_insert_ne. }
    destruct refill; [destruct (vs_map_frame _ _ _ _ _ _)|]; injection H as <- <-; exact Hj.
  - destruct (vs_unmap dbg (p_vs s) va) as [vs [[[[vb pa] sz] a]|e|]]; [|by intros [= <- <-]..].
    destruct (ma_alias a); [destruct (pfs_remove_mapping (p_pfm s) pa) as [fs q] eqn:E; pose proof (remove_frames _ _ _ _ E) as Hr; destruct q|];
      intros [= <- <-]; try exact Hr; done.
  - unfold pfs_add. destruct (pfs_free (p_pfm s)) as [i|] eqn:E; intros [= <- <-]; [|by left].
    right. destruct (free_frame _ _ E) as [n Hn]. exists i. split; [unfold pfr; by rewrite Hn|]. intros j. unfold pfr. cbn [p_pfm].
    destruct (decide (j = i)) as [->|]; [rewrite list_lookup_insert by (by eapply lookup_lt_Some); done|by rewrite list_lookup_insert_ne].
  - unfold pfs_dealloc. destruct (p_pfm s !! id) as [[[f|] [|n]]|] eqn:Ei; intros [= <- <-]; cbn [rmap]; try done.
    split; [unfold pfr; by rewrite Ei|]. intros j. unfold pfr. cbn [p_pfm].
    destruct (decide (j = id)) as [->|]; [rewrite list_lookup_insert by (by eapply lookup_lt_Some); done|by rewrite list_lookup_insert_ne].
Qed.
Lemma map_frames_pfr dbg nm fs : forall s b a s' r, map_frames true dbg nm s b a fs = (s', r) -> forall id, pfr s' id = pfr s id.
Proof.
  induction fs as [|[f rf] fs IH]; intros s b a s' r; cbn [map_frames]; [by intros [= <- <-]|].
  destruct (prc_step true dbg nm s (PoMapFrame b f a rf)) as [s1 q] eqn:E. pose proof (step_pfr _ _ _ _ _ _ E) as H1.
  cbn match in H1. destruct q; [|by intros [= <- <-]..]. intros H id. by rewrite (IH _ _ _ _ _ H), H1.
Qed.
Lemma map_frames_app dbg nm l1 l2 : forall s b a,
  map_frames true dbg nm s b a (l1 ++ l2) =
  match map_frames true dbg nm s b a l1 with (s1, Ok _) => map_frames true dbg nm s1 (b + tot l1) a l2 | (s1, _) => (s1, Panic) end.
Proof.
  induction l1 as [|[f rf] l1 IH]; intros s b a; cbn [map_frames app tot foldr].
  - by rewrite N.add_0_r.
  - destruct (prc_step true dbg nm s (PoMapFrame b f a rf)) as [s1 [ | | ]]; [|done..]. rewrite IH.
    destruct (map_frames true dbg nm s1 (b + pf_size f) a l1) as [s2 [ | | ]]; [|done..]. cbn [fst]. by rewrite N.add_assoc.
Qed.

(** ** Large pages behind registered frames *)

Definition lpage (f : pframe) : pframe := mkPF (pf_base f) LARGE.
Definition regd (ps : list prc) (p id : nat) (f : pframe) : Prop := exists s, ps !! p = Some s /\ pfr s id = Some f.
Record tails (O : nat -> N -> Prop) (F : N -> bool) (G : nat -> nat -> pframe -> Prop) : Prop := {
  tl_al : forall p id f, G p id f -> (pf_base f mod LARGE = 0)%N;
  tl_free : forall p id f x, G p id f -> page_of_frame (lpage f) x = true -> F x = false;
  tl_own : forall p id f q x, G p id f -> page_of_frame (lpage f) x = true -> O q x -> q = p /\ page_of_frame f x = true;
  tl_apart : forall p id f q j g x, G p id f -> G q j g -> page_of_frame (lpage f) x = true -> page_of_frame (lpage g) x = true ->
    p = q /\ id = j }.

Lemma tails_sub (O O' : nat -> N -> Prop) (F F' : N -> bool) (G G' : nat -> nat -> pframe -> Prop) : tails O F G ->
  (forall q x, O' q x -> O q x \/ F x = true) -> (forall x, F' x = true -> F x = true) -> (forall p id f, G' p id f -> G p id f) ->
  tails O' F' G'.
Proof.
  intros [T1 T2 T3 T4] HO HF HG. split.
  - eauto.
  - intros p id f x H Hx. destruct (F' x) eqn:E; [|done]. apply HF in E. by rewrite (T2 _ _ _ _ (HG _ _ _ H) Hx) in E.
  - intros p id f q x H Hx Hq. apply HO in Hq as [Hq|Hq]; [by eapply T3; eauto|]. by rewrite (T2 _ _ _ _ (HG _ _ _ H) Hx) in Hq.
  - intros. eapply T4; eauto.
Qed.
Lemma lpage_self f x : frame_ok true f -> page_of_frame f x = true -> page_of_frame (lpage f) x = true.
Proof.
  unfold page_of_frame, lpage. cbn [pf_base pf_size]. intros [Hs _] H. apply andb_true_iff in H as [H1 H2]. rewrite H1. cbn [andb].
  apply N.ltb_lt in H2. apply N.ltb_lt. eapply N.lt_le_trans; [exact H2|]. apply N.div_le_mono; [done|].
  apply page_size_cases in Hs as [-> | ->]; unfold BASE, LARGE; lia.
Qed.

(** ** The invariant of the rack *)

Section rack.
Context (dbg : bool) (nm : nat).

(** Pages that are free or in a cache. *)
Definition wide (F : N -> bool) (C : list N) (x : N) : bool := F x || bool_decide (x ∈ C).
Lemma wide_true F C x : wide F C x = true <-> F x = true \/ x ∈ C.
Proof using Type. unfold wide. rewrite orb_true_iff. by rewrite bool_decide_eq_true. Qed.
Lemma wide_false F C x : wide F C x = false <-> F x = false /\ x ∉ C.
Proof using Type. unfold wide. rewrite orb_false_iff. by rewrite bool_decide_eq_false. Qed.

Record rok (O : nat -> N -> Prop) (R : rrack) : Prop := {
  ro_m : mok dbg nm O (with_free (rr_m R) (wide (mc_free (rr_m R)) (cached R)) false);
  ro_nodup : NoDup (cached R);
  ro_sep : forall x, x ∈ cached R -> mc_free (rr_m R) x = false;
  ro_tails : tails O (wide (mc_free (rr_m R)) (cached R)) (regd (mc_ps (rr_m R))) }.

Lemma rok_put O R p s s' O1 free mem dead C d :
  rok O R -> mc_ps (rr_m R) !! p = Some s -> pown dbg nm O1 s' ->
  (forall x, O1 x -> O p x \/ wide (mc_free (rr_m R)) (cached R) x = true) ->
  (forall x, O1 x -> wide free (concat (concat C)) x = false) ->
  (forall q x, q <> p -> O q x -> wide free (concat (concat C)) x = false) ->
  NoDup (concat (concat C)) -> (forall x, x ∈ concat (concat C) -> free x = false) ->
  tails (set_own O p O1) (wide free (concat (concat C))) (regd (<[p := s']> (mc_ps (rr_m R)))) ->
  let R' := mkRr (put_prc (rr_m R) p (shared_in (mc_kern (rr_m R)) s') free mem dead) C d in
  rok (set_own O p O1) R' /\ mc_kern (rr_m R') = mc_kern (rr_m R) /\ mc_ps (rr_m R') = <[p := s']> (mc_ps (rr_m R)).
Proof using Type.
  intros [M N1 S1 T1] Hs Ho H1 H2 H3 HN HS HT R'.
  assert (mc_kern (rr_m R') = mc_kern (rr_m R)) as Ek by (unfold R'; cbn [rr_m put_prc mc_kern]; apply shared_shared).
  assert (mc_ps (rr_m R') = <[p := s']> (mc_ps (rr_m R))) as Ep.
  { unfold R'. cbn [rr_m put_prc mc_ps]. rewrite own_shared; [done|apply M|]. destruct Ho as (h & I). apply I. }
  split; [|done]. split.
  - split; cbn [with_free mc_kern mc_ps mc_free].
    + rewrite Ek. apply M.
    + rewrite Ep. intros q t Hq. unfold set_own. destruct (decide (q = p)) as [->|Hne].
      * apply lookup_lt_Some in Hs. rewrite list_lookup_insert in Hq by done. by injection Hq as <-.
      * rewrite list_lookup_insert_ne in Hq by done. by apply M.
    + pose proof (mo_free _ _ _ _ M) as MF. pose proof (mo_apart _ _ _ _ M) as MA. cbn [with_free mc_free] in MF.
      intros q q' x Hne. unfold set_own. destruct (decide (q = p)) as [->|], (decide (q' = p)) as [->|]; try done.
      * intros Hx Hx'. destruct (H1 _ Hx) as [Hp|Hf]; [by eapply (MA p q')|]. apply MF in Hx'. congruence.
      * intros Hx Hx'. destruct (H1 _ Hx') as [Hp|Hf]; [by eapply (MA p q)|]. apply MF in Hx. congruence.
      * by apply MA.
    + intros q x. unfold set_own. destruct (decide (q = p)) as [->|]; [apply H2|by apply H3].
  - done.
  - exact HS.
  - rewrite Ep. exact HT.
Qed.

Lemma regd_same ps p s s' : ps !! p = Some s -> (forall id, pfr s' id = pfr s id) ->
  forall q id f, regd (<[p := s']> ps) q id f -> regd ps q id f.
Proof using Type.
  intros Hs He q id f (t & Ht & Hf). destruct (decide (q = p)) as [->|].
  - rewrite list_lookup_insert in Ht by (by eapply lookup_lt_Some). injection Ht as <-. exists s. split; [done|]. by rewrite <- He.
  - rewrite list_lookup_insert_ne in Ht by done. by exists t.
Qed.
Lemma set_own_self O p q x : set_own O p (O p) q x <-> O q x.
Proof using Type. unfold set_own. by destruct (decide (q = p)) as [->|]. Qed.

(** What a step leaves for the others. *)
Definition step_keeps (O : nat -> N -> Prop) (R R' : rrack) (p : nat) : Prop :=
  (exists O', rok O' R') /\ mc_kern (rr_m R') = mc_kern (rr_m R) /\
  (forall q, q <> p -> mc_ps (rr_m R') !! q = mc_ps (rr_m R) !! q) /\
  (forall q y, q <> p -> O q (y / BASE)%N -> mc_mem (rr_m R') y = mc_mem (rr_m R) y).

(** A state that differs in its caches and free pages only, and has fewer of them. *)
Lemma rok_shrink O R free dead C d : rok O R ->
  (forall x, wide free (concat (concat C)) x = true -> wide (mc_free (rr_m R)) (cached R) x = true) ->
  NoDup (concat (concat C)) -> (forall x, x ∈ concat (concat C) -> free x = false) ->
  rok O (mkRr (with_free (rr_m R) free dead) C d).
Proof using Type.
  intros [M N1 S1 T1] Hw HN HS. split; cbn [rr_m with_free mc_free mc_ps rr_cache].
  - split; try apply M. intros q x Hx. cbn [with_free mc_free rr_m]. unfold cached. cbn [rr_cache].
    destruct (wide free _ x) eqn:E; [|done]. apply Hw in E. pose proof (mo_free _ _ _ _ M _ _ Hx) as H. cbn [with_free mc_free] in H. congruence.
  - done.
  - exact HS.
  - eapply tails_sub; [exact T1|by left|exact Hw|done].
Qed.
Lemma keeps_shrink O R free dead C d p : rok O R ->
  (forall x, wide free (concat (concat C)) x = true -> wide (mc_free (rr_m R)) (cached R) x = true) ->
  NoDup (concat (concat C)) -> (forall x, x ∈ concat (concat C) -> free x = false) ->
  step_keeps O R (mkRr (with_free (rr_m R) free dead) C d) p.
Proof using Type. intros. split; [|done]. exists O. by apply rok_shrink. Qed.

Lemma tot_zip (fs : list pframe) (rf : list bool) : length rf = length fs ->
  map fst (zip fs rf) = fs /\ tot (zip fs rf) = foldr (fun f t => (pf_size f + t)%N) 0%N fs.
Proof using Type.
  revert rf. induction fs as [|f fs IH]; intros [|b rf] H; try done. cbn [length] in H. destruct (IH rf ltac:(lia)) as [I1 I2].
  cbn [zip zip_with map fst tot foldr]. split; [by rewrite <- I1 at 2|]. fold (tot (zip fs rf)). by rewrite I2.
Qed.
Lemma sum_app l1 l2 : foldr (fun f t => (pf_size f + t)%N) 0%N (l1 ++ l2) =
  (foldr (fun f t => (pf_size f + t)%N) 0%N l1 + foldr (fun f t => (pf_size f + t)%N) 0%N l2)%N.
Proof using Type. induction l1 as [|f l1 IH]; [done|]. cbn [app foldr]. rewrite IH. lia. Qed.

(** Mapping frames [zs ++ cs] of which [zs] are zeroed. *)
Lemma map_found_ok O R i p s cache b zs cs refills free cache' R' r A B :
  rok O R -> mc_ps (rr_m R) !! p = Some s -> 
  cached R = A ++ cache ++ B -> (forall c', concat (concat (set_cache (rr_cache R) i p c')) = A ++ c' ++ B) ->
  Forall (frame_ok true) (zs ++ cs) -> NoDup (pages (zs ++ cs)) ->
  (forall x, x ∈ pages (zs ++ cs) -> wide (mc_free (rr_m R)) (cached R) x = true /\ wide free (A ++ cache' ++ B) x = false) ->
  (forall x, wide free (A ++ cache' ++ B) x = true -> wide (mc_free (rr_m R)) (cached R) x = true) ->
  NoDup (A ++ cache' ++ B) -> (forall x, x ∈ A ++ cache' ++ B -> free x = false) ->
  (b + foldr (fun f t => (pf_size f + t)%N) 0%N (zs ++ cs) <= KERNEL_BASE)%N ->
  map_found dbg nm R i p (shared_in (mc_kern (rr_m R)) s) b (zs ++ cs) zs refills free cache' = Some (R', r) ->
  step_keeps O R R' p /\
  match r with
  | Some (Ok (_, len)) => len = foldr (fun f t => (pf_size f + t)%N) 0%N (zs ++ cs) /\
      (forall x, within b len x -> is_Some (loads (rr_m R') p x)) /\
      (forall x, within b (foldr (fun f t => (pf_size f + t)%N) 0%N zs) x -> loads (rr_m R') p x = Some 0%N)
  | _ => True
  end.
Proof using Type.
  intros I Hs Ec Ec' Hok Hnd Hpg Hsub HN HS Hb Hm. pose proof (ro_m _ _ I) as M.
  set (W := wide (mc_free (rr_m R)) (cached R)) in *. set (W' := wide free (A ++ cache' ++ B)) in *.
  unfold map_found in Hm. destruct (Nat.eqb_spec (length refills) (length (zs ++ cs))) as [El|]; [|done].
  destruct (tot_zip _ _ El) as [Z1 Z2]. set (fs := zip (zs ++ cs) refills) in *.
  destruct (tk_of_pages (zs ++ cs) W Hok Hnd) as [fr' T]; [intros x Hx; by apply Hpg|].
  destruct (tk_pages _ _ _ T) as (_ & _ & _ & Hfr'). rewrite <- Z1 in T. rewrite <- Z2 in Hb.
  pose proof (mo_prc _ _ _ _ M _ _ Hs) as Ho. pose proof (mo_kern _ _ _ _ M) as HK. cbn [with_free mc_kern] in HK.
  assert (forall q x, O q x -> W x = false) as Hfree by (intros; by eapply (mo_free _ _ _ _ M)).
  destruct (map_frames true dbg nm s b ma_write_ fs) as [s' q] eqn:Em.
  destruct (map_frames_own dbg nm _ (O p) s b W fr' s' q Ho (Hfree p) T Hb Em) as (Ho' & Hv & Hres). rewrite (Hv _ HK) in Hm.
  set (mem' := foldl zero_frame (mc_mem (rr_m R)) zs) in *.
  assert (forall x, W x = true -> fr' x = false -> x ∈ pages (zs ++ cs)) as Hin.
  { intros x Hx Hx'. rewrite Hfr', Hx in Hx'. cbn [andb] in Hx'. apply negb_false_iff in Hx'. by apply bool_decide_eq_true in Hx'. }
  set (O1 := fun x => O p x \/ W x = true /\ fr' x = false) in *.
  assert (forall q x, O q x -> W' x = false) as HW'.
  { intros q' x Hx. destruct (W' x) eqn:E; [|done]. apply Hsub in E. apply Hfree in Hx. congruence. }
  pose proof (fun dead d => rok_put O R p s s' O1 free mem' dead (set_cache (rr_cache R) i p cache') d I Hs Ho') as Hput.
  rewrite !Ec' in Hput. fold W W' in Hput.
  assert (forall dead d, let R1 := mkRr (put_prc (rr_m R) p (shared_in (mc_kern (rr_m R)) s') free mem' dead) (set_cache (rr_cache R) i p cache') d in
     rok (set_own O p O1) R1 /\ mc_kern (rr_m R1) = mc_kern (rr_m R) /\ mc_ps (rr_m R1) = <[p := s']> (mc_ps (rr_m R))) as Hput'.
  { intros dead d. apply Hput; try done.
    - intros x [Hx|[Hx _]]; [by left|by right].
    - intros x [Hx|[Hx Hx']]; [by eapply HW'|]. by apply Hpg, Hin.
    - intros q' x _ Hx. by eapply HW'.
    - eapply (tails_sub O _ W); [exact (ro_tails _ _ I)| |exact Hsub|].
      + intros q' x. unfold set_own. destruct (decide (q' = p)) as [->|]; [|by left]. intros [Hx|[Hx _]]; [by left|by right].
      + apply (regd_same _ _ s); [done|]. intros id. by eapply map_frames_pfr. }
  clear Hput. 
  assert (forall q y, q <> p -> O q (y / BASE)%N -> mem' y = mc_mem (rr_m R) y) as Hmem.
  { intros q' y _ Hy. apply zero_frames_out. intros f Hf Hyf. apply Hfree in Hy.
    assert (frame_ok true f) as Hfok by (eapply (proj1 (stdpp.list.Forall_forall _ _) Hok); apply elem_of_app; by left).
    apply (in_frame_page _ _ Hfok) in Hyf. apply elem_pages in Hyf; [|done].
    assert (y / BASE ∈ pages (zs ++ cs))%N as Hy'.
    { rewrite pages_app. apply elem_of_app. left. unfold pages. apply elem_of_list_In, in_concat. exists (frame_pages f).
      split; [apply in_map; by apply elem_of_list_In|by apply elem_of_list_In]. }
    apply Hpg in Hy' as [Hy' _]. congruence. }
  injection Hm as <- <-. split.
  { destruct (Hput' (mc_dead (rr_m R)) (fail_client (rr_down R) i (is_panic match q, zs ++ cs with Ok _, f :: _ => Ok (pf_base f, foldr (λ (f : pframe) (t : N), (pf_size f + t)%N) 0%N (zs ++ cs)) | _, _ => Panic end)))
      as (I' & Hk & Hp). split; [by eexists|]. split; [exact Hk|]. split; [rewrite Hp; intros; by rewrite list_lookup_insert_ne|]. exact Hmem. }
  destruct q as [[]|e|]; [|done..]. specialize (Hput' (mc_dead (rr_m R))).
  set (d := fail_client _ _ _). clearbody d. specialize (Hput' d) as (I' & Hk & Hp).
  set (R1 := mkRr _ _ _) in *. 
  assert (forall x k f, (x < KERNEL_BASE)%N -> vs_map (p_vs s') !! k = Some (mkMI (pf_base f) (pf_size f) ma_write_) -> within k (pf_size f) x ->
    loads (rr_m R1) p x = Some (mem' (pf_base f + (x - k))%N)) as Hload.
  { intros x k f Hx Hkf Hw. unfold loads. rewrite Hp. rewrite list_lookup_insert by (by eapply lookup_lt_Some). unfold user_translate. rewrite Hk.
    assert ((2 ^ 48 <=? x)%N = false) as -> by (apply N.leb_gt; pose proof (low48 KERNEL_BASE (N.le_refl _)); lia).
    rewrite (high_None _ _ HK) by (by apply i4_low).
    destruct Ho' as (h' & P'). destruct (C21_bookkeeping _ _ _ (pi_reach _ _ _ _ _ (po_inv _ _ _ _ _ P'))) as (B1 & _).
    destruct (B1 _ _ _ Hkf Hw) as [_ ->]. done. }
  destruct (zs ++ cs) as [|f0 fs0] eqn:Ef; [done|]. rewrite <- Ef in *. split; [done|]. split.
  - intros x Hx. rewrite <- Z2 in Hx. destruct (Hres eq_refl) as [_ Hr]. destruct (Hr x Hx) as (k & f & Hkf & Hw & _).
    eexists. eapply Hload; [|exact Hkf|exact Hw]. unfold within in Hx. lia.
  - intros x Hx.
    assert (fs = zip zs (take (length zs) refills) ++ zip cs (drop (length zs) refills)) as Efs.
    { unfold fs. rewrite <- Ef. rewrite app_length in El. rewrite <- (take_drop (length zs) refills) at 1. apply zip_with_app. rewrite take_length. lia. }
    assert (length (take (length zs) refills) = length zs) as Lz by (rewrite app_length in El; rewrite take_length; lia).
    assert (length (drop (length zs) refills) = length cs) as Lc by (rewrite app_length in El; rewrite drop_length; lia).
    destruct (tot_zip _ _ Lz) as [Y1 Y2]. destruct (tot_zip _ _ Lc) as [X1 X2].
    set (fz := zip zs (take (length zs) refills)) in *. set (fc := zip cs (drop (length zs) refills)) in *.
    rewrite Efs in Em, T, Hb. rewrite tot_app in Hb. rewrite map_frames_app in Em.
    destruct (map_frames true dbg nm s b ma_write_ fz) as [s1 q1] eqn:E1. destruct q1 as [[]|e|]; [|done..].
    apply Forall_app in Hok as [Ok1 Ok2]. rewrite pages_app in Hnd. apply NoDup_app in Hnd as (N1 & N2 & N3).
    destruct (tk_of_pages zs W Ok1 N1) as [fr1 T1]; [intros y Hy; apply Hpg; rewrite pages_app; apply elem_of_app; by left|].
    destruct (tk_pages _ _ _ T1) as (_ & _ & _ & F1).
    destruct (tk_of_pages cs fr1 Ok2 N3) as [fr2 T2].
    { intros y Hy. rewrite F1. apply andb_true_iff. split; [apply Hpg; rewrite pages_app; apply elem_of_app; by right|].
      apply negb_true_iff, bool_decide_eq_false. intros Hy'. by apply (N2 _ Hy'). }
    rewrite <- Y1 in T1. rewrite <- X1 in T2.
    destruct (map_frames_own dbg nm _ (O p) s b W fr1 s1 _ Ho (Hfree p) T1 ltac:(lia) E1) as (Oa & _ & Ra).
    destruct (Ra eq_refl) as [_ Rb]. rewrite <- Y2 in Hx. destruct (Rb x Hx) as (k & f & Hkf & Hw & Hf).
    assert (forall y, O p y \/ W y = true /\ fr1 y = false -> fr1 y = false) as Hd.
    { intros y [Hy|[_ Hy]]; [|done]. rewrite F1. by rewrite (Hfree _ _ Hy). }
    destruct (map_frames_own dbg nm _ _ s1 (b + tot fz) fr1 fr2 s' _ Oa Hd T2 ltac:(lia) Em) as (_ & _ & Rc).
    destruct (Rc eq_refl) as [Rd _]. apply Rd in Hkf. erewrite Hload; [|unfold within in Hx; lia|exact Hkf|exact Hw].
    f_equal. unfold mem'. eapply (zero_frames_in zs _ _ f); [by rewrite <- Y1|]. unfold in_frame, within in *. lia.
Qed.

(** ** Sizes *)
Lemma size_pages size : let bp := N.to_nat (MemModel.size_to_pages size).1 in let lp := N.to_nat (MemModel.size_to_pages size).2 in
  bp <= 512 /\ (N.of_nat lp * LARGE + N.of_nat bp * BASE)%N = in_pages size /\ (in_pages size <= size + 4095)%N.
Proof using Type.
  unfold MemModel.size_to_pages, in_pages, MemModel.LARGE_PAGE, MemModel.BASE_PAGE, LARGE, BASE. cbn [fst snd].
  assert ((size - size mod 2097152) mod 2097152 = 0)%N as E0.
  { pose proof (N.div_mod size 2097152 ltac:(done)) as H. set (q := (size / 2097152)%N) in *. set (r := (size mod 2097152)%N) in *. clearbody q r. subst size.
    replace (2097152 * q + r - r)%N with (q * 2097152)%N by lia. by apply N.mod_mul. }
  rewrite E0. destruct (decide (0 < 0)%N) as [?|_]; [lia|].
  assert ((size - size mod 2097152) / 2097152 = size / 2097152)%N as E1.
  { pose proof (N.div_mod size 2097152 ltac:(done)) as H. set (q := (size / 2097152)%N) in *. set (r := (size mod 2097152)%N) in *. clearbody q r. rewrite H.
    replace (2097152 * q + r - r)%N with (q * 2097152)%N by lia. by apply N.div_mul. }
  rewrite E1. clear E0 E1.
  assert (size mod 2097152 < 2097152)%N as Hr by (by apply N.mod_lt). pose proof (N.div_mod size 2097152 ltac:(done)) as Hs.
  set (q := (size / 2097152)%N) in *. set (r := (size mod 2097152)%N) in *. clearbody q r. subst size.
  assert (r mod 4096 < 4096)%N as Ht by (by apply N.mod_lt). pose proof (N.div_mod r 4096 ltac:(done)) as Hr'.
  set (u := (r / 4096)%N) in *. set (t := (r mod 4096)%N) in *. clearbody u t. subst r. rewrite !N2Nat.id.
  destruct (decide (0 < t)%N) as [Hp|Hp].
  - replace (2097152 * q + (4096 * u + t) + 4095)%N with ((t - 1) + (512 * q + u + 1) * 4096)%N by lia.
    rewrite N.div_add by done. rewrite (N.div_small (t - 1)) by lia. lia.
  - assert (t = 0)%N as -> by lia.
    replace (2097152 * q + (4096 * u + 0) + 4095)%N with (4095 + (512 * q + u) * 4096)%N by lia.
    rewrite N.div_add by done. rewrite (N.div_small 4095) by lia. lia.
Qed.
Lemma sum_sizes fs sz : Forall (fun f => pf_size f = sz) fs -> foldr (fun f t => (pf_size f + t)%N) 0%N fs = (N.of_nat (length fs) * sz)%N.
Proof using Type.
  induction 1 as [|f fs Hf _ IH]; [done|]. cbn [foldr length]. rewrite IH, Hf, Nat2N.inj_succ. lia.
Qed.
Lemma pages_sizes l : Forall (fun f => pf_size f = BASE) (map page_frame l).
Proof using Type. induction l; constructor; done. Qed.
Lemma pages_ok l : Forall (frame_ok true) (map page_frame l).
Proof using Type. induction l; constructor; [apply page_frame_ok|done]. Qed.

Lemma rm_map_ok O R i p s cache b size frames refills R' r :
  rok O R -> mc_ps (rr_m R) !! p = Some s -> cache_of R i p = Some cache -> (b + size + 4095 <= KERNEL_BASE)%N ->
  rm_map dbg nm R i p (shared_in (mc_kern (rr_m R)) s) cache b size frames refills = Some (R', r) ->
  step_keeps O R R' p /\
  match r with
  | Some (Ok (_, len)) => len = in_pages size /\
      (forall x, within b len x -> is_Some (loads (rr_m R') p x)) /\
      (forall x, within b (len - 4096 * N.of_nat (length cache)) x -> loads (rr_m R') p x = Some 0%N)
  | _ => True
  end.
Proof using Type.
  intros I Hs Hc Hb. unfold cache_of in Hc. destruct (rr_cache R !! i) as [cs|] eqn:Ei; [|done].
  destruct (cache_split _ _ _ _ _ Ei Hc) as (A & B & Ec & Ec'). fold (cached R) in Ec.
  pose proof (ro_nodup _ _ I) as ND. pose proof (ro_sep _ _ I) as SP. rewrite Ec in ND.
  destruct (size_pages size) as (Hbp & Hsz & Hle). unfold rm_map.
  set (bp := N.to_nat (MemModel.size_to_pages size).1) in *. set (lp := N.to_nat (MemModel.size_to_pages size).2) in *. clearbody bp lp.
  set (k := min (length cache) bp). set (n := length cache - k).
  set (rest := take n cache). set (dr := drop n cache). assert (cache = rest ++ dr) as Esp by (symmetry; apply take_drop).
  assert (length dr = k) as Ldr by (unfold dr, n, k; rewrite drop_length; lia).
  assert (length cache = length rest + k) as Lc by (rewrite Esp, app_length, Ldr; done).
  assert (k <= bp /\ k <= length cache) as [Hk1 Hk2] by (unfold k; lia). assert (length cache < bp -> k = length cache) as Hk3 by (unfold k; lia).
  clearbody rest dr. clear n. clearbody k.
  assert (NoDup (A ++ rest ++ B) /\ NoDup dr /\ forall x, x ∈ dr -> x ∉ A ++ rest ++ B) as (ND1 & ND2 & ND3).
  { assert (A ++ cache ++ B ≡ₚ dr ++ (A ++ rest ++ B)) as Hp. { rewrite Esp. solve_Permutation. }
    rewrite Hp in ND. apply NoDup_app in ND as (? & ? & ?). done. }
  assert (forall x, x ∈ cached R <-> x ∈ dr \/ x ∈ A ++ rest ++ B) as Hcd.
  { intros x. rewrite Ec, Esp. rewrite !elem_of_app. tauto. }
  set (F := mc_free (rr_m R)) in *.
  assert (forall x, x ∈ A ++ rest ++ B -> F x = false) as SP1 by (intros x Hx; apply SP, Hcd; by right).
  assert (forall x, wide F (A ++ rest ++ B) x = true -> wide F (cached R) x = true) as HW1.
  { intros x Hx. apply wide_true in Hx as [Hx|Hx]; apply wide_true; [by left|]. right. apply Hcd. by right. }
  assert (length (reverse dr) = k) as Ltk by (by rewrite reverse_length).
  destruct (Nat.eqb_spec (lp + (if bp - k =? 0 then 0 else 1)) 0) as [E0|E0].
  - (* the cache suffices *)
    assert (lp = 0 /\ bp = k) as [-> Hbk] by (destruct (Nat.eqb_spec (bp - k) 0); lia). intros Hm.
    pose proof (map_found_ok O R i p s cache b [] (map page_frame (reverse dr)) refills F rest R' r A B I Hs Ec Ec') as Hmf.
    cbn [app] in Hmf. rewrite pages_pages in Hmf.
    assert (foldr (fun f t => (pf_size f + t)%N) 0%N (map page_frame (reverse dr)) = in_pages size) as Esum.
    { rewrite (sum_sizes _ BASE) by apply pages_sizes. rewrite map_length, Ltk, <- Hbk, <- Hsz. lia. }
    rewrite Esum in Hmf. destruct Hmf as [H1 H2].
    + apply pages_ok.
    + by rewrite reverse_Permutation.
    + intros x Hx. rewrite reverse_Permutation in Hx. split; [apply wide_true; right; apply Hcd; by left|].
      apply wide_false. split; [apply SP, Hcd; by left|by apply ND3].
    + exact HW1.
    + done.
    + exact SP1.
    + lia.
    + exact Hm.
    + split; [exact H1|]. destruct r as [[[pa len]| |]|]; try done. destruct H2 as (-> & H3 & H4). split; [done|]. split; [done|].
      intros x Hx. exfalso. rewrite <- Hsz, Hbk in Hx. unfold within, BASE in Hx. lia.
  - set (nl := lp + (if bp - k =? 0 then 0 else 1)) in *.
    destruct (mc_dead (rr_m R)) eqn:Ed.
    { intros [= <- <-]. split; [|done].
      assert (rr_m R = with_free (rr_m R) F true) as -> by (destruct (rr_m R); cbn in *; by subst).
      apply keeps_shrink; rewrite ?Ec'; done. }
    destruct frames as [fs|].
    2:{ intros [= <- <-]. split; [|done]. apply keeps_shrink; rewrite ?Ec'; done. }
    destruct (Nat.eqb_spec (length fs) nl) as [Lf|]; [|done].
    destruct (take_frames F LARGE fs) as [free|] eqn:T; [|done].
    pose proof (take_frames_size _ _ _ _ T) as Hfsz. apply take_frames_tk in T; [|by right].
    destruct (tk_pages _ _ _ T) as (Fok & FN & Fin & Ffree).
    assert (forall x, free x = true -> F x = true /\ x ∉ pages fs) as Hfree.
    { intros x. rewrite Ffree, andb_true_iff, negb_true_iff, bool_decide_eq_false. done. }
    destruct (RM_MSG <? shmem_reply nl)%N.
    { intros [= <- <-]. split; [|done]. apply keeps_shrink; rewrite ?Ec'; try done.
      - intros x Hx. apply HW1. apply wide_true. apply wide_true in Hx as [Hx|Hx]; [left; by apply Hfree|by right].
      - intros x Hx. rewrite Ffree. by rewrite (SP1 _ Hx). }
    set (pgs := match drop lp fs with f :: _ => frame_pages f | [] => [] end).
    set (larges := take lp fs).
    assert (pages fs = pages larges ++ pgs /\ bp - k <= length pgs) as [Epg Lpg].
    { rewrite <- (take_drop lp fs) at 1. rewrite pages_app. unfold pgs. pose proof (drop_length fs lp) as Ld. rewrite Lf in Ld. unfold nl in Ld.
      assert (Forall (fun f => pf_size f = LARGE) (drop lp fs)) as Hds by (by apply Forall_drop).
      destruct (drop lp fs) as [|f l] eqn:Edr; cbn [length] in Ld.
      - split; [done|]. destruct (Nat.eqb_spec (bp - k) 0); [lia|]. lia.
      - destruct l as [|g l]; [|cbn [length] in Ld; destruct (bp - k =? 0); lia]. unfold pages at 2. cbn [map concat]. rewrite app_nil_r. split; [done|].
        apply Forall_cons_1 in Hds as [Hf _]. rewrite len_frame_pages, Hf. change (N.to_nat (LARGE / BASE)) with (N.to_nat 512). lia. }
    set (fresh := take (bp - k) pgs). set (sv := drop (bp - k) pgs).
    assert (pgs = fresh ++ sv) as Epgs by (symmetry; apply take_drop).
    assert (length fresh = bp - k) as Lfr by (unfold fresh; rewrite take_length; lia).
    set (saved := take (FRAME_CACHE - length rest) sv).
    assert (exists lost, sv = saved ++ lost) as [lost Esv] by (eexists; symmetry; apply take_drop).
    assert (length larges = lp) as Llg by (unfold larges; rewrite take_length, Lf; unfold nl; lia).
    assert (Forall (frame_ok true) larges /\ Forall (fun f => pf_size f = LARGE) larges) as [Lok Lsz] by (split; by apply Forall_take).
    change (fun f : pframe => _) with (fun f => pf_size f = LARGE) in Lsz.
    clearbody fresh saved sv pgs larges. subst sv. subst pgs. clear Lpg.
    rewrite app_assoc. intros Hm.
    rewrite Epg in FN.
    assert (NoDup ((pages larges ++ fresh) ++ (saved ++ lost))) as FN'. { by rewrite <- app_assoc. }
    apply NoDup_app in FN' as (FN1 & FN2 & FN3). apply NoDup_app in FN3 as (FN3 & _ & _).
    assert (forall x, x ∈ pages larges ++ fresh \/ x ∈ saved -> F x = true) as HF.
    { intros x Hx. apply Fin. rewrite Epg, !elem_of_app in *. tauto. }
    assert (forall x, x ∈ pages larges ++ fresh \/ x ∈ saved -> free x = false) as Hfr.
    { intros x Hx. destruct (free x) eqn:E; [|done]. apply Hfree in E as [_ E]. exfalso. apply E. rewrite Epg, !elem_of_app in *. tauto. }
    assert (forall x, x ∈ A ++ (rest ++ saved) ++ B <-> x ∈ saved \/ x ∈ A ++ rest ++ B) as Hel.
    { intros x. rewrite !elem_of_app. tauto. }
    pose proof (map_found_ok O R i p s cache b (larges ++ map page_frame fresh) (map page_frame (reverse dr)) refills free (rest ++ saved) R' r A B I Hs Ec Ec') as Hmf.
    fold F in Hmf. rewrite !pages_app, !pages_pages in Hmf.
    assert (foldr (fun f t => (pf_size f + t)%N) 0%N (larges ++ map page_frame fresh) = (N.of_nat lp * LARGE + N.of_nat (bp - k) * BASE)%N) as Es1.
    { rewrite sum_app, (sum_sizes _ LARGE Lsz), (sum_sizes _ BASE) by apply pages_sizes. by rewrite map_length, Llg, Lfr. }
    assert (foldr (fun f t => (pf_size f + t)%N) 0%N ((larges ++ map page_frame fresh) ++ map page_frame (reverse dr)) = in_pages size) as Es2.
    { rewrite sum_app, Es1, (sum_sizes _ BASE) by apply pages_sizes. rewrite map_length, Ltk, <- Hsz.
      rewrite Nat2N.inj_sub. unfold LARGE, BASE. lia. }
    rewrite Es1, Es2 in Hmf. destruct Hmf as [H1 H2].
    + apply Forall_app. split; [apply Forall_app; split; [done|apply pages_ok]|apply pages_ok].
    + apply NoDup_app. split; [exact FN1|]. split; [|by rewrite reverse_Permutation].
      intros x Hx Hx'. rewrite reverse_Permutation in Hx'. assert (F x = true) as E by (apply HF; by left).
      rewrite SP in E; [done|]. apply Hcd. by left.
    + intros x Hx. apply elem_of_app in Hx as [Hx|Hx].
      * assert (F x = true) as E by (apply HF; by left). split; [apply wide_true; by left|]. apply wide_false. split; [apply Hfr; by left|].
        intros Hx'. apply Hel in Hx' as [Hx'|Hx']; [|by rewrite (SP1 _ Hx') in E]. apply (FN2 x Hx). apply elem_of_app. by left.
      * rewrite reverse_Permutation in Hx. split; [apply wide_true; right; apply Hcd; by left|].
        assert (F x = false) as E by (apply SP, Hcd; by left). apply wide_false. split; [by rewrite Ffree, E|].
        intros Hx'. apply Hel in Hx' as [Hx'|Hx']; [|by apply (ND3 x)]. rewrite HF in E by (by right). done.
    + intros x Hx. apply wide_true. apply wide_true in Hx as [Hx|Hx]; [left; by apply Hfree|].
      apply Hel in Hx as [Hx|Hx]; [left; apply HF; by right|]. right. apply Hcd. by right.
    + assert (A ++ (rest ++ saved) ++ B ≡ₚ saved ++ (A ++ rest ++ B)) as -> by solve_Permutation.
      apply NoDup_app. split; [done|]. split; [|done]. intros x Hx Hx'. apply SP1 in Hx'. rewrite HF in Hx' by (by right). done.
    + intros x Hx. apply Hel in Hx as [Hx|Hx]; [apply Hfr; by right|]. rewrite Ffree. by rewrite (SP1 _ Hx).
    + lia.
    + exact Hm.
    + split; [exact H1|]. destruct r as [[[pa len]| |]|]; try done. destruct H2 as (-> & H3 & H4). split; [done|]. split; [done|].
      intros x Hx. apply H4. revert Hx. rewrite <- Hsz. unfold within. rewrite Nat2N.inj_sub. unfold LARGE, BASE. lia.
Qed.

(** ** The other calls *)
Lemma put_same O R p s s' mem dead d : rok O R -> mc_ps (rr_m R) !! p = Some s -> pown dbg nm (O p) s' -> (forall id, pfr s' id = pfr s id) ->
  mem = mc_mem (rr_m R) ->
  step_keeps O R (mkRr (put_prc (rr_m R) p (shared_in (mc_kern (rr_m R)) s') (mc_free (rr_m R)) mem dead) (rr_cache R) d) p.
Proof using Type.
  intros I Hs Ho Hf ->. pose proof (mo_free _ _ _ _ (ro_m _ _ I)) as MF. cbn [with_free mc_free] in MF.
  destruct (rok_put O R p s s' (O p) (mc_free (rr_m R)) (mc_mem (rr_m R)) dead (rr_cache R) d I Hs Ho) as (I' & Hk & Hp).
  - by left.
  - apply MF.
  - intros q x _. apply MF.
  - apply I.
  - apply I.
  - eapply tails_sub; [apply I|intros q x Hx; left; by apply set_own_self in Hx|done|]. by apply (regd_same _ _ s).
  - split; [by eexists|]. split; [exact Hk|]. split; [|done]. intros q Hq. rewrite Hp. by rewrite list_lookup_insert_ne.
Qed.

Lemma local_ok O R p c m' r dead d : rok O R -> request_ok (rr_m R) p c -> local_call c = true ->
  mach_step dbg nm (with_free (rr_m R) (mc_free (rr_m R)) false) p c = Some (m', r) ->
  step_keeps O R (mkRr (with_free m' (mc_free m') dead) (rr_cache R) d) p.
Proof using Type.
  intros I Hrq Hl. unfold mach_step. cbn [with_free mc_dead mc_ps mc_kern mc_free mc_mem].
  destruct (mc_ps (rr_m R) !! p) as [s|] eqn:Es; [|done]. pose proof (ro_m _ _ I) as M.
  pose proof (mo_prc _ _ _ _ M _ _ Es) as Ho. pose proof Ho as (h & P). pose proof (mo_kern _ _ _ _ M) as HK. cbn [with_free mc_kern] in HK.
  assert (forall s' mem, put_prc (with_free (rr_m R) (mc_free (rr_m R)) false) p (shared_in (mc_kern (rr_m R)) s') (mc_free (rr_m R)) mem dead =
    put_prc (rr_m R) p (shared_in (mc_kern (rr_m R)) s') (mc_free (rr_m R)) mem dead) as Eput by done.
  destruct c as [b size mem|b|b size|b id refill|size mem|id|f aff fail|va v|va]; cbn [request_ok local_call] in Hrq, Hl; try done.
  - unfold sys_unmap. destruct (prc_step true dbg nm s (PoUnmap b)) as [s' q] eqn:E.
    destruct (prc_step_low true dbg nm _ s (PoUnmap b) s' q HK (po_low _ _ _ _ _ P) Hrq E) as [-> _].
    destruct (pown_unmap dbg nm _ _ _ _ _ Ho Hrq E) as [_ Ho']. pose proof (step_pfr _ _ _ _ _ _ E) as Hf. cbn match in Hf.
    destruct q as [[ | | |va sz [|c cs]| | | ]|e|]; intros [= <- <-]; apply (put_same O R p s s'); done.
  - unfold sys_map_frame_id. destruct (prc_step true dbg nm s (PoMapId b id ma_frame_id refill)) as [s' q] eqn:E.
    assert (op_low s (PoMapId b id ma_frame_id refill)) as Hlw.
    { intros f k Hi. assert (reg h !! id = Some f) as Hr by (by rewrite (pi_reg _ _ _ _ _ (po_inv _ _ _ _ _ P)), Hi).
      destruct (pi_fok _ _ _ _ _ (po_inv _ _ _ _ _ P) _ _ Hr) as [[-> |[-> _]] _]; unfold LARGE in Hrq; lia. }
    destruct (prc_step_low true dbg nm _ s (PoMapId b id ma_frame_id refill) s' q HK (po_low _ _ _ _ _ P) Hlw E) as [-> _].
    destruct (pown_id dbg nm _ _ _ _ ma_frame_id _ _ _ Ho eq_refl Hrq E) as [_ Ho']. pose proof (step_pfr _ _ _ _ _ _ E) as Hf. cbn match in Hf.
    destruct q as [[ | | | | | | ]|e|]; intros [= <- <-]; apply (put_same O R p s s'); done.
  - assert (forall mem, (forall q y, q <> p -> O q (y / BASE)%N -> mem y = mc_mem (rr_m R) y) ->
      step_keeps O R (mkRr (mkMach (mc_ps (rr_m R)) (mc_kern (rr_m R)) (mc_free (rr_m R)) mem dead) (rr_cache R) d) p) as Hsame.
    { intros mem Hmem. split; [|done]. exists O. destruct I as [[A1 A2 A3 A4] I2 I3 I4]. split; [split|..]; done. }
    destruct (user_translate _ s va) as [[pa rt]|] eqn:Et; [|intros [= <- <-]; by apply Hsame].
    destruct (ma_write rt); [|intros [= <- <-]; by apply Hsame]. intros [= <- <-]. apply Hsame. intros q y Hq Hy. cbn [mc_mem with_free].
    destruct (N.eqb_spec y pa) as [->|]; [|done]. exfalso. apply (mo_apart _ _ _ _ M q p (pa / BASE)%N); [done|done|].
    eapply (mok_reaches dbg nm _ _ _ va); [exact M|]. exists s, rt. done.
  - assert (step_keeps O R (mkRr (mkMach (mc_ps (rr_m R)) (mc_kern (rr_m R)) (mc_free (rr_m R)) (mc_mem (rr_m R)) dead) (rr_cache R) d) p) as Hsame.
    { split; [|done]. exists O. destruct I as [[A1 A2 A3 A4] I2 I3 I4]. split; [split|..]; done. }
    destruct (user_translate _ s va) as [[pa rt]|] eqn:Et; intros [= <- <-]; exact Hsame.
Qed.

Lemma rm_alloc_ok O R i p s size frame R' r : rok O R -> mc_ps (rr_m R) !! p = Some s -> size = 4096%N \/ size = 2097152%N ->
  rm_alloc dbg nm R i p (shared_in (mc_kern (rr_m R)) s) size frame = Some (R', r) -> step_keeps O R R' p.
Proof using Type.
  intros I Hs Hsz. unfold rm_alloc. pose proof (ro_m _ _ I) as M.
  pose proof (mo_prc _ _ _ _ M _ _ Hs) as Ho. pose proof Ho as (h & P). pose proof (mo_kern _ _ _ _ M) as HK. cbn [with_free mc_kern] in HK.
  pose proof (mo_free _ _ _ _ M) as MF. cbn [with_free mc_free] in MF.
  destruct (mc_dead (rr_m R)) eqn:Ed.
  { intros [= <- <-]. split; [|done]. by exists O. }
  destruct frame as [f|].
  2:{ intros [= <- <-]. apply keeps_shrink; [done|done|apply I|apply I]. }
  set (F := mc_free (rr_m R)) in *. destruct (take_frame F LARGE f) as [free|] eqn:T; [|done].
  destruct (take_frame_spec _ _ _ _ (or_intror (conj eq_refl eq_refl)) T) as (Efs & Hf & Hfr & Hfree).
  assert (f = lpage f) as Elp. { destruct f as [fb fz]. cbn in Efs. by rewrite Efs. }
  set (g := mkPF (pf_base f) size).
  assert (pf_base f mod LARGE = 0)%N as Hal. { destruct Hf as [_ Ha]. by rewrite Efs in Ha. }
  assert (frame_ok true g) as Hg.
  { split; cbn [g pf_base pf_size]; [destruct Hsz; [by left|by right]|]. destruct Hsz as [-> | ->]; [|done].
    clear -Hal. unfold LARGE in Hal. set (b := pf_base f) in *. clearbody b. zify. Z.to_euclidean_division_equations. lia. }
  assert (lpage g = f) as Elg by (by rewrite Elp).
  assert (forall x, page_of_frame g x = true -> page_of_frame f x = true) as Hgf by (intros x Hx; rewrite <- Elg; by apply lpage_self).
  assert (forall q x, O q x -> F x = false) as HOF. { intros q x Hx. apply MF in Hx. by apply wide_false in Hx as [? _]. }
  destruct (prc_step true dbg nm s (PoAddFrame g)) as [s' q] eqn:E.
  destruct (prc_step_low true dbg nm _ s (PoAddFrame g) s' q HK (po_low _ _ _ _ _ P) Logic.I E) as [-> _].
  assert (forall x, page_of_frame g x = true -> ~ O p x) as Hnew. { intros x Hx HO. apply Hgf, Hfr in Hx. apply HOF in HO. congruence. }
  destruct (pown_add dbg nm _ _ _ _ _ Ho Hg Hnew E) as (_ & Ho' & _).
  pose proof (step_pfr _ _ _ _ _ _ E) as Hpf. cbn match in Hpf.
  assert (forall x, wide free (cached R) x = true -> wide F (cached R) x = true /\ page_of_frame f x = false) as Hw.
  { intros x Hx. apply wide_true in Hx as [Hx|Hx].
    - rewrite Hfree in Hx. apply andb_true_iff in Hx as [Hx1 Hx2]. split; [apply wide_true; by left|]. by apply negb_true_iff.
    - split; [apply wide_true; by right|]. apply not_true_is_false. intros Hx'. apply Hfr in Hx'. by rewrite (ro_sep _ _ I) in Hx'. }
  intros Hr. injection Hr as <- _.
  match goal with |- step_keeps _ _ (mkRr (put_prc _ _ _ _ _ ?de) _ ?dd) _ => set (d := dd); generalize de; intros dead end. clearbody d.
  destruct (rok_put O R p s s' (plus (O p) g) free (mc_mem (rr_m R)) dead (rr_cache R) d I Hs Ho') as (I' & Hk & Hp).
  - intros x [Hx|Hx]; [by left|]. right. apply wide_true. left. by apply Hfr, Hgf.
  - intros x Hx. destruct (wide free (concat (concat (rr_cache R))) x) eqn:Ew; [|done]. exfalso. apply Hw in Ew as [W1 W2]. destruct Hx as [Hx|Hx].
    + apply MF in Hx. congruence.
    + apply Hgf in Hx. congruence.
  - intros q' x _ Hx. destruct (wide free (concat (concat (rr_cache R))) x) eqn:Ew; [|done]. apply Hw in Ew as [W1 _]. apply MF in Hx. congruence.
  - apply I.
  - intros x Hx. apply (ro_sep _ _ I) in Hx. rewrite Hfree. fold F in Hx. by rewrite Hx.
  - assert (forall q id k, regd (<[p := s']> (mc_ps (rr_m R))) q id k ->
      regd (mc_ps (rr_m R)) q id k \/ (q = p /\ k = g)) as Hreg.
    { intros q' id k (t & Ht & Hk). destruct (decide (q' = p)) as [->|].
      - rewrite list_lookup_insert in Ht by (by eapply lookup_lt_Some). injection Ht as <-.
        destruct Hpf as [[_ Hpf]|(j & _ & Hpf)]; rewrite Hpf in Hk; [left; by exists s|].
        destruct (decide (id = j)); [right; split; congruence|left; by exists s].
      - rewrite list_lookup_insert_ne in Ht by done. left. by exists t. }
    assert (forall q id k id' k', regd (<[p := s']> (mc_ps (rr_m R))) q id k -> regd (<[p := s']> (mc_ps (rr_m R))) q id' k' ->
       ~ regd (mc_ps (rr_m R)) q id k -> ~ regd (mc_ps (rr_m R)) q id' k' -> id = id') as Hone.
    { intros q' id k id' k' (t & Ht & Hk) (t' & Ht' & Hk') N1 N2. rewrite Ht in Ht'. injection Ht' as <-.
      destruct (decide (q' = p)) as [->|].
      - rewrite list_lookup_insert in Ht by (by eapply lookup_lt_Some). injection Ht as <-.
        destruct Hpf as [[_ Hpf]|(j & _ & Hpf)]; rewrite Hpf in Hk, Hk'; [destruct N1; by exists s|].
        destruct (decide (id = j)); [|destruct N1; by exists s]. destruct (decide (id' = j)); [congruence|destruct N2; by exists s].
      - rewrite list_lookup_insert_ne in Ht by done. destruct N1. by exists t. }
    assert (forall q id k, regd (mc_ps (rr_m R)) q id k \/ ~ regd (mc_ps (rr_m R)) q id k) as Hdec.
    { intros q' id k. destruct (mc_ps (rr_m R) !! q') as [t|] eqn:Et; [|right; intros (t & Ht & _); congruence].
      destruct (pfr t id) as [k'|] eqn:Ek; [|right; intros (t' & Ht & Ht'); congruence].
      destruct k' as [b1 z1], k as [b2 z2]. destruct (N.eq_dec b1 b2) as [<-|]; [|right; intros (t' & Ht & Ht'); congruence].
      destruct (N.eq_dec z1 z2) as [<-|]; [left; by exists t|right; intros (t' & Ht & Ht'); congruence]. }
    pose proof (ro_tails _ _ I) as TL. fold F in TL.
    assert (forall q id k, regd (mc_ps (rr_m R)) q id k -> forall x, page_of_frame (lpage k) x = true -> page_of_frame f x = false) as Hold.
    { intros q' id k Hk x Hx. apply not_true_is_false. intros Hx'. apply Hfr in Hx'. pose proof (tl_free _ _ _ TL _ _ _ _ Hk Hx) as Hw'.
      apply wide_false in Hw' as [Hw' _]. congruence. }
    split.
    + intros q' id k Hk. apply Hreg in Hk as [Hk|[-> ->]]; [by eapply (tl_al _ _ _ TL)|done].
    + intros q' id k x Hk Hx. fold (cached R). destruct (wide free (cached R) x) eqn:Ew; [|done]. apply Hw in Ew as [W1 W2].
      apply Hreg in Hk as [Hk|[-> ->]]; [by rewrite (tl_free _ _ _ TL _ _ _ _ Hk Hx) in W1|]. rewrite Elg in Hx. congruence.
    + intros q' id k q2 x Hk Hx Hq. apply Hreg in Hk as [Hk|[-> ->]].
      * unfold set_own in Hq. destruct (decide (q2 = p)) as [->|]; [|by eapply (tl_own _ _ _ TL)]. destruct Hq as [Hq|Hq]; [by eapply (tl_own _ _ _ TL)|].
        apply Hgf in Hq. by rewrite (Hold _ _ _ Hk _ Hx) in Hq.
      * rewrite Elg in Hx. unfold set_own in Hq. destruct (decide (q2 = p)) as [->|].
        -- split; [done|]. destruct Hq as [Hq|Hq]; [|done]. apply HOF in Hq. rewrite Hfr in Hq by done. done.
        -- apply HOF in Hq. rewrite Hfr in Hq by done. done.
    + intros q1 id k q2 j k' x H1 H2 X1 X2. destruct (Hdec q1 id k) as [D1|D1], (Hdec q2 j k') as [D2|D2].
      * by eapply (tl_apart _ _ _ TL).
      * apply Hreg in H2 as [H2|[-> ->]]; [done|]. rewrite Elg in X2. by rewrite (Hold _ _ _ D1 _ X1) in X2.
      * apply Hreg in H1 as [H1|[-> ->]]; [done|]. rewrite Elg in X1. by rewrite (Hold _ _ _ D2 _ X2) in X1.
      * pose proof H1 as H1'. pose proof H2 as H2'. apply Hreg in H1 as [H1|[-> ->]]; [done|]. apply Hreg in H2 as [H2|[-> ->]]; [done|].
        split; [done|]. by eapply Hone.
  - split; [by eexists|]. split; [exact Hk|]. split; [|done]. intros q' Hq. rewrite Hp. by rewrite list_lookup_insert_ne.
Qed.

Lemma rm_release_ok O R i p s id room dcm R' r : rok O R -> mc_ps (rr_m R) !! p = Some s ->
  rm_release dbg nm R i p (shared_in (mc_kern (rr_m R)) s) id room dcm = Some (R', r) -> step_keeps O R R' p.
Proof using Type.
  intros I Hs. unfold rm_release. pose proof (ro_m _ _ I) as M.
  pose proof (mo_prc _ _ _ _ M _ _ Hs) as Ho. pose proof Ho as (h & P). pose proof (mo_kern _ _ _ _ M) as HK. cbn [with_free mc_kern] in HK.
  pose proof (mo_free _ _ _ _ M) as MF. cbn [with_free mc_free] in MF. pose proof (ro_tails _ _ I) as TL.
  destruct (prc_step true dbg nm s (PoRelease id)) as [s' q] eqn:E.
  destruct (prc_step_low true dbg nm _ s (PoRelease id) s' q HK (po_low _ _ _ _ _ P) Logic.I E) as [-> _].
  pose proof (pown_release dbg nm _ _ _ _ _ Ho E) as Hr. pose proof (step_pfr _ _ _ _ _ _ E) as Hpf. cbn match in Hpf.
  destruct q as [[ | | | | | |f]|e|]; try done.
  2:{ subst s'. intros [= <- <-]. apply (put_same O R p s s); done. }
  destruct Hr as (Hf & HO & Ho' & _). destruct Hpf as [Hid Hpf]. set (F := mc_free (rr_m R)) in *.
  set (O1 := fun x => O p x /\ page_of_frame f x = false) in *.
  assert (forall q j k, regd (<[p := s']> (mc_ps (rr_m R))) q j k -> regd (mc_ps (rr_m R)) q j k /\ ~ (q = p /\ j = id)) as Hreg.
  { intros q' j k (t & Ht & Hk). destruct (decide (q' = p)) as [->|].
    - rewrite list_lookup_insert in Ht by (by eapply lookup_lt_Some). injection Ht as <-. rewrite Hpf in Hk.
      destruct (decide (j = id)); [done|]. split; [by exists s|]. by intros [_ ?].
    - rewrite list_lookup_insert_ne in Ht by done. split; [by exists t|]. by intros [? _]. }
  assert (regd (mc_ps (rr_m R)) p id f) as Hme by (by exists s).
  assert (forall free dead d, (forall x, free x = true -> F x = true \/ page_of_frame (lpage f) x = true) ->
    (forall x, F x = true -> free x = true) ->
    step_keeps O R (mkRr (put_prc (rr_m R) p (shared_in (mc_kern (rr_m R)) s') free (mc_mem (rr_m R)) dead) (rr_cache R) d) p) as Hgen.
  { intros free dead d Hfree _.
    assert (forall x, wide free (cached R) x = true -> wide F (cached R) x = true \/ page_of_frame (lpage f) x = true) as Hw.
    { intros x Hx. apply wide_true in Hx as [Hx|Hx]; [|left; apply wide_true; by right]. apply Hfree in Hx as [Hx|Hx]; [|by right]. left. apply wide_true. by left. }
    destruct (rok_put O R p s s' O1 free (mc_mem (rr_m R)) dead (rr_cache R) d I Hs Ho') as (I' & Hk & Hp).
    - intros x [Hx _]. by left.
    - intros x [Hx Hx']. fold (cached R). destruct (wide free (cached R) x) eqn:Ew; [|done]. apply Hw in Ew as [Ew|Ew].
      + apply MF in Hx. congruence.
      + destruct (tl_own _ _ _ TL _ _ _ _ _ Hme Ew Hx) as [_ ?]. congruence.
    - intros q x Hq Hx. fold (cached R). destruct (wide free (cached R) x) eqn:Ew; [|done]. apply Hw in Ew as [Ew|Ew].
      + apply MF in Hx. congruence.
      + by destruct (tl_own _ _ _ TL _ _ _ _ _ Hme Ew Hx).
    - apply I.
    - intros x Hx. destruct (free x) eqn:Ef; [|done]. apply Hfree in Ef as [Ef|Ef].
      + pose proof (ro_sep _ _ I _ Hx) as Hx'. fold F in Hx'. congruence.
      + pose proof (tl_free _ _ _ TL _ _ _ _ Hme Ef) as Hw'. by apply wide_false in Hw' as [_ ?].
    - fold (cached R). split.
      + intros q j k Hk. apply Hreg in Hk as [Hk _]. by eapply (tl_al _ _ _ TL).
      + intros q j k x Hk Hx. apply Hreg in Hk as [Hk Hne]. destruct (wide free (cached R) x) eqn:Ew; [|done]. apply Hw in Ew as [Ew|Ew].
        * by rewrite (tl_free _ _ _ TL _ _ _ _ Hk Hx) in Ew.
        * destruct Hne. by eapply (tl_apart _ _ _ TL).
      + intros q j k q2 x Hk Hx Hq. apply Hreg in Hk as [Hk _]. eapply (tl_own _ _ _ TL); [done|done|].
        unfold set_own in Hq. destruct (decide (q2 = p)) as [->|]; [by destruct Hq|done].
      + intros q j k q2 j2 k2 x H1 H2. apply Hreg in H1 as [H1 _]. apply Hreg in H2 as [H2 _]. by apply (tl_apart _ _ _ TL).
    - split; [by eexists|]. split; [exact Hk|]. split; [|done]. intros q' Hq. rewrite Hp. by rewrite list_lookup_insert_ne. }
  destruct (mc_dead (rr_m R)).
  { intros [= <- <-]. apply Hgen; [by left|done]. }
  destruct room; intros [= <- <-]; [|apply Hgen; [by left|done]]. apply Hgen; unfold give_frame, lpage; intros x Hx; rewrite ?Hx; [|done].
  by apply orb_true_iff in Hx.
Qed.

Lemma rack_step_ok O R i p c R' r : rok O R -> rm_ok R p c -> rack_step dbg nm R i p c = Some (R', r) ->
  step_keeps O R R' p /\
  match c, r with
  | RmMap b size _ _ _, Some (Ok (_, len)) => len = in_pages size /\
      (forall x, within b len x -> is_Some (loads (rr_m R') p x)) /\
      (forall x, within b (len - 4096 * N.of_nat (length (default [] (cache_of R i p)))) x -> loads (rr_m R') p x = Some 0%N)
  | _, _ => True
  end.
Proof using Type.
  intros I Hrq. unfold rack_step. destruct (rr_down R !! i) as [[]|]; [done| |done]. destruct (mc_ps (rr_m R) !! p) as [s|] eqn:Es; [|done].
  destruct (cache_of R i p) as [cache|] eqn:Ec; [|done].
  destruct c as [b size oom frames refills|c|size frame|id room dcm]; cbn [rm_ok] in Hrq.
  - destruct oom; [intros [= <- <-]; split; [|done]; split; [by exists O|done]|]. intros H. exact (rm_map_ok _ _ _ _ _ _ _ _ _ _ _ _ I Es Ec Hrq H).
  - intros H. split; [|done]. destruct (local_call c) eqn:El; [|done].
    destruct (mach_step _ _ _ _ _) as [[m' q]|] eqn:Em; [|done]. injection H as <- <-. eapply local_ok; [done|done|done|exact Em].
  - intros H. split; [|done]. by eapply rm_alloc_ok.
  - intros H. split; [|done]. by eapply rm_release_ok.
Qed.

(** ** Maps that succeed *)
Fixpoint al_from (b : N) (fs : list pframe) : Prop :=
  match fs with [] => True | f :: fs => (b mod pf_size f = 0)%N /\ al_from (b + pf_size f) fs end.
Lemma al_app l1 l2 : forall b, al_from b l1 -> al_from (b + foldr (fun f t => (pf_size f + t)%N) 0%N l1) l2 -> al_from b (l1 ++ l2).
Proof using Type.
  induction l1 as [|f l1 IH]; intros b; cbn [al_from foldr app]; [by rewrite N.add_0_r|].
  intros [H1 H2] H3. split; [done|]. apply IH; [done|]. by rewrite <- N.add_assoc.
Qed.
Lemma al_sizes sz fs : (0 < sz)%N -> Forall (fun f => pf_size f = sz) fs -> forall b, (b mod sz = 0)%N -> al_from b fs.
Proof using Type.
  intros Hp. induction 1 as [|f fs Hf _ IH]; intros b Hb; [done|]. cbn [al_from]. rewrite Hf. split; [done|]. apply IH.
  rewrite <- (N.mul_1_l sz) at 1. by rewrite N.mod_add by lia.
Qed.
Lemma map_frames_go K fs : high K -> forall s b,
  reach true dbg (p_vs s) -> low (vs_pt (p_vs s)) -> Forall (fun f => frame_ok true f.1 /\ f.2 = true) fs -> al_from b (map fst fs) ->
  (b + tot fs <= KERNEL_BASE)%N -> (forall x, within b (tot fs) x -> vs_resolve (p_vs s) x = Err NotMapped) ->
  exists s', map_frames true dbg nm (shared_in K s) b ma_write_ fs = (shared_in K s', Ok tt).
Proof using Type.
  intros HK. induction fs as [|[f rf] fs IH]; intros s b R L Hok Hal Hb Hu; cbn [map_frames map fst tot foldr al_from] in *; [by exists s|].
  change (foldr (λ (x : pframe * bool) (t : N), (pf_size x.1 + t)%N) 0%N fs) with (tot fs) in *.
  apply Forall_cons_1 in Hok as [[[Hf1 Hf2] Hrf] Hok]. cbn [fst snd] in *. subst rf. destruct Hal as [Hal Hal'].
  assert (b + pf_size f <= KERNEL_BASE)%N as Hb1 by lia. pose proof (low48 _ Hb1) as H48.
  destruct (C17_map_unmapped_range true dbg (p_vs s) b (pf_base f) (pf_size f) ma_write_ R Hf1 H48 Hf2 Hal) as (v & Ev & _ & Hout & _).
  { intros x [X1 X2]. apply Hu. split; lia. }
  set (s1 := mkPrc v (p_pfm s) (p_eid s) (p_exoff s) (p_cache s) (p_active s)).
  assert (prc_step true dbg nm s (PoMapFrame b f ma_write_ true) = (s1, Ok PrOk)) as Es by (cbn [prc_step]; by rewrite Ev).
  destruct (prc_step_low true dbg nm K s (PoMapFrame b f ma_write_ true) s1 _ HK L Hb1 Es) as [-> L1].
  apply IH; [|done|done|done|lia|].
  - cbn [s1 p_vs]. pose proof (reach_map true dbg (p_vs s) b (pf_base f) (pf_size f) ma_write_ R Hf1 H48) as R1. by rewrite Ev in R1.
  - intros x [X1 X2]. cbn [s1 p_vs]. rewrite Hout; [apply Hu; split; lia| |unfold within; lia].
    pose proof (low48 KERNEL_BASE (N.le_refl _)). lia.
Qed.
Lemma zip_all (fs : list pframe) (rf : list bool) : length rf = length fs -> Forall (frame_ok true) fs -> Forall (fun b => b = true) rf ->
  Forall (fun f => frame_ok true f.1 /\ f.2 = true) (zip fs rf).
Proof using Type.
  revert rf. induction fs as [|f fs IH]; intros [|b rf] Hl Hf Hr; try done; [constructor|]. apply Forall_cons_1 in Hf as [Hf Hfs]. apply Forall_cons_1 in Hr as [Hb Hrs].
  cbn [zip zip_with]. constructor; [done|]. apply IH; [cbn in Hl; lia|done|done].
Qed.

Lemma map_found_go O R i p s b frames zs refills free cache R' r :
  rok O R -> mc_ps (rr_m R) !! p = Some s -> Forall (frame_ok true) frames -> Forall (fun b => b = true) refills ->
  al_from b frames -> frames <> [] ->
  (b + foldr (fun f t => (pf_size f + t)%N) 0%N frames <= KERNEL_BASE)%N ->
  (forall x, within b (foldr (fun f t => (pf_size f + t)%N) 0%N frames) x -> vs_resolve (p_vs s) x = Err NotMapped) ->
  map_found dbg nm R i p (shared_in (mc_kern (rr_m R)) s) b frames zs refills free cache = Some (R', r) ->
  exists pa, r = Some (Ok (pa, foldr (fun f t => (pf_size f + t)%N) 0%N frames)).
Proof using Type.
  intros I Hs Hok Hr Hal Hne Hb Hu. pose proof (ro_m _ _ I) as M. destruct (mo_prc _ _ _ _ M _ _ Hs) as (h & P).
  pose proof (mo_kern _ _ _ _ M) as HK. cbn [with_free mc_kern] in HK.
  unfold map_found. destruct (Nat.eqb_spec (length refills) (length frames)) as [Hl|]; [|done].
  destruct (tot_zip _ _ Hl) as [Z1 Z2]. rewrite <- Z2 in Hb, Hu.
  destruct (map_frames_go (mc_kern (rr_m R)) (zip frames refills) HK s b) as [s' ->]; try done.
  - apply P.
  - apply P.
  - by apply zip_all.
  - by rewrite Z1.
  - destruct frames as [|f frames]; [done|]. intros [= _ <-]. eexists. reflexivity.
Qed.
Lemma size_parts size : (MemModel.size_to_pages size).2 = (size / 2097152)%N /\ ((MemModel.size_to_pages size).1 * 4096)%N = in_pages (size mod 2097152).
Proof using Type.
  split.
  - unfold MemModel.size_to_pages, MemModel.LARGE_PAGE. cbn [fst snd].
    pose proof (N.div_mod size 2097152 ltac:(done)) as H. set (q := (size / 2097152)%N) in *. set (r := (size mod 2097152)%N) in *. clearbody q r. subst size.
    replace (2097152 * q + r - r)%N with (q * 2097152)%N by lia. rewrite N.mod_mul, N.div_mul by done. destruct (decide (0 < 0)%N); [lia|done].
  - unfold MemModel.size_to_pages, MemModel.LARGE_PAGE, MemModel.BASE_PAGE, in_pages. cbn [fst snd]. generalize (size mod 2097152)%N. intros r.
    assert (r mod 4096 < 4096)%N as Ht by (by apply N.mod_lt). pose proof (N.div_mod r 4096 ltac:(done)) as Hr.
    set (u := (r / 4096)%N) in *. set (t := (r mod 4096)%N) in *. clearbody u t. subst r. destruct (decide (0 < t)%N) as [Hp|Hp].
    + replace (4096 * u + t + 4095)%N with ((t - 1) + (u + 1) * 4096)%N by lia. rewrite N.div_add by done. rewrite (N.div_small (t - 1)) by lia. lia.
    + assert (t = 0)%N as -> by lia. replace (4096 * u + 0 + 4095)%N with (4095 + u * 4096)%N by lia. rewrite N.div_add by done. rewrite (N.div_small 4095) by lia. lia.
Qed.

Lemma rm_map_go O R i p s cache b size frames refills R' r :
  rok O R -> mc_ps (rr_m R) !! p = Some s -> cache_of R i p = Some cache -> (0 < size)%N -> (b + size + 4095 <= KERNEL_BASE)%N ->
  (b mod 4096 = 0)%N -> ((2097152 <= size)%N -> (b mod 2097152 = 0)%N) ->
  (forall x, within b (in_pages size) x -> vs_resolve (p_vs s) x = Err NotMapped) ->
  mc_dead (rr_m R) = false -> (larges_needed size (length cache) <= 508)%N -> Forall (fun b => b = true) refills ->
  rm_map dbg nm R i p (shared_in (mc_kern (rr_m R)) s) cache b size (Some frames) refills = Some (R', r) ->
  exists pa, r = Some (Ok (pa, in_pages size)).
Proof using Type.
  intros I Hs Hc Hpos Hb Hal Hal2 Hu Hd Hmax Hr.
  destruct (size_pages size) as (Hbp & Hsz & Hle). destruct (size_parts size) as [Hp2 Hp1]. unfold rm_map. unfold larges_needed in Hmax.
  rewrite <- Hp1, <- Hp2 in *.
  assert (2097152 <= size -> 1 <= (MemModel.size_to_pages size).2)%N as Hbig by (rewrite Hp2; intros; apply N.div_le_lower_bound; lia).
  assert (size < 2097152 -> (MemModel.size_to_pages size).2 = 0)%N as Hsmall by (rewrite Hp2; by apply N.div_small).
  destruct (MemModel.size_to_pages size) as [bpN lpN]. cbn [fst snd] in *.
  clear Hp1 Hp2.
  assert (exists bp lp, bpN = N.of_nat bp /\ lpN = N.of_nat lp) as (bp & lp & -> & ->) by (exists (N.to_nat bpN), (N.to_nat lpN); lia).
  rewrite !Nat2N.id in *.
  set (k := min (length cache) bp). set (n := length cache - k).
  set (rest := take n cache). set (dr := drop n cache).
  assert (length dr = k) as Ldr by (unfold dr, n, k; rewrite drop_length; lia).
  assert ((if (N.of_nat bp * 4096 <=? 4096 * N.of_nat (length cache)) then 0 else 1) = N.of_nat (if (bp - k =? 0)%nat then 0%nat else 1%nat))%N as Eif.
  { destruct (N.leb_spec (N.of_nat bp * 4096) (4096 * N.of_nat (length cache))), (Nat.eqb_spec (bp - k) 0); unfold k in *; lia. }
  rewrite Eif in *. clear Eif. assert (k <= bp) as Hk by (unfold k; lia). clearbody k rest dr. clear n.
  assert (length (reverse dr) = k) as Ltk by (by rewrite reverse_length).
  assert (in_pages size > 0)%N as Hip. { unfold in_pages. assert (1 <= (size + 4095) / 4096)%N by (apply N.div_le_lower_bound; lia). lia. }
  destruct (Nat.eqb_spec (lp + (if bp - k =? 0 then 0 else 1)) 0) as [E0|E0].
  - assert (lp = 0 /\ bp = k) as [-> Hbk] by (destruct (Nat.eqb_spec (bp - k) 0); lia).
    assert (foldr (fun f t => (pf_size f + t)%N) 0%N (map page_frame (reverse dr)) = in_pages size) as Esum.
    { rewrite (sum_sizes _ BASE) by apply pages_sizes. rewrite map_length, Ltk, <- Hbk, <- Hsz. lia. }
    rewrite <- Esum. eapply map_found_go; try done.
    + apply pages_ok.
    + eapply al_sizes; [|apply pages_sizes|done]. done.
    + intros Hn. rewrite Hn in Esum. cbn [foldr] in Esum. lia.
    + rewrite Esum. lia.
    + by rewrite Esum.
  - set (nl := lp + (if bp - k =? 0 then 0 else 1)) in *. rewrite Hd. destruct (Nat.eqb_spec (length frames) nl) as [Lf|]; [|done].
    destruct (take_frames (mc_free (rr_m R)) LARGE frames) as [free|] eqn:T; [|done].
    assert ((RM_MSG <? shmem_reply nl)%N = false) as ->. { apply N.ltb_ge. unfold RM_MSG, shmem_reply, nl. lia. }
    pose proof (take_frames_size _ _ _ _ T) as Hfsz. apply take_frames_tk in T; [|by right]. destruct (tk_pages _ _ _ T) as (Fok & _).
    set (pgs := match drop lp frames with f :: _ => frame_pages f | [] => [] end).
    assert (bp - k <= length pgs) as Lpg.
    { unfold pgs. pose proof (drop_length frames lp) as Ld. rewrite Lf in Ld. unfold nl in Ld.
      assert (Forall (fun f => pf_size f = LARGE) (drop lp frames)) as Hds by (by apply Forall_drop).
      destruct (drop lp frames) as [|f l] eqn:Edr; cbn [length] in Ld.
      - destruct (Nat.eqb_spec (bp - k) 0); lia.
      - apply Forall_cons_1 in Hds as [Hf _]. rewrite len_frame_pages, Hf. change (N.to_nat (LARGE / BASE)) with (N.to_nat 512). lia. }
    set (fresh := take (bp - k) pgs). assert (length fresh = bp - k) as Lfr by (unfold fresh; rewrite take_length; lia).
    set (larges := take lp frames). assert (length larges = lp) as Llg by (unfold larges; rewrite take_length, Lf; unfold nl; lia).
    assert (Forall (frame_ok true) larges /\ Forall (fun f => pf_size f = LARGE) larges) as [Lok Lsz] by (split; by apply Forall_take).
    change (fun f : pframe => _) with (fun f => pf_size f = LARGE) in Lsz. clearbody fresh larges.
    assert (foldr (fun f t => (pf_size f + t)%N) 0%N (larges ++ map page_frame fresh ++ map page_frame (reverse dr)) = in_pages size) as Esum.
    { rewrite !sum_app, (sum_sizes _ LARGE Lsz), !(sum_sizes _ BASE) by apply pages_sizes. rewrite !map_length, Ltk, Lfr, Llg, <- Hsz.
      rewrite Nat2N.inj_sub. unfold LARGE, BASE. lia. }
    rewrite <- Esum. eapply map_found_go; try done.
    + apply Forall_app. split; [done|]. apply Forall_app. split; apply pages_ok.
    + assert (forall l b', (b' mod BASE = 0)%N -> al_from b' (map page_frame l)) as Hpa by (intros l b' Hb'; eapply al_sizes; [|apply pages_sizes|exact Hb']; done).
      apply al_app.
      * destruct lp as [|lp']; [destruct larges; done|]. eapply (al_sizes LARGE); [done|exact Lsz|]. apply Hal2.
        destruct (N.le_gt_cases 2097152 size) as [|Hlt]; [done|]. apply Hsmall in Hlt. lia.
      * rewrite <- map_app. apply Hpa. rewrite (sum_sizes _ LARGE Lsz).
        replace (N.of_nat (length larges) * LARGE)%N with (N.of_nat (length larges) * 512 * BASE)%N by (unfold LARGE, BASE; lia).
        by rewrite N.mod_add.
    + intros Hn. rewrite Hn in Esum. cbn [foldr] in Esum. lia.
    + rewrite Esum. lia.
    + by rewrite Esum.
Qed.
End rack.
